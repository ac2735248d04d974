(* What subscribing to topics has to say to the broker: MQTT 5, 3.8 and 3.10 *)
From Verif Require Import Base VarInt Prims Props Codes Packets SpecCodec Topics.

(* topic filter and subscription options (3.8.3.1): maximum QoS 2*b1+b0, No Local b2, Retain As Published b3, Retain
   Handling b5 b4.  Nothing said means 0. *)
Definition asked (x : one_sub) : bytes :=
  match x with
  | OneTopic t => spec_u16 (len t) ++ t ++ [0]
  | OneQos t AtMostOnce => spec_u16 (len t) ++ t ++ [0]
  | OneQos t AtLeastOnce => spec_u16 (len t) ++ t ++ [1]
  | OneQos t ExactlyOnce => spec_u16 (len t) ++ t ++ [2]
  | OneOpts t o => spec_u16 (len t) ++ t ++ [spec_qos (so_qos o) + 4 * spec_bit (so_nl o) + 8 * spec_bit (so_rap o) + 16 * spec_rh (so_rh o)]
  end.
Definition all_asked (a : sub_arg) : list one_sub := match a with SubOne x => [x] | SubMany l => l end.
Definition topic_of (x : one_sub) : bytes := match x with OneTopic t | OneQos t _ | OneOpts t _ => t end.
Definition all_left (a : unsub_arg) : list bytes := match a with UnsubOne t => [t] | UnsubMany l => l end.
(* a packet without properties *)
Definition plain_frame (first id : N) (payload : bytes) : bytes :=
  let body := spec_u16 id ++ [0] ++ payload in first :: spec_varint (len body) ++ body.
