(* C69: what the packets read have to do with the bytes that arrived. *)
From Verif Require Import Base VarInt Prims Props Codes Packets System SpecCodec SpecLenient.

(* [b] is a frame with packet [p] in it, as lax as C66 found the decoder of the runtime to be *)
Definition frame_of (rt : runtime) (p : packet) (b : bytes) : Prop :=
  match rt with
  | Tokio => exists enc body, b = spec_first p :: enc ++ body /\ is_varint enc /\ lax_body FromStream p body /\
      (In (type_of p) [TPublish; TPubComp; TSubAck] -> groups_value enc = len body)
  | Smol => exists enc body extra, b = spec_first p :: enc ++ body ++ extra /\ int_enc (len (body ++ extra)) enc /\ lax_body FromBuffer p body /\
      (In (type_of p) [TPublish; TSubscribe; TUnsubscribe; TSubAck; TUnsubAck] -> extra = [])
  end.
