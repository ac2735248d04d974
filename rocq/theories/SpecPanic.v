(* Exactly which bytes make the buffer decoder panic (C07) *)
From Verif Require Import Base VarInt Prims Props Codes Packets SpecCodec SpecLenient.

(* the properties of CONNECT that are integers of a fixed size *)
Definition fixed_size (t : ptype) : option N :=
  match t with
  | SessionExpiryInterval | MaximumPacketSize => Some 4
  | ReceiveMaximum | TopicAliasMaximum => Some 2
  | RequestResponseInformation | RequestProblemInformation => Some 1
  | _ => None
  end.
(* the integer of a property is cut off by the end of the properties; those before it are in order *)
Definition cut_properties (b : bytes) : Prop :=
  exists enc its ib p t cut n more, b = enc ++ (ib ++ spec_id t :: cut) ++ more /\ int_enc (len (ib ++ spec_id t :: cut)) enc /\
    lax_items its ib /\ holds FromBuffer its p /\ props_ok connect_cfg p /\ get_prop t p = None /\
    fixed_size t = Some n /\ len cut < n.
(* A CONNECT that is cut off in the keep alive, or in a property *)
Definition panics (s : bytes) : Prop :=
  exists enc flags tail rest, s = 16 :: enc ++ ([0; 4; 77; 81; 84; 84; 5; flags] ++ tail) ++ rest /\ int_enc (8 + len tail) enc /\
    flags / 8 mod 4 <> 3 /\
    (len tail < 2 \/ exists k1 k2 b, tail = k1 :: k2 :: b /\ cut_properties b).
