(* Which bytes panic the smol client (C43, C54) *)
From Verif Require Import Base VarInt Prims Packets SpecCodec SpecPanic SpecAnswer System Wire.

(* s begins with a fixed header: a first byte that MQTT 5 knows, and enc, the remaining length *)
Definition headed (s enc : bytes) : Prop := exists first more, s = first :: enc ++ more /\ legal_first first = true /\ is_varint enc.
(* run, when it looks at s: the decoder panics, or overflow is checked, the packet is not complete, and there are more bytes
   than it announces *)
Definition run_panics (checked : bool) (s : bytes) : Prop :=
  panics s \/ checked = true /\ exists enc, headed s enc /\ groups_value enc < len s < 1 + len enc + groups_value enc.
(* connect: the client panics from the sizes alone, or the packet is received and the decoder panics *)
Definition connect_panics (checked : bool) (chunks : list bytes) : Prop :=
  exists enc, headed (concat chunks) enc /\
    match fate_of checked (1 + len enc) (groups_value enc) chunks with Panics => True | Received _ => panics (concat chunks) | Waits => False end.
(* the chunks that have arrived on the stream given to the last call of connect *)
Definition answer_chunks (xs : list wevent) : list bytes :=
  fold_left (fun acc x => match x with WEvent EConnect => [] | WArrive true ch => acc ++ [ch] | _ => acc end) xs [].
