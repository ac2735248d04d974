(* Words for statements about a connection. *)
From Verif Require Import Base VarInt Prims Props Codes Packets System SpecCodec SpecRead Wire.

(* the packets read since the connection was opened *)
Definition since_open (l : list out) : list packet :=
  fold_left (fun acc o => match o with OConnectEnd None => [] | ORead p => acc ++ [p] | _ => acc end) l [].
(* the messages given to the handler since then *)
Definition is_message (p : packet) : bool :=
  match p with PPublish x => match pb_qos x with ExactlyOnce => false | _ => true end | _ => false end.
Definition messages_since_open (l : list out) : list packet :=
  fold_left (fun acc o => match o with OConnectEnd None => [] | OHandle p => if is_message p then acc ++ [p] else acc | _ => acc end) l [].
(* what the broker sends is MQTT 5; connections may also break *)
Definition sendable (e : event) : Prop :=
  match e with EPacket p => exists b, sent p b | EPartial => False | EReadErr x => x = Io | _ => True end.
(* bytes are below 256 *)
Definition wbytes (x : wevent) : Prop := match x with WArrive _ ch => all_bytes ch | _ => True end.
