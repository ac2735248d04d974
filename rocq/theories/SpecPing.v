(* When a PINGREQ is due. *)
From Verif Require Import Base VarInt Prims Props Codes Packets Options Session Client System SpecTime.

(* The last time the connection was in use: a packet written by run (for a reply, a request or a timer),
   a CONNACK that accepts a connection, the success of connect (after it has sent packets again); for the smol client also a packet read by run. *)
Definition use_step (rt : runtime) (u : N) (x : N * out) : N :=
  let (t, o) := x in
  match o with
  | OWrite FromReply _ | OWrite FromClient _ | OWrite FromTimer _ => t
  | OAnswer (PConnAck a) => match ca_rc a with RSuccess => t | _ => u end
  | OConnectEnd None => t
  | ORead _ => match rt with Smol => t | Tokio => u end
  | _ => u
  end.
Definition last_use (rt : runtime) (l : list (N * out)) : N := fold_left (use_step rt) l 0.
