(* C91: how much the client holds. *)
From Verif Require Import Base VarInt Prims Props Codes Packets Options Session Client System SmolStream TokioRead Wire SpecSession.

(* entries of the session's four sets of requests (state.rs L13-34) *)
Definition held_requests (h : state) : N := len (st_sub h) + len (st_unsub h) + len (st_order h) + len (st_rel h).
(* messages of the table *)
Definition held_messages (h : state) : N := len (filter (fun x => is_some x) (st_pub h)).
(* packets that wait in the network task to be written *)
Definition held_packets (s : sys) : N :=
  len (nt_buf (y_net s)) + match y_pc s with PReply _ | PRequest _ => 1 | PFlush ps => len ps | _ => 0 end.
(* bytes that have been taken from the connection and are no packet yet: none at all, or those of a packet of which more has to come *)
Definition undecided (r : stream) : Prop := sr_buf r = [] \/ aread_packet (sr_buf r) = AShort.
(* the first [n] responses that the broker might send in one go *)
Definition responses (n : nat) : bytes := concat (repeat [208; 0] n).
(* a message whose property section is announced with one byte and goes on and on: its header (remaining length 10), an empty topic, and [n] user
   properties of 5 bytes *)
Definition endless (n : nat) : bytes := [48; 10; 0; 0; 1] ++ concat (repeat [38; 0; 0; 0; 0] n).
