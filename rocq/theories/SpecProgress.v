(* C70: words for statements about progress. *)
From Verif Require Import Base VarInt Prims Props Codes Packets Options Session Client System Wire.

(* what connect and run do without waiting for the broker, the application or time: read what has arrived, see the
   handler return and writes end, take a request *)
Definition own_work (x : wevent) : Prop :=
  match x with WRead | WEvent EHandled | WEvent (EWrite _) | WEvent (EWrites _ _) | WEvent EOutgoing => True | _ => False end.
Definition connecting (q : pc) : bool := match q with PConnWrite | PConnRead | PConnHandle _ | PConnResend _ => true | _ => false end.
(* the connection in use *)
Definition in_use (w : wire) : stream := if connecting (y_pc (w_sys w)) then w_new w else w_net w.
(* connect or run has returned, or the task has panicked *)
Definition over (w : wire) : Prop := y_pc (w_sys w) = PIdle \/ y_pc (w_sys w) = PCrash \/ w_dead w = true.
(* nothing to read, and nothing to send *)
Definition waiting_for_more (w : wire) : Prop :=
  sr_in (in_use w) = [] /\
  (y_pc (w_sys w) = PConnRead \/ (exists t, y_pc (w_sys w) = PSelect t) /\ y_chan (w_sys w) = [] /\ pl_open (st_pool (y_state (w_sys w))) = true).
