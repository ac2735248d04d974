(* C94: what has to happen for a client to be connected again. *)
From Verif Require Import Base Packets Session Client System SpecSession.

(* The application calls connect and run, and its handler returns; writes succeed or fail; reads fail; and all that the broker says is
   CONNACK [a].  No call is made, no request is taken from the channel, no time passes. *)
Definition recovery (a : connack) (e : event) : Prop :=
  match e with
  | EConnect | ERun | EHandled | EWrite _ | EWrites _ _ => True
  | EReadErr x => x = Io
  | EPacket p => p = PConnAck a
  | _ => False
  end.

(* there is a connection, and run waits for what comes next *)
Definition at_work (s : sys) : Prop := nt_connected (y_net s) = true /\ exists k, y_pc s = PSelect k.
(* since s the broker has accepted a connection with [a], connect has returned Ok, and run has been called *)
Definition fresh_start (a : connack) (s s' : sys) : Prop :=
  exists l0 l1, trace s' = trace s ++ l0 ++ OAnswer (PConnAck a) :: OHandle (PConnAck a) :: OHandled :: l1 ++ [OConnectEnd None; ORun].
