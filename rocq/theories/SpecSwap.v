(* C86: what the client handles do, what the network task does, and when two states differ only in the order of what has been seen. *)
From Verif Require Import Base Packets Session Client System.

(* a call of a client handle makes progress or is given up *)
Definition handle_event (e : event) : Prop := match e with ECall _ | ESend _ | EGiveUp _ => True | _ => False end.
(* connect or run makes progress *)
Definition network_event (e : event) : Prop :=
  match e with ETick _ | ECall _ | ESend _ | EGiveUp _ | EDropClients => False | _ => True end.

(* what the tasks that use the handles see, as opposed to what the task that drives the network sees *)
Definition handle_out (o : out) : bool := match o with OBegin _ | OAccept _ | ORefuse _ _ | OGiveUp _ | ODropClients => true | _ => false end.
Definition handles_view (s : sys) : list (N * out) := filter (fun x => handle_out (snd x)) (y_log s).
Definition network_view (s : sys) : list (N * out) := filter (fun x => negb (handle_out (snd x))) (y_log s).

Definition alike (s t : sys) : Prop :=
  y_state s = y_state t /\ y_wait s = y_wait t /\ y_chan s = y_chan t /\ y_net s = y_net t /\ y_pc s = y_pc t /\ y_now s = y_now t /\
  handles_view s = handles_view t /\ network_view s = network_view t.
