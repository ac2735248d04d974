(* C88: the broker's packet identifiers are only names. *)
From Verif Require Import Base VarInt Prims Props Codes Packets Options Session Client System SpecSession SpecNet SpecTrace SpecLabel Scenario LoopCases LabelFacts LabelCases.

(* if the broker uses other identifiers for its messages, different ones for different ones, then the client answers with those, and nothing else changes:
   the same events are possible, and the state, what the handler is given, the requests and the times are the same *)
Theorem C88_labels : forall f, one_to_one f -> forall c es, config_ok c ->
  exec c (map (label_event f) es) (init c) = option_map (label_sys f) (exec c es (init c)).
Proof. exact labels. Qed.
Print Assumptions C88_labels.

Example C88_case : forall rt, one_to_one lb_swap /\ config_ok (lc_cfg rt) /\ exists s s', exec (lc_cfg rt) lb_events (init (lc_cfg rt)) = Some s /\
  exec (lc_cfg rt) (map (label_event lb_swap) lb_events) (init (lc_cfg rt)) = Some s' /\ st_in (y_state s) = [9] /\ st_in (y_state s') = [3] /\
  In (OWrite FromReply (PPubComp (sc_ack 3))) (trace s) /\ In (OWrite FromReply (PPubComp (sc_ack 9))) (trace s') /\ lb_given (trace s) = 2%nat /\ lb_given (trace s') = 2%nat.
Proof. exact label_case. Qed.
(* identifiers are told apart, though: two messages under one identifier are taken for one *)
Example C88_sharp : forall rt, ~ one_to_one (fun _ => 3) /\ exists s s', exec (lc_cfg rt) (firstn 16 lb_events) (init (lc_cfg rt)) = Some s /\ lb_given (trace s) = 2%nat /\
  exec (lc_cfg rt) (firstn 14 (map (label_event (fun _ => 3)) lb_events) ++ [EWrite true]) (init (lc_cfg rt)) = Some s' /\ lb_given (trace s') = 1%nat.
Proof. exact label_sharp. Qed.
