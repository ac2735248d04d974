(* C82: topics and filters on the wire. *)
From Verif Require Import Base VarInt Prims Props Codes Packets Options Session Client System SpecSession SpecNet SpecTrace SpecAsk SpecAllow Scenario LoopCases AskFacts AllowFacts AskCases.

(* if the application makes only calls that MQTT 5 allows, then every request, and everything sent again, is allowed *)
Theorem C82_allowed_partial : forall c es s l1 o l2 org p, config_ok c -> exec c es (init c) = Some s -> (forall k, In (ECall k) es -> allowed_call k) ->
  trace s = l1 ++ o :: l2 -> org = FromClient \/ org = FromResend -> attempt org p o -> allowed p.
Proof. exact allowed_out. Qed.
Print Assumptions C82_allowed_partial.
Example C82_case : forall rt, (forall k, In (ECall k) (ak_events rt) -> allowed_call k) /\ exists s l1 o l2 p, config_ok (ak_cfg rt) /\ exec (ak_cfg rt) (ak_events rt) (init (ak_cfg rt)) = Some s /\
  trace s = l1 ++ o :: l2 /\ attempt FromResend p o /\ p = PPublish (lc_pub true AtLeastOnce (Some 1)).
Proof. exact allowed_case. Qed.
(* without that it is false: the client checks nothing but lengths, so each of these calls (tp_calls, AllowFacts.v) is written although MQTT 5 forbids it *)
Theorem C82_refuted : forall rt, Forall (fun k => ~ allowed_call k /\ exists es s p, config_ok (lc_cfg rt) /\ exec (lc_cfg rt) es (init (lc_cfg rt)) = Some s /\
  (forall k', In (ECall k') es -> k' = k) /\ asks k p /\ In (OWrite FromClient p) (trace s)) tp_calls.
Proof. exact tp_wild. Qed.
Print Assumptions C82_refuted.
