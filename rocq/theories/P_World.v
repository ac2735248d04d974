(* C67: the client together with a broker that keeps MQTT 5. *)
From Verif Require Import Base VarInt Prims Props Codes Packets Options Session Client System SpecSession SpecNet SpecWorld Scenario WorldFacts WorldAll WorldLog.

(* C67.  Full statement: C67_once_partial for "joint c fair" with any fair.  C67_refuted is the counterexample with a broker
   that lost the session and later says that it has one; the answer in which it said that it has none was lost.  Also not
   covered: an application that calls connect while it is connected ("observed"). *)
Theorem C67_once_partial : forall c s w i y l1 l2, config_ok c -> joint c true s w -> wd_log w = l1 ++ Pass y :: l2 -> pb_pkid y = Some i -> pb_qos y = ExactlyOnce ->
  exists x l3 l4, l1 = l3 ++ Saw (OBegin (PPublish x)) :: l4 /\ same x y /\ Forall (neither i) l4.
Proof. exact passed_once. Qed.
Print Assumptions C67_once_partial.
Theorem C67_wanted_partial : forall c s w i y l1 l2, config_ok c -> joint c true s w -> wd_log w = l1 ++ Pass y :: l2 -> pb_pkid y = Some i ->
  exists x l3 l4, l1 = l3 ++ Saw (OBegin (PPublish x)) :: l4 /\ same x y /\ Forall (no_request i) l4.
Proof. exact passed_wanted. Qed.
Print Assumptions C67_wanted_partial.
Theorem C67_completed_partial : forall c s w a l1 l2, config_ok c -> joint c true s w -> wd_log w = l1 ++ Saw (ORead (PPubComp a)) :: l2 -> done_once (ak_id a) l1.
Proof. exact completed. Qed.
Print Assumptions C67_completed_partial.
Theorem C67_received_partial : forall c s w a l1 l2, config_ok c -> joint c true s w -> wd_log w = l1 ++ Saw (ORead (PPubRec a)) :: l2 -> rec_accepts (ak_rc a) = true ->
  done_once (ak_id a) l1.
Proof. exact received_once. Qed.
Print Assumptions C67_received_partial.
Theorem C67_acknowledged_partial : forall c s w a l1 l2, config_ok c -> joint c true s w -> wd_log w = l1 ++ Saw (ORead (PPubAck a)) :: l2 -> rec_accepts (ak_rc a) = true ->
  exists x y l3 l4 l5, l1 = l3 ++ Saw (OBegin (PPublish x)) :: l4 ++ Pass y :: l5 /\ pb_pkid x = Some (ak_id a) /\ pb_qos x = AtLeastOnce /\ same x y /\
    Forall (no_request (ak_id a)) l4 /\ Forall (no_request (ak_id a)) l5.
Proof. exact acked. Qed.
Print Assumptions C67_acknowledged_partial.
Theorem C67_stages_partial : forall c s w i, config_ok c -> joint c true s w -> exists t, follows i (wd_log w) t.
Proof. exact follows_all. Qed.
Print Assumptions C67_stages_partial.
(* PUBREC is lost with the connection; the publish is sent again, not passed on again, and completed *)
Example C67_case : forall rt, config_ok (sc rt 10 10 false) /\ exists s w l1 l2 l3 x y, joint (sc rt 10 10 false) true s w /\ pb_pkid y = Some 1 /\ pb_qos y = ExactlyOnce /\ same x y /\
  wd_log w = l1 ++ Saw (OBegin (PPublish x)) :: l2 ++ Pass y :: l3 ++ [Saw (ORead (PPubComp (good 1))); Saw (OHandle (PPubComp (good 1))); Saw OHandled] /\
  filter is_pass (wd_log w) = [Pass y] /\ In (Saw (OWrite FromResend (dup (PPublish x)))) l3.
Proof. intros rt. split; [destruct rt; now vm_compute|exact (good_case rt)]. Qed.
Theorem C67_refuted : exists c s w l1 l2 l3 l4 x y z, config_ok c /\ joint c false s w /\ pb_pkid y = Some 1 /\ pb_qos y = ExactlyOnce /\ same x y /\ same x z /\
  wd_log w = l1 ++ Saw (OBegin (PPublish x)) :: l2 ++ Pass y :: l3 ++ Pass z :: l4 /\ Forall (neither 1) l2 /\ Forall (neither 1) l3.
Proof. exact bad_witness. Qed.
Print Assumptions C67_refuted.
