(* C77: the client, reading and writing bytes, together with a broker that keeps MQTT 5.  The bytes may arrive in pieces
   of any size, and the connection may break at any byte. *)
From Verif Require Import Base VarInt Prims Props Codes Packets Options Session Client System SpecSession SpecNet SpecCodec SpecRead SpecOut SpecEnd SmolStream TokioRead Wire SpecWorld SpecBytes
  Scenario LoopCases OutCases WorldLog BytesCases.

(* C77.  Full statement: C77_once_partial and the others for "linked_up c chk fair g" with any fair and g.  C67_refuted
   shows why the broker must be fair; C77_torn_refuted is the counterexample with a tokio client that abandons a read in the
   middle of a packet.  Also not covered, as in C67: an application that calls connect while it is connected. *)
Theorem C77_log : forall c chk fair g i k w, linked_up c chk fair g i k w -> saw (wd_log w) = trace (w_sys i).
Proof. exact linked_log. Qed.
Print Assumptions C77_log.
Theorem C77_once_partial : forall c chk g i0 k w i y l1 l2, config_ok c -> built c -> g = true \/ cf_rt c = Smol -> linked_up c chk true g i0 k w ->
  wd_log w = l1 ++ Pass y :: l2 -> pb_pkid y = Some i -> pb_qos y = ExactlyOnce ->
  exists x l3 l4, l1 = l3 ++ Saw (OBegin (PPublish x)) :: l4 /\ same x y /\ Forall (neither i) l4.
Proof. exact linked_once. Qed.
Print Assumptions C77_once_partial.
Theorem C77_wanted_partial : forall c chk g i0 k w i y l1 l2, config_ok c -> built c -> g = true \/ cf_rt c = Smol -> linked_up c chk true g i0 k w ->
  wd_log w = l1 ++ Pass y :: l2 -> pb_pkid y = Some i ->
  exists x l3 l4, l1 = l3 ++ Saw (OBegin (PPublish x)) :: l4 /\ same x y /\ Forall (no_request i) l4.
Proof. exact linked_wanted. Qed.
Print Assumptions C77_wanted_partial.
Theorem C77_completed_partial : forall c chk g i0 k w a l1 l2, config_ok c -> built c -> g = true \/ cf_rt c = Smol -> linked_up c chk true g i0 k w ->
  wd_log w = l1 ++ Saw (ORead (PPubComp a)) :: l2 -> done_once (ak_id a) l1.
Proof. exact linked_completed. Qed.
Print Assumptions C77_completed_partial.
Theorem C77_received_partial : forall c chk g i0 k w a l1 l2, config_ok c -> built c -> g = true \/ cf_rt c = Smol -> linked_up c chk true g i0 k w ->
  wd_log w = l1 ++ Saw (ORead (PPubRec a)) :: l2 -> rec_accepts (ak_rc a) = true -> done_once (ak_id a) l1.
Proof. exact linked_received. Qed.
Print Assumptions C77_received_partial.
Theorem C77_acknowledged_partial : forall c chk g i0 k w a l1 l2, config_ok c -> built c -> g = true \/ cf_rt c = Smol -> linked_up c chk true g i0 k w ->
  wd_log w = l1 ++ Saw (ORead (PPubAck a)) :: l2 -> rec_accepts (ak_rc a) = true ->
  exists x y l3 l4 l5, l1 = l3 ++ Saw (OBegin (PPublish x)) :: l4 ++ Pass y :: l5 /\ pb_pkid x = Some (ak_id a) /\ pb_qos x = AtLeastOnce /\ same x y /\
    Forall (no_request (ak_id a)) l4 /\ Forall (no_request (ak_id a)) l5.
Proof. exact linked_acked. Qed.
Print Assumptions C77_acknowledged_partial.
Theorem C77_stages_partial : forall c chk g i0 k w i, config_ok c -> built c -> g = true \/ cf_rt c = Smol -> linked_up c chk true g i0 k w -> exists t, follows i (wd_log w) t.
Proof. exact linked_stages. Qed.
Print Assumptions C77_stages_partial.
(* PUBREC is lost with the connection after 3 of its 4 bytes; the publish is sent again, not passed on again, and completed;
   most packets arrive in pieces *)
Example C77_case : forall rt, config_ok (lc_cfg rt) /\ built (lc_cfg rt) /\
  exists i k w l1 l2 l3 x y, linked_up (lc_cfg rt) false true true i k w /\ pb_pkid y = Some 1 /\ pb_qos y = ExactlyOnce /\ same x y /\
  wd_log w = l1 ++ Saw (OBegin (PPublish x)) :: l2 ++ Pass y :: l3 ++ [Saw (ORead (PPubComp (good 1))); Saw (OHandle (PPubComp (good 1))); Saw OHandled] /\
  filter is_pass (wd_log w) = [Pass y] /\ In (Saw (OWrite FromResend (dup (PPublish x)))) l3.
Proof. intros rt. split; [destruct rt; now vm_compute|]. split; [apply lc_built|exact (lp_case rt)]. Qed.
(* The client is told that its publish of QoS 1 succeeded, and the broker has passed nothing on. *)
Theorem C77_torn_refuted : exists c i k w a l, config_ok c /\ built c /\ linked_up c false true false i k w /\ wd_log w = l ++ [Saw (ORead (PPubAck a)); Saw (OHandle (PPubAck a))] /\
  rec_accepts (ak_rc a) = true /\ forall y, ~ In (Pass y) (wd_log w).
Proof. exact torn_bytes. Qed.
Print Assumptions C77_torn_refuted.
