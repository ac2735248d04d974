(* C78, C79: the client, reading and writing bytes, together with the brokers of C73 and C71.  The bytes may arrive in
   pieces of any size, and the connection may break at any byte. *)
From Verif Require Import Base VarInt Prims Props Codes Packets Options Session Client System SpecSession SpecNet SpecCodec SpecRead SpecOut SpecEnd SmolStream TokioRead Wire SpecWire SpecPolite SpecSource SpecBytes SpecCarry
  Scenario LoopCases OutCases PoliteCases SourceAll SourceCases CarryMore CarryCases.

(* C78.  Full statement: C78_once_partial and the others for "sourced_bytes c chk g" with any g.  C78_torn_refuted is the
   counterexample with a tokio client that abandons a read in the middle of a packet.  Also not covered, as in C73: an
   application that calls connect while it is connected. *)
Theorem C78_log : forall c chk g i k w, sourced_bytes c chk g i k w -> of_client (so_log w) = trace (w_sys i).
Proof. exact bytes_log. Qed.
Print Assumptions C78_log.
(* What the application is handed is the message that the broker sent last with that identifier, and one of QoS 2 it has not
   been handed before. *)
Theorem C78_once_partial : forall c chk g i0 k w l1 l2 y i, config_ok c -> built c -> g = true \/ cf_rt c = Smol -> sourced_bytes c chk g i0 k w ->
  so_log w = l1 ++ Client (OHandle (PPublish y)) :: l2 -> pb_qos y <> AtMostOnce -> pb_pkid y = Some i ->
  exists x m, since i l1 x m /\ copy_of x y /\
    (pb_qos y = ExactlyOnce -> forall y', In (Client (OHandle (PPublish y'))) m -> pb_pkid y' = Some i -> pb_qos y' = AtMostOnce).
Proof. exact bytes_once. Qed.
Print Assumptions C78_once_partial.
(* A message of QoS 1 that the broker considers delivered was handed to the application. *)
Theorem C78_acknowledged_partial : forall c chk g i0 k w l1 l2 x, config_ok c -> built c -> g = true \/ cf_rt c = Smol -> sourced_bytes c chk g i0 k w ->
  so_log w = l1 ++ Finish x :: l2 -> pb_qos x = AtLeastOnce ->
  exists i m y, since i l1 x m /\ copy_of x y /\ In (Client (OHandle (PPublish y))) m.
Proof. exact bytes_acknowledged. Qed.
Print Assumptions C78_acknowledged_partial.
(* So was one of QoS 2, if the client read it when it was sent first, or if the connection did not break. *)
Theorem C78_received_partial : forall c chk g i0 k w l1 l2 x, config_ok c -> built c -> g = true \/ cf_rt c = Smol -> sourced_bytes c chk g i0 k w ->
  so_log w = l1 ++ Finish x :: l2 -> pb_qos x = ExactlyOnce ->
  exists i m, since i l1 x m /\ (In (Client (ORead (PPublish x))) m \/ ~ In (Client OConnect) m -> exists y, copy_of x y /\ In (Client (OHandle (PPublish y))) m).
Proof. exact bytes_received. Qed.
Print Assumptions C78_received_partial.
(* both messages are received, most packets in two pieces; the connection breaks before PUBREC and PUBACK arrive, and both
   exchanges are completed on the next connection *)
Example C78_case : forall rt, config_ok (lc_cfg rt) /\ built (lc_cfg rt) /\
  exists i k w, sourced_bytes (lc_cfg rt) false true i k w /\ finished (so_log w) = [s_msg false AtLeastOnce 1; s_msg false ExactlyOnce 2] /\
  handed (so_log w) = [s_msg false AtLeastOnce 1; s_msg false ExactlyOnce 2; s_msg true AtLeastOnce 1].
Proof. intros rt. split; [destruct rt; now vm_compute|]. split; [apply lc_built|exact (sb_both_case rt)]. Qed.
(* Without the condition in C78_received_partial it is false: the connection breaks in the middle of the message. *)
Theorem C78_received_refuted : forall rt, exists i k w x, sourced_bytes (lc_cfg rt) false true i k w /\ In (Finish x) (so_log w) /\ pb_qos x = ExactlyOnce /\
  forall y, ~ In (OHandle (PPublish y)) (trace (w_sys i)).
Proof. exact sb_lost_refuted. Qed.
Print Assumptions C78_received_refuted.
(* The application is handed a message of QoS 1, and the broker has sent none. *)
Theorem C78_torn_refuted : exists i k w, config_ok (lc_cfg Tokio) /\ built (lc_cfg Tokio) /\ sourced_bytes (lc_cfg Tokio) false false i k w /\
  In (OHandle (PPublish sb_inner)) (trace (w_sys i)) /\ forall x, ~ In (Start x) (so_log w).
Proof. exact sb_torn_refuted. Qed.
Print Assumptions C78_torn_refuted.

(* C79.  Full statement: the theorems for "polite_bytes c chk g" with any g, and C79_no_panic_partial for both runtimes.
   C79_torn_refuted and C79_split_refuted are the counterexamples.  Also not covered, as in C71: an application that calls
   connect while it is connected. *)
(* Every acknowledgement that run reads is one the client waits for. *)
Theorem C79_expected_partial : forall c chk g i k, config_ok c -> built c -> g = true \/ cf_rt c = Smol -> polite_bytes c chk g i k ->
  everywhere (fun l o => forall p, o = ORead p -> is_ack p = true -> awaited (ledger_of (op_clean_start (cf_opts c)) l) p = true) (trace (w_sys i)).
Proof. exact bytes_expected. Qed.
Print Assumptions C79_expected_partial.
(* The handler panics only for a publish whose identifier has no place in the table. *)
Theorem C79_panics_partial : forall c chk g i k, config_ok c -> built c -> g = true \/ cf_rt c = Smol -> polite_bytes c chk g i k ->
  everywhere (fun l o => o = OPanic ->
    exists l0 x i, l = l0 ++ [OWrite FromClient (PPublish x)] /\ pb_pkid x = Some i /\ receive_max (cf_opts c) < i) (trace (w_sys i)).
Proof. exact bytes_panics. Qed.
Print Assumptions C79_panics_partial.
(* With tokio neither the handler nor the decoder panics. *)
Theorem C79_no_panic_partial : forall c chk g i k, config_ok c -> built c -> send_max (cf_opts c) <= receive_max (cf_opts c) -> g = true -> cf_rt c = Tokio -> polite_bytes c chk g i k ->
  ~ In OPanic (trace (w_sys i)) /\ w_dead i = false.
Proof. exact bytes_alive. Qed.
Print Assumptions C79_no_panic_partial.
(* run does not end with an error of the packet handling, unless the application has dropped all its clients. *)
Theorem C79_errors_partial : forall c chk g i k, config_ok c -> built c -> g = true \/ cf_rt c = Smol -> polite_bytes c chk g i k ->
  everywhere (fun l o => forall e, o = ORunEnd (inr (HandlerErr e)) -> exists i, e = PacketIdChannelError i /\ In ODropClients l) (trace (w_sys i)).
Proof. exact bytes_errors. Qed.
Print Assumptions C79_errors_partial.
(* Neither run nor connect ends with an error of the decoder. *)
Theorem C79_decoded_partial : forall c chk g i k, config_ok c -> built c -> g = true \/ cf_rt c = Smol -> polite_bytes c chk g i k ->
  ~ In (ORunEnd (inr DeserializationError)) (trace (w_sys i)) /\ ~ In (OConnectEnd (Some DeserializationError)) (trace (w_sys i)).
Proof. exact bytes_decoded. Qed.
Print Assumptions C79_decoded_partial.
(* answers out of order and in pieces, a lost connection, and retransmission *)
Example C79_case : forall rt, config_ok (lc_cfg rt) /\ built (lc_cfg rt) /\ send_max (cf_opts (lc_cfg rt)) <= receive_max (cf_opts (lc_cfg rt)) /\
  exists i k, polite_bytes (lc_cfg rt) false true i k /\
  acks_read (trace (w_sys i)) = [pb_suback 3; PPubRec (sc_ack 2); PPubComp (sc_ack 2); PPubAck (sc_ack 1)] /\
  (exists x, pb_dup x = true /\ In (OWrite FromResend (PPublish x)) (trace (w_sys i))) /\ In (OWrite FromResend (PPubRel (sc_ack 2))) (trace (w_sys i)).
Proof. intros rt. split; [destruct rt; now vm_compute|]. split; [apply lc_built|]. split; [destruct rt; vm_compute; discriminate|exact (pb_talk_case rt)]. Qed.
Example C79_gone_case : forall rt, exists i k, polite_bytes (lc_cfg rt) false true i k /\ In (ORunEnd (inr (HandlerErr (PacketIdChannelError 1)))) (trace (w_sys i)).
Proof. exact pb_gone_case. Qed.
(* A tokio client that abandons a read in the middle of a message takes its payload for an acknowledgement, and panics. *)
Theorem C79_torn_refuted : exists i k, config_ok (lc_cfg Tokio) /\ built (lc_cfg Tokio) /\ send_max (cf_opts (lc_cfg Tokio)) <= receive_max (cf_opts (lc_cfg Tokio)) /\
  polite_bytes (lc_cfg Tokio) false false i k /\ In OPanic (trace (w_sys i)).
Proof. exact pb_torn_refuted. Qed.
Print Assumptions C79_torn_refuted.
(* smol panics when the answer to CONNECT arrives in pieces. *)
Theorem C79_split_refuted : forall chk, exists i k, config_ok (lc_cfg Smol) /\ built (lc_cfg Smol) /\ send_max (cf_opts (lc_cfg Smol)) <= receive_max (cf_opts (lc_cfg Smol)) /\
  polite_bytes (lc_cfg Smol) chk true i k /\ w_dead i = true.
Proof. exact pb_split_refuted. Qed.
Print Assumptions C79_split_refuted.
