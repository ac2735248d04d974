(* C24 - C29, C31: sessions and message exchanges.  Statements about the trace: everything observed so
   far, oldest first.  lg_sent: publishes (and other requests) written and not finished; lg_rel:
   exchanges released by PUBREC (SpecSession.v). *)
From Coq Require Import Permutation.
From Verif Require Import Base VarInt Prims Props Codes Packets Options Session Client System SpecSession SpecNet SpecTrace.
From Verif Require Import TraceMore TraceExact ResumeMore LoopMore Scenario LoopCases.

(* C24.  rel, a permutation: the order of the PUBRELs is that of a set. *)
Theorem C24_smol : forall c s l1 a m l2, config_ok c -> reachable c s -> cf_rt c = Smol ->
  trace s = l1 ++ OAnswer (PConnAck a) :: m ++ OConnectEnd None :: l2 -> existsb is_connect_end m = false ->
  resumed (op_clean_start (cf_opts c)) a = true ->
  exists rel, Permutation rel (lg_rel (ledger_of (op_clean_start (cf_opts c)) l1)) /\
  net_of m = OHandle (PConnAck a) :: OHandled ::
    map (OWrite FromResend) (map dup (filter is_pub (lg_sent (ledger_of (op_clean_start (cf_opts c)) l1))) ++ map (fun i => PPubRel (okay i)) rel).
Proof. exact resumes_smol. Qed.
Print Assumptions C24_smol.
(* Full statement for tokio: as C24_smol.  Missing: that the packets are written, they are attempted. *)
Theorem C24_tokio_partial : forall c s l1 a m l2, config_ok c -> reachable c s ->
  trace s = l1 ++ OAnswer (PConnAck a) :: m ++ OConnectEnd None :: l2 -> existsb is_connect_end m = false ->
  resumed (op_clean_start (cf_opts c)) a = true ->
  exists rel outs, Permutation rel (lg_rel (ledger_of (op_clean_start (cf_opts c)) l1)) /\
  net_of m = OHandle (PConnAck a) :: OHandled :: outs /\
  Forall2 (attempt FromResend)
    (map dup (filter is_pub (lg_sent (ledger_of (op_clean_start (cf_opts c)) l1))) ++ map (fun i => PPubRel (okay i)) rel) outs.
Proof. exact resumes_tokio. Qed.
Print Assumptions C24_tokio_partial.
Theorem C24_nothing_else : forall c s l1 p o l2, config_ok c -> reachable c s -> trace s = l1 ++ o :: l2 -> attempt FromResend p o ->
  exists l0 a m, l1 = l0 ++ OAnswer (PConnAck a) :: m /\ ca_rc a = RSuccess /\ existsb is_connect_end m = false /\
    resumed (op_clean_start (cf_opts c)) a = true.
Proof. exact resend_only. Qed.
Print Assumptions C24_nothing_else.
Example C24_case : forall rt, exists s l1 a m l2, config_ok (lc_cfg rt) /\ reachable (lc_cfg rt) s /\
  trace s = l1 ++ OAnswer (PConnAck a) :: m ++ OConnectEnd None :: l2 /\ existsb is_connect_end m = false /\ resumed false a = true /\
  filter is_pub (lg_sent (ledger_of false l1)) = [PPublish (lc_pub false AtLeastOnce (Some 1)); PPublish (lc_pub false ExactlyOnce (Some 4))] /\
  lg_rel (ledger_of false l1) = [2].
Proof. exact resume_case. Qed.
(* tokio/stream.rs write_packets drops the results of the writes: connect returns Ok although the
   publish was not resent *)
Theorem C24_tokio_refuted : exists s l1 a m l2 p, config_ok (lc_cfg Tokio) /\ reachable (lc_cfg Tokio) s /\
  trace s = l1 ++ OAnswer (PConnAck a) :: m ++ OConnectEnd None :: l2 /\ existsb is_connect_end m = false /\ resumed false a = true /\
  In p (map dup (filter is_pub (lg_sent (ledger_of false l1)))) /\ ~ In (OWrite FromResend p) (trace s) /\ y_pc s = PSelect 0.
Proof. exact resend_lost. Qed.
Print Assumptions C24_tokio_refuted.

(* C25 *)
Theorem C25_nothing_resent : forall c s l1 a m l2, config_ok c -> reachable c s ->
  trace s = l1 ++ OAnswer (PConnAck a) :: m ++ OConnectEnd None :: l2 -> existsb is_connect_end m = false ->
  resumed (op_clean_start (cf_opts c)) a = false -> net_of m = [OHandle (PConnAck a); OHandled].
Proof. exact starts_anew. Qed.
Print Assumptions C25_nothing_resent.
(* p would have been accepted before; after the new CONNACK it is refused, unless its identifier is used
   by a request written since *)
Theorem C25_old_refused : forall c s since l1 a l2 p i, config_ok c -> reachable c s ->
  trace s = l1 ++ OAnswer (PConnAck a) :: l2 -> ca_rc a = RSuccess -> resumed (op_clean_start (cf_opts c)) a = false ->
  is_ack p = true -> ack_id p = Some i -> awaited (ledger_of (op_clean_start (cf_opts c)) l1) p = true ->
  y_pc s = PSelect since -> (forall r, In (OWrite FromClient r) l2 -> req_id r <> Some i) ->
  exists s', step c (EPacket p) s = Some s' /\
    trace s' = trace s ++ [ORead p; ORunEnd (inr (HandlerErr (Unsolicited i (type_of p))))] /\ y_state s' = y_state s.
Proof. exact old_refused. Qed.
Print Assumptions C25_old_refused.
Example C25_case : forall rt, exists s l1 a m l2, config_ok (lc_cfg rt) /\ reachable (lc_cfg rt) s /\
  trace s = l1 ++ OAnswer (PConnAck a) :: m ++ OConnectEnd None :: l2 /\ existsb is_connect_end m = false /\ resumed false a = false /\
  ca_rc a = RSuccess /\ y_pc s = PSelect 0 /\
  awaited (ledger_of false l1) (PPubAck (sc_ack 1)) = true /\ awaited (ledger_of false l1) (PPubComp (sc_ack 2)) = true /\
  (forall r, ~ In (OWrite FromClient r) (m ++ OConnectEnd None :: l2)).
Proof. exact anew_case. Qed.

(* C26.  goes: as far as the execution goes (SpecTrace.v).  When the write fails run ends with an error. *)
Theorem C26_qos1 : forall c s l1 x i l2, config_ok c -> reachable c s -> trace s = l1 ++ ORead (PPublish x) :: l2 ->
  pb_qos x = AtLeastOnce -> pb_pkid x = Some i ->
  goes (net_of l2) [OHandle (PPublish x); OHandled; OWrite FromReply (PPubAck (okay i))] \/
  (exists e, goes (net_of l2) [OHandle (PPublish x); OHandled; OWriteFail FromReply (PPubAck (okay i)); ORunEnd (inr e)]).
Proof. exact qos1_forward. Qed.
Print Assumptions C26_qos1.
Theorem C26_qos0 : forall c s l1 x l2, config_ok c -> reachable c s -> trace s = l1 ++ ORead (PPublish x) :: l2 ->
  pb_qos x = AtMostOnce ->
  goes (net_of l2) [OHandle (PPublish x); OHandled] /\
  (forall m o p m', l2 = m ++ o :: m' -> attempt FromReply p o -> exists r, In (ORead r) m).
Proof. exact qos0_forward. Qed.
Print Assumptions C26_qos0.
(* the other direction: nothing is handed over or acknowledged twice or without having been read *)
Theorem C26_handled : forall c s l1 x l2, config_ok c -> reachable c s -> trace s = l1 ++ OHandle (PPublish x) :: l2 ->
  exists l0 m, l1 = l0 ++ ORead (PPublish x) :: m /\ net_of m = [].
Proof. exact handled_read. Qed.
Print Assumptions C26_handled.
Theorem C26_puback : forall c s l1 a o l2, config_ok c -> reachable c s -> trace s = l1 ++ o :: l2 -> attempt FromReply (PPubAck a) o ->
  exists l0 x m, l1 = l0 ++ ORead (PPublish x) :: m /\ pb_qos x = AtLeastOnce /\ pb_pkid x = Some (ak_id a) /\
    a = okay (ak_id a) /\ net_of m = [OHandle (PPublish x); OHandled].
Proof. exact puback_read. Qed.
Print Assumptions C26_puback.
Example C26_case : forall rt, exists s l1 l2, config_ok (lc_cfg rt) /\ reachable (lc_cfg rt) s /\
  trace s = l1 ++ ORead (PPublish (lc_pub false AtLeastOnce (Some 7))) :: l2 /\
  l2 = [OHandle (PPublish (lc_pub false AtLeastOnce (Some 7))); OHandled; OWrite FromReply (PPubAck (okay 7))].
Proof. exact qos1_case. Qed.
Example C26_case0 : forall rt, exists s l1 l2, config_ok (lc_cfg rt) /\ reachable (lc_cfg rt) s /\
  trace s = l1 ++ ORead (PPublish (lc_pub false AtMostOnce None)) :: l2 /\ l2 = [OHandle (PPublish (lc_pub false AtMostOnce None)); OHandled].
Proof. exact qos0_case. Qed.

(* C27 *)
Theorem C27_once : forall c s i p1 p2 l1 m l2, config_ok c -> reachable c s ->
  trace s = l1 ++ OHandle p1 :: m ++ OHandle p2 :: l2 -> q2 i p1 -> q2 i p2 -> exists o, In o m /\ releases i o = true.
Proof. exact once. Qed.
Print Assumptions C27_once.
Theorem C27_pubrec : forall c s l1 p i l2, config_ok c -> reachable c s -> trace s = l1 ++ ORead p :: l2 -> q2 i p ->
  exists pre, (pre = [] \/ pre = [OHandle p; OHandled]) /\
  (goes (net_of l2) (pre ++ [OWrite FromReply (PPubRec (okay i))]) \/
   (exists e, goes (net_of l2) (pre ++ [OWriteFail FromReply (PPubRec (okay i)); ORunEnd (inr e)]))).
Proof. exact pubrec_forward. Qed.
Print Assumptions C27_pubrec.
Theorem C27_pubrel : forall c s l1 a l2, config_ok c -> reachable c s -> trace s = l1 ++ ORead (PPubRel a) :: l2 ->
  goes (net_of l2) [OHandle (PPubRel a); OHandled; OWrite FromReply (PPubComp (okay (ak_id a)))] \/
  (exists e, goes (net_of l2) [OHandle (PPubRel a); OHandled; OWriteFail FromReply (PPubComp (okay (ak_id a))); ORunEnd (inr e)]).
Proof. exact pubrel_forward. Qed.
Print Assumptions C27_pubrel.
Example C27_case : forall rt, exists s l1 m l2, config_ok (lc_cfg rt) /\ reachable (lc_cfg rt) s /\
  trace s = l1 ++ OHandle lc_q2 :: m ++ OHandle lc_q2 :: l2 /\ q2 7 lc_q2 /\
  m = [OHandled; OWrite FromReply (PPubRec (okay 7)); ORead lc_q2d; OWrite FromReply (PPubRec (okay 7));
       ORead (PPubRel (sc_ack 7)); OHandle (PPubRel (sc_ack 7)); OHandled; OWrite FromReply (PPubComp (okay 7)); ORead lc_q2].
Proof. exact qos2_case. Qed.

(* C28.  Full statement: without the hypothesis that the first copy read in the exchange does not have
   the duplicate flag. *)
Theorem C28_partial : forall c s l1 a o l2, config_ok c -> reachable c s -> trace s = l1 ++ o :: l2 -> attempt FromReply (PPubRec a) o ->
  exists l0 x m, l1 = l0 ++ ORead (PPublish x) :: m /\ q2 (ak_id a) (PPublish x) /\ ~ In (ak_id a) (received l0) /\
    unreleased (ak_id a) m /\
    (pb_dup x = false -> exists t, net_of m = OHandle (PPublish x) :: OHandled :: t).
Proof. exact pubrec_has. Qed.
Print Assumptions C28_partial.
Example C28_case : forall rt, exists s l1 m l2, config_ok (lc_cfg rt) /\ reachable (lc_cfg rt) s /\
  trace s = l1 ++ OHandle lc_q2 :: m ++ OHandle lc_q2 :: l2 /\ q2 7 lc_q2 /\
  m = [OHandled; OWrite FromReply (PPubRec (okay 7)); ORead lc_q2d; OWrite FromReply (PPubRec (okay 7));
       ORead (PPubRel (sc_ack 7)); OHandle (PPubRel (sc_ack 7)); OHandled; OWrite FromReply (PPubComp (okay 7)); ORead lc_q2].
Proof. exact qos2_case. Qed.
(* The first copy of a message arrives with the duplicate flag (the broker sent it on an earlier
   connection that was lost).  It is acknowledged with PUBREC and completed and the handler never sees it. *)
Theorem C28_refuted : forall rt, exists s, config_ok (lc_cfg rt) /\ reachable (lc_cfg rt) s /\
  In (ORead lc_q2d) (trace s) /\ In (OWrite FromReply (PPubRec (okay 7))) (trace s) /\ In (OWrite FromReply (PPubComp (okay 7))) (trace s) /\
  (forall p, q2 7 p -> ~ In (OHandle p) (trace s)).
Proof. exact qos2_lost. Qed.
Print Assumptions C28_refuted.
(* Exactly which are handed over: a QoS 2 message is, before its PUBREC, if and only if no exchange with its identifier is
   open and it does not have the duplicate flag. *)
Theorem C28_exact : forall c s l1 x i l2, config_ok c -> reachable c s -> trace s = l1 ++ ORead (PPublish x) :: l2 -> q2 i (PPublish x) ->
  exists pre, (pre = [] /\ (In i (received l1) \/ pb_dup x = true) \/ pre = [OHandle (PPublish x); OHandled] /\ ~ In i (received l1) /\ pb_dup x = false) /\
  (goes (net_of l2) (pre ++ [OWrite FromReply (PPubRec (okay i))]) \/
   exists e, goes (net_of l2) (pre ++ [OWriteFail FromReply (PPubRec (okay i)); ORunEnd (inr e)])).
Proof. exact pubrec_exact. Qed.
Print Assumptions C28_exact.

(* C29 *)
Theorem C29_pubrel : forall c s l1 org a o l2, config_ok c -> reachable c s -> trace s = l1 ++ o :: l2 -> attempt org (PPubRel a) o ->
  In (ak_id a) (lg_rel (ledger_of (op_clean_start (cf_opts c)) l1)).
Proof. exact pubrel_written. Qed.
Print Assumptions C29_pubrel.
Theorem C29_publish : forall c s l1 org x i o l2, config_ok c -> reachable c s -> trace s = l1 ++ o :: l2 -> attempt org (PPublish x) o ->
  pb_pkid x = Some i -> ~ In i (lg_rel (ledger_of (op_clean_start (cf_opts c)) l1)).
Proof. exact publish_not_released. Qed.
Print Assumptions C29_publish.
Theorem C29_pubcomp : forall c s l1 a m org b o l2, config_ok c -> reachable c s ->
  trace s = l1 ++ ORead (PPubComp a) :: m ++ o :: l2 -> In (ak_id a) (lg_rel (ledger_of (op_clean_start (cf_opts c)) l1)) ->
  attempt org (PPubRel b) o -> ak_id b = ak_id a -> exists p, In (OWrite FromClient p) m /\ req_id p = Some (ak_id a).
Proof. exact completed. Qed.
Print Assumptions C29_pubcomp.
Example C29_case : forall rt, exists s l1 m o l2, config_ok (lc_cfg rt) /\ reachable (lc_cfg rt) s /\
  trace s = l1 ++ ORead (PPubComp (sc_ack 1)) :: m ++ o :: l2 /\ In 1 (lg_rel (ledger_of false l1)) /\ o = OWrite FromReply (PPubRel (okay 1)).
Proof. exact release_case. Qed.

(* C31.  Full statement: always the first alternative.  In the second the reply is PUBREC to a QoS 2
   publish that is a repetition, or is marked as one. *)
Theorem C31_partial : forall c s l1 p o l2, config_ok c -> reachable c s -> trace s = l1 ++ o :: l2 -> attempt FromReply p o ->
  exists l0 r m, l1 = l0 ++ ORead r :: m /\ answer r = Some p /\
  (net_of m = [OHandle r; OHandled] \/
   (net_of m = [] /\ exists i, q2 i r /\ (In i (received l0) \/ exists x, r = PPublish x /\ pb_dup x = true))).
Proof. exact reply_after_handler. Qed.
Print Assumptions C31_partial.
Example C31_case : forall rt, exists s l1 l2, config_ok (lc_cfg rt) /\ reachable (lc_cfg rt) s /\
  trace s = l1 ++ ORead (PPublish (lc_pub false AtLeastOnce (Some 7))) :: l2 /\
  l2 = [OHandle (PPublish (lc_pub false AtLeastOnce (Some 7))); OHandled; OWrite FromReply (PPubAck (okay 7))].
Proof. exact qos1_case. Qed.
Theorem C31_refuted : forall rt, exists s, config_ok (lc_cfg rt) /\ reachable (lc_cfg rt) s /\
  In (ORead lc_q2d) (trace s) /\ In (OWrite FromReply (PPubRec (okay 7))) (trace s) /\ In (OWrite FromReply (PPubComp (okay 7))) (trace s) /\
  (forall p, q2 7 p -> ~ In (OHandle p) (trace s)).
Proof. exact qos2_lost. Qed.
Print Assumptions C31_refuted.
(* Exactly which replies are not written after the handler: those to QoS 2 messages that are a repetition or marked as one. *)
Theorem C31_exact : forall c s l1 p o l2, config_ok c -> reachable c s -> trace s = l1 ++ o :: l2 -> attempt FromReply p o ->
  exists l0 r m, l1 = l0 ++ ORead r :: m /\ answer r = Some p /\
  (net_of m = [OHandle r; OHandled] /\ (forall i x, r = PPublish x -> q2 i r -> ~ In i (received l0) /\ pb_dup x = false) \/
   net_of m = [] /\ exists i x, r = PPublish x /\ q2 i r /\ (In i (received l0) \/ pb_dup x = true)).
Proof. exact reply_exact. Qed.
Print Assumptions C31_exact.
