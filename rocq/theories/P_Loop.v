(* C32 - C36: the network loops. *)
From Verif Require Import Base VarInt Prims Props Codes Packets Options Session Client System SpecSession SpecNet SpecTrace.
From Verif Require Import LoopMore Scenario LoopCases OrderFacts.

(* C32.  Full statement: C32_written without its last hypothesis.  Missing: a request whose write fails
   is not written (C32_refuted). *)
Theorem C32_order_partial : forall c s, config_ok c -> reachable c s ->
  exists rest, accepted (trace s) = tried (trace s) ++ rest /\
    rest = match y_pc s with PRequest p => [p] | _ => [] end ++ y_chan s.
Proof. exact attempted_prefix. Qed.
Print Assumptions C32_order_partial.
Theorem C32_written_partial : forall c s, config_ok c -> reachable c s -> (forall p, ~ In (OWriteFail FromClient p) (trace s)) ->
  exists rest, accepted (trace s) = written (trace s) ++ rest.
Proof. exact written_prefix. Qed.
Print Assumptions C32_written_partial.
Theorem C32_failure : forall c s l1 p l2, config_ok c -> reachable c s -> trace s = l1 ++ OWriteFail FromClient p :: l2 ->
  exists e, goes (net_of l2) [ORunEnd (inr e)].
Proof. exact fail_ends. Qed.
Print Assumptions C32_failure.
(* 100 requests wait in the channel, one is being written. *)
Theorem C32_bounded : forall c s, config_ok c -> reachable c s -> len (accepted (trace s)) <= len (tried (trace s)) + 101.
Proof. exact waiting_bound. Qed.
Print Assumptions C32_bounded.
Theorem C32_channel : forall c s, config_ok c -> reachable c s -> len (y_chan s) <= 100.
Proof. exact chan_bound. Qed.
Print Assumptions C32_channel.
Example C32_case : forall rt, exists s l1 l2, config_ok (lc_cfg rt) /\ reachable (lc_cfg rt) s /\ trace s = l1 ++ OAccept (PPublish lc_x) :: l2 /\
  In (PPublish lc_x) (lg_sent (now_ledger (lc_cfg rt) s)) /\ (forall p, ~ In (OWriteFail FromClient p) (trace s)) /\ y_chan s = [PPublish lc_y].
Proof. exact kept_case. Qed.
Theorem C32_refuted : forall rt, exists s, config_ok (lc_cfg rt) /\ reachable (lc_cfg rt) s /\
  accepted (trace s) = [PPublish lc_x; PPublish lc_y] /\ written (trace s) = [PPublish lc_y].
Proof. exact skipped. Qed.
Print Assumptions C32_refuted.

(* C33.  Full statement: without the fourth alternative. *)
Theorem C33_partial : forall c s l1 x i l2, config_ok c -> reachable c s -> trace s = l1 ++ OAccept (PPublish x) :: l2 -> pb_pkid x = Some i ->
  In (PPublish x) (y_chan s) \/ y_pc s = PRequest (PPublish x) \/ In (PPublish x) (lg_sent (now_ledger c s)) \/
  In (OWriteFail FromClient (PPublish x)) l2 \/
  exists m1 o m2, l2 = m1 ++ o :: m2 /\ In (OWrite FromClient (PPublish x)) m1 /\ finishes (op_clean_start (cf_opts c)) i o.
Proof. exact kept. Qed.
Print Assumptions C33_partial.
Example C33_case : forall rt, exists s l1 l2, config_ok (lc_cfg rt) /\ reachable (lc_cfg rt) s /\ trace s = l1 ++ OAccept (PPublish lc_x) :: l2 /\
  In (PPublish lc_x) (lg_sent (now_ledger (lc_cfg rt) s)) /\ (forall p, ~ In (OWriteFail FromClient p) (trace s)) /\ y_chan s = [PPublish lc_y].
Proof. exact kept_case. Qed.
(* The write of an accepted QoS 1 publish fails.  After a reconnection that resumes the session it is
   neither queued nor unacknowledged. *)
Theorem C33_refuted : forall rt, exists s l1 l2, config_ok (lc_cfg rt) /\ reachable (lc_cfg rt) s /\ trace s = l1 ++ OAccept (PPublish lc_x) :: l2 /\
  ~ In (PPublish lc_x) (y_chan s) /\ y_pc s = PSelect 0 /\ ~ In (PPublish lc_x) (lg_sent (now_ledger (lc_cfg rt) s)) /\
  (forall o, In o l2 -> ~ finishes (op_clean_start (cf_opts (lc_cfg rt))) 1 o).
Proof. exact lost_publish. Qed.
Print Assumptions C33_refuted.

(* C34 *)
Theorem C34_silence : forall c s l1 d l2, config_ok c -> reachable c s -> trace s = l1 ++ OWrite FromClient (PDisconnect d) :: l2 ->
  goes (net_of l2) [ORunEnd (inl OutgoingDisconnect)] /\
  (forall k1 o k2, l2 = k1 ++ o :: k2 -> is_write o = true -> In OConnect k1).
Proof. exact after_disconnect. Qed.
Print Assumptions C34_silence.
(* what was accepted before and after the DISCONNECT and not attempted is still queued, in order *)
Theorem C34_queue : forall c s l1 d l2, config_ok c -> reachable c s -> trace s = l1 ++ OWrite FromClient (PDisconnect d) :: l2 ->
  exists behind, accepted l1 = tried l1 ++ PDisconnect d :: behind /\
    behind ++ accepted l2 = tried l2 ++ match y_pc s with PRequest p => [p] | _ => [] end ++ y_chan s.
Proof. exact disconnect_queue. Qed.
Print Assumptions C34_queue.
Example C34_case : forall rt, exists s l1 d l2, config_ok (lc_cfg rt) /\ reachable (lc_cfg rt) s /\
  trace s = l1 ++ OWrite FromClient (PDisconnect d) :: l2 /\ In (OWrite FromClient (PPublish lc_x)) l2 /\ In (OAccept (PPublish lc_x)) l1.
Proof. exact disconnect_case. Qed.

(* C35 *)
Theorem C35_closed : forall c s l1 r l2, config_ok c -> reachable c s -> trace s = l1 ++ ORunEnd r :: l2 -> existsb is_opened l2 = false ->
  (forall o, In o l2 -> ~ on_connection o) /\
  (y_pc s = PIdle -> exists s', step c ERun s = Some s' /\ trace s' = trace s ++ [ORunEnd (inr NoNetwork)] /\
     y_state s' = y_state s /\ y_net s' = y_net s /\ y_chan s' = y_chan s /\ y_wait s' = y_wait s /\ y_pc s' = PIdle).
Proof. exact closed_after. Qed.
Print Assumptions C35_closed.
Example C35_case : forall rt, exists s l1 r l2, config_ok (lc_cfg rt) /\ reachable (lc_cfg rt) s /\ trace s = l1 ++ ORunEnd r :: l2 /\
  existsb is_opened l2 = false /\ y_pc s = PIdle /\ In (ORunEnd (inr NoNetwork)) l2 /\ In OConnect l2 /\ In OHandled l1.
Proof. exact closed_case. Qed.

(* C36 *)
Theorem C36_opened : forall c s l1 l2, config_ok c -> reachable c s -> trace s = l1 ++ OConnectEnd None :: l2 ->
  exists l0 x m0 a m, l1 = l0 ++ OConnect :: m0 ++ OAnswer (PConnAck a) :: m /\
    net_of m0 = [OWrite FromConnect (PConnect x)] /\ ca_rc a = RSuccess /\ existsb is_connect_end m = false.
Proof. exact opened. Qed.
Print Assumptions C36_opened.
Theorem C36_refused : forall c s l1 p e l2, config_ok c -> reachable c s -> trace s = l1 ++ OAnswer p :: l2 -> refusal p = Some e ->
  goes (net_of l2) [OConnectEnd (Some e)].
Proof. exact refused. Qed.
Print Assumptions C36_refused.
Theorem C36_unchanged : forall c s p e, y_pc s = PConnRead -> refusal p = Some e ->
  exists s', step c (EPacket p) s = Some s' /\ trace s' = trace s ++ [OAnswer p; OConnectEnd (Some e)] /\
    y_state s' = y_state s /\ y_net s' = y_net s /\ y_chan s' = y_chan s /\ y_wait s' = y_wait s /\ y_pc s' = PIdle.
Proof. exact refused_state. Qed.
Print Assumptions C36_unchanged.
Example C36_case : forall rt, exists s l1 p e l2, config_ok (lc_cfg rt) /\ reachable (lc_cfg rt) s /\ trace s = l1 ++ OAnswer p :: l2 /\ refusal p = Some e.
Proof. exact refused_case. Qed.
