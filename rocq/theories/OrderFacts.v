(* The queue of free identifiers, the channel, and reactions that end run. *)
From Coq Require Import Permutation.
From Verif Require Import Base VarInt Prims Props Codes Packets BaseFacts Options Session Client System SpecSession SpecNet SpecTrace SpecTime SpecPing.
From Verif Require Import SessionFacts SystemFacts AckFacts IdFacts Cases Scenario IdMore NetFacts NetMore TraceFacts TraceMore LoopMore LoopCases TimeCases.

(* --- C22 --- *)
Lemma pool_front c s k s' p l i : config_ok c -> reachable c s -> step c (ECall k) s = Some s' ->
  trace s' = trace s ++ OBegin p :: l -> req_id p = Some i -> pool_of s = i :: pool_of s'.
Proof.
  intros HC HR HS HT HP. destruct (step_tcase _ _ _ _ HR HS) as (l1 & st & w & ch & n & q & t & HC1 & ->). rewrite next_trace in HT. apply app_inv_head in HT.
  assert (exists pool' r, client_call (max_packet (cf_opts c)) k (st_pool (y_state s)) = Some (pool', r) /\ match r with inl (x, _) => x | inr x => x end = p /\ st_pool st = pool') as (pool' & r & E1 & E2 & E3).
  { revert HT. inversion HC1; subst; intros HT; try discriminate; injection HT as -> _; do 2 eexists; (split; [eassumption|split; reflexivity]). }
  unfold pool_of, next. cbn [y_state]. rewrite E3. unfold client_call in E1. destruct (needs_id k) eqn:EN.
  - destruct (pl_ids (st_pool (y_state s))) as [|j ids] eqn:EI; [discriminate|].
    assert (p = build k j /\ ids = pl_ids pool') as [-> ->]. { destruct (validate _ _); injection E1 as <- <-; cbn in E2; (split; [congruence|cbn; congruence]). }
    rewrite build_id, EN in HP. injection HP as ->. reflexivity.
  - exfalso. assert (p = build k 0) as ->. { destruct (validate _ _); injection E1 as _ <-; cbn in E2; congruence. }
    rewrite build_id, EN in HP. discriminate.
Qed.
Lemma pool_rest c s k s' p l : reachable c s -> step c (ECall k) s = Some s' ->
  trace s' = trace s ++ OBegin p :: l -> req_id p = None -> pool_of s = pool_of s'.
Proof.
  intros HR HS HT HP. destruct (step_tcase _ _ _ _ HR HS) as (l1 & st & w & ch & n & q & t & HC1 & ->). rewrite next_trace in HT. apply app_inv_head in HT.
  assert (exists pool' r, client_call (max_packet (cf_opts c)) k (st_pool (y_state s)) = Some (pool', r) /\ match r with inl (x, _) => x | inr x => x end = p /\ st_pool st = pool') as (pool' & r & E1 & E2 & E3).
  { revert HT. inversion HC1; subst; intros HT; try discriminate; injection HT as -> _; do 2 eexists; (split; [eassumption|split; reflexivity]). }
  unfold pool_of, next. cbn [y_state]. rewrite E3. unfold client_call in E1. destruct (needs_id k) eqn:EN.
  - exfalso. destruct (pl_ids (st_pool (y_state s))) as [|j ids] eqn:EI; [discriminate|].
    assert (p = build k j) as ->. { destruct (validate _ _); injection E1 as _ <-; cbn in E2; congruence. }
    rewrite build_id, EN in HP. discriminate.
  - destruct (validate _ _); injection E1 as <- _; reflexivity.
Qed.
Lemma outgoing_pool p st st' r : handle_outgoing_packet p st = (st', r) -> st_pool st' = st_pool st.
Proof.
  destruct p; cbn [handle_outgoing_packet]; try (intros H; injection H as <- _; reflexivity).
  all: unfold handle_outgoing_publish, add_outgoing_pub, add_outgoing_sub, add_outgoing_unsub, mbind, ret, panic.
  - destruct (pb_qos p); [intros H; injection H as <- _; reflexivity| |]; (destruct (pb_pkid p) as [i|]; [|intros H; injection H as <- _; reflexivity];
      destruct (i =? 0); [intros H; injection H as <- _; reflexivity|]; destruct (vec_at _ _ _) as [[old v]|]; [|intros H; injection H as <- _; reflexivity];
      destruct (is_some old); intros H; injection H as <- _; reflexivity).
  - destruct (set_insert _ (st_sub st)) as [l b]. intros H. injection H as <- _. reflexivity.
  - destruct (set_insert _ (st_unsub st)) as [l b]. intros H. injection H as <- _. reflexivity.
Qed.
Lemma taken_writes l : (forall x, In x l -> exists org p, attempt org p x) -> taken l = [].
Proof.
  unfold taken. induction l as [|x l IH]; intros H; [reflexivity|]. cbn [flat_map]. rewrite IH by (intros y Hy; apply H; now right).
  destruct (H x (or_introl eq_refl)) as (org & p & [-> | ->]); reflexivity.
Qed.
Lemma taken_app l1 l2 : taken (l1 ++ l2) = taken l1 ++ taken l2.
Proof. apply flat_map_app. Qed.
Lemma pool_moves c e s s' : config_ok c -> reachable c s -> step c e s = Some s' ->
  exists l back, trace s' = trace s ++ l /\ pool_of s ++ back = taken l ++ pool_of s'.
Proof.
  intros HC HR ES. destruct (step_tcase _ _ _ _ HR ES) as (l & st & w & ch & n & q & t & HT & ->).
  pose proof (next_trace s l st w ch n q t) as EL. exists l.
  assert (forall b, taken l = [] -> pool_of (next s l st w ch n q t) = pool_of s ++ b -> exists back, trace (next s l st w ch n q t) = trace s ++ l /\ pool_of s ++ back = taken l ++ pool_of (next s l st w ch n q t)) as HG.
  { intros b E1 E2. exists b. now rewrite EL, E1, E2. }
  assert (forall o l', l = o :: l' -> from_broker o = true -> taken l = [] -> exists back, trace (next s l st w ch n q t) = trace s ++ l /\ pool_of s ++ back = taken l ++ pool_of (next s l st w ch n q t)) as HB.
  { intros o l' E1 E2 E3. pose proof EL as EL2. rewrite E1 in EL2 at 2. destruct (pool_step c e s _ (inv_reachable c s HC HR) ES) as [E X|i E X|o1 l1 fr _ _ _ E].
    - rewrite (X _ _ EL2) in E2. discriminate E2.
    - rewrite (X _ _ EL2) in E2. discriminate E2.
    - destruct (lg_clients _); [exact (HG fr E3 E)|]. apply (HG []); [exact E3|]. now rewrite app_nil_r. }
  assert (forall r, taken l = [] -> st_pool st = st_pool (y_state s) \/ r = true /\ pl_ids (st_pool st) = pl_ids (st_pool (y_state s)) -> exists back, trace (next s l st w ch n q t) = trace s ++ l /\ pool_of s ++ back = taken l ++ pool_of (next s l st w ch n q t)) as HE.
  { intros r E1 E2. apply (HG []); [exact E1|]. rewrite app_nil_r. unfold pool_of, next. cbn [y_state]. destruct E2 as [-> |[_ ->]]; reflexivity. }
  destruct HT; try (apply (HE true); [reflexivity|left; reflexivity]); try (eapply HB; reflexivity).
  - exists []. rewrite EL. split; [reflexivity|]. rewrite app_nil_r. cbn [taken flat_map]. destruct (req_id p) eqn:EP; cbn [opt_list app].
    + exact (pool_front _ _ _ _ _ _ _ HC HR ES EL EP).
    + exact (pool_rest _ _ _ _ _ _ HR ES EL EP).
  - exists []. rewrite EL. split; [reflexivity|]. rewrite app_nil_r. cbn [taken flat_map]. destruct (req_id p) eqn:EP; cbn [opt_list app].
    + exact (pool_front _ _ _ _ _ _ _ HC HR ES EL EP).
    + exact (pool_rest _ _ _ _ _ _ HR ES EL EP).
  - apply (HE true); [reflexivity|right; split; reflexivity].
  - apply (HE true); [|now left]. rewrite taken_app, taken_writes; [reflexivity|]. intros x Hx. apply tokio_writes_origin in Hx. destruct Hx as (y & _ & Hy). eauto.
  - apply (HE true); [|now left]. rewrite taken_app, taken_writes; [reflexivity|]. intros x Hx. apply tokio_writes_origin in Hx. destruct Hx as (y & _ & Hy). eauto.
  - apply (HE true); [|now left]. rewrite taken_app, taken_writes; [reflexivity|]. intros x Hx. apply smol_writes_origin in Hx. destruct Hx as (y & _ & Hy). eauto.
  - apply (HE true); [|now left]. rewrite taken_app, taken_writes; [reflexivity|]. intros x Hx. apply smol_writes_origin in Hx. destruct Hx as (y & _ & Hy). eauto.
  - apply (HE true); [|now left]. rewrite taken_writes; [reflexivity|]. intros x Hx. apply smol_writes_origin in Hx. destruct Hx as (y & _ & Hy). eauto.
  - apply (HE true); [|now left]. rewrite taken_app, taken_writes; [reflexivity|]. intros x Hx. apply smol_writes_origin in Hx. destruct Hx as (y & _ & Hy). eauto.
  - apply (HE true); [reflexivity|left; eapply outgoing_pool; eassumption].
  - apply (HE true); [reflexivity|left; eapply outgoing_pool; eassumption].
  - apply (HE true); [reflexivity|left; eapply outgoing_pool; eassumption].
  - apply (HE true); [reflexivity|left; eapply outgoing_pool; eassumption].
Qed.
Lemma pool_fifo c es s s' : config_ok c -> reachable c s -> exec c es s = Some s' ->
  exists l back, trace s' = trace s ++ l /\ pool_of s ++ back = taken l ++ pool_of s'.
Proof.
  intros HC HR. revert s HR. induction es as [|e es IH]; intros s HR H; cbn [exec] in H.
  - injection H as <-. exists [], []. now rewrite !app_nil_r.
  - destruct (step c e s) as [s1|] eqn:ES; [|discriminate].
    destruct (IH s1 (reachable_step _ _ _ _ HR ES) H) as (l & back & E1 & E2). destruct (pool_moves _ _ _ _ HC HR ES) as (l0 & b0 & E3 & E4).
    exists (l0 ++ l), (b0 ++ back). split; [now rewrite E1, E3, app_assoc|]. now rewrite app_assoc, E4, taken_app, <- !app_assoc, E2.
Qed.

(* --- C32 --- *)
Lemma chan_bound c s : config_ok c -> reachable c s -> len (y_chan s) <= 100.
Proof.
  intros HC. revert s. apply sys_ind; [exact HC|cbn; discriminate|].
  intros s e l st w ch n q t HR HI IH HT _. cbn [next y_chan]. destruct HT; auto.
  - unfold len in *. rewrite app_length. unfold CHANNEL_SIZE in *. cbn [length]. lia.
  - rewrite H0 in IH. unfold len in *. cbn [length] in IH. lia.
Qed.
Lemma waiting_bound c s : config_ok c -> reachable c s -> len (accepted (trace s)) <= len (tried (trace s)) + 101.
Proof.
  intros HC HR. destruct (attempted_prefix c s HC HR) as (rest & E & ER). pose proof (chan_bound c s HC HR) as HB. rewrite E, ER. unfold len in *. rewrite !app_length.
  destruct (y_pc s); cbn [length]; lia.
Qed.

(* --- C63 --- *)
Lemma follow_end c q l q' r : nfrom c q l q' -> n_todo q = [IEnd r] -> goes (net_of l) [ORunEnd r].
Proof.
  intros H ET. destruct (follow _ _ _ _ _ _ H ET) as [->|(o & l2 & q1 & -> & HF & g & HA)]; [apply goes_nil|].
  apply act_cons in HA as (_ & _ & _ & _ & -> & _). apply goes_cons, goes_done.
Qed.
Lemma broker_disconnect c s l1 d l2 : config_ok c -> reachable c s -> trace s = l1 ++ ORead (PDisconnect d) :: l2 ->
  goes (net_of l2) [OHandle (PDisconnect d); OHandled; ORunEnd (inl IncomingDisconnect)].
Proof.
  intros HC HR HT. run_of HC HR HT. apply nrun_split in HN as (q0 & q1 & _ & HS & HF). apply read_step in HS. cbn [on_read] in HS.
  destruct (follow_deliver _ _ _ _ _ _ HF HS) as [[t E]|(qs & ls & -> & HF2 & HT2 & _)].
  - left. exists (t ++ [ORunEnd (inl IncomingDisconnect)]). rewrite app_assoc, <- E. reflexivity.
  - do 2 apply goes_cons. exact (follow_end _ _ _ _ _ HF2 HT2).
Qed.
Lemma not_expected c s l1 p l2 : config_ok c -> reachable c s -> trace s = l1 ++ ORead p :: l2 ->
  In (type_of p) [TConnect; TConnAck; TSubscribe; TUnsubscribe; TPingReq; TAuth] ->
  goes (net_of l2) [ORunEnd (inr (HandlerErr (UnexpectedPacket (type_of p))))].
Proof.
  intros HC HR HT HP. run_of HC HR HT. apply nrun_split in HN as (q0 & q1 & _ & HS & HF). apply read_step in HS.
  apply (follow_end _ _ _ _ _ HF). rewrite HS. clear - HP.
  destruct p; try reflexivity; exfalso; cbn in HP; intuition discriminate.
Qed.
Lemma no_identifier c s l1 x l2 : config_ok c -> reachable c s -> trace s = l1 ++ ORead (PPublish x) :: l2 ->
  pb_qos x <> AtMostOnce -> pb_pkid x = None -> goes (net_of l2) [ORunEnd (inr (HandlerErr MissingPacketId))].
Proof.
  intros HC HR HT HQ HP. run_of HC HR HT. apply nrun_split in HN as (q0 & q1 & _ & HS & HF). apply read_step in HS.
  apply (follow_end _ _ _ _ _ HF). rewrite HS. cbn [on_read]. rewrite HP. destruct (pb_qos x); [congruence|reflexivity|reflexivity].
Qed.

(* --- cases --- *)
(* identifier 1 is acknowledged before 2 and then used after 3 and 4 *)
Lemma order_case : exists c s s', config_ok c /\ reachable c s /\ pool_of s = [3; 4] /\
  exec c (EPacket (PPubAck (sc_ack 1)) :: EHandled :: sc_do (sc_pub AtLeastOnce)) s = Some s' /\ pool_of s' = [4; 1].
Proof.
  pose (c := sc Tokio 4 4 false). pose (es := sc_connect false ++ sc_do (sc_pub AtLeastOnce) ++ sc_do (sc_pub AtLeastOnce)).
  exists c, (run_to c es), (run_to c (es ++ EPacket (PPubAck (sc_ack 1)) :: EHandled :: sc_do (sc_pub AtLeastOnce))).
  split; [cfg|]. split; [reach|]. split; [vm_compute; reflexivity|]. split; vm_compute; reflexivity.
Qed.
Lemma left_case : forall rt, exists s l1 d l2, config_ok (lc_cfg rt) /\ reachable (lc_cfg rt) s /\
  trace s = l1 ++ ORead (PDisconnect d) :: l2 /\ l2 = [OHandle (PDisconnect d); OHandled; ORunEnd (inl IncomingDisconnect)].
Proof.
  intros rt. pose (d := Disconnect RNormalDisconnection no_props). pose (s := run_to (lc_cfg rt) (sc_connect false ++ [EPacket (PDisconnect d); EHandled])).
  exists s, (rev (skipn 4 (rev (trace s)))), d, [OHandle (PDisconnect d); OHandled; ORunEnd (inl IncomingDisconnect)].
  split; [destruct rt; cfg|]. split; [destruct rt; reach|]. split; [destruct rt; vm_compute; reflexivity|reflexivity].
Qed.
Lemma strange_case : forall rt, exists s l1 l2, config_ok (lc_cfg rt) /\ reachable (lc_cfg rt) s /\
  trace s = l1 ++ ORead PPingReq :: l2 /\ l2 = [ORunEnd (inr (HandlerErr (UnexpectedPacket TPingReq)))].
Proof.
  intros rt. pose (s := run_to (lc_cfg rt) (sc_connect false ++ [EPacket PPingReq])).
  exists s, (rev (skipn 2 (rev (trace s)))), [ORunEnd (inr (HandlerErr (UnexpectedPacket TPingReq)))].
  split; [destruct rt; cfg|]. split; [destruct rt; reach|]. split; [destruct rt; vm_compute; reflexivity|reflexivity].
Qed.
Lemma bare_case : forall rt, exists s l1 l2, config_ok (lc_cfg rt) /\ reachable (lc_cfg rt) s /\
  trace s = l1 ++ ORead (PPublish (lc_pub false AtLeastOnce None)) :: l2 /\ l2 = [ORunEnd (inr (HandlerErr MissingPacketId))].
Proof.
  intros rt. pose (s := run_to (lc_cfg rt) (sc_connect false ++ [EPacket (PPublish (lc_pub false AtLeastOnce None))])).
  exists s, (rev (skipn 2 (rev (trace s)))), [ORunEnd (inr (HandlerErr MissingPacketId))].
  split; [destruct rt; cfg|]. split; [destruct rt; reach|]. split; [destruct rt; vm_compute; reflexivity|reflexivity].
Qed.
(* a request at 30 s: the PINGREQ comes at 90 s *)
Lemma later_case : forall rt, exists s l1, config_ok (tc_cfg rt) /\ reachable (tc_cfg rt) s /\
  y_log s = l1 ++ [(from_secs 90, OWrite FromTimer PPingReq)] /\ last_use (cf_rt (tc_cfg rt)) l1 = from_secs 30 /\
  ck_own (clock_of (op_keep_alive (cf_opts (tc_cfg rt))) l1) = from_secs 60.
Proof.
  intros rt. pose (es := tc_open (sc_connack false) ++ [secs 30] ++ sc_do (sc_pub AtMostOnce) ++ [secs 60; ETimer; EWrite true]). pose (s := run_to (tc_cfg rt) es).
  exists s, (rev (skipn 1 (rev (y_log s)))). split; [destruct rt; cfg|]. split; [destruct rt; reach|]. destruct rt; (split; [calc|]); split; calc.
Qed.
