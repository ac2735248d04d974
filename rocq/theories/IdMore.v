(* Identifiers, continued: the statements behind P_Ids.v *)
From Coq Require Import Permutation.
From Verif Require Import Base VarInt Prims Props Codes Packets BaseFacts Options Session Client System SpecSession SessionFacts SystemFacts AckFacts IdFacts Cases Scenario.

Lemma ids_unique c s : config_ok c -> reachable c s ->
  NoDup (in_flight (now_ledger c s)) /\
  (forall i, In i (in_flight (now_ledger c s)) -> 1 <= i <= send_max (cf_opts c) /\ ~ In i (pool_of s)).
Proof.
  intros HC HR. pose proof (v_inv _ _ (inv_reachable _ _ HC HR)) as HI. pose proof (Inv_nodup _ _ _ _ _ HI) as HN.
  split; [now apply nodup_app_r, nodup_app_l in HN|]. intros i H. split.
  - eapply Inv_range; [exact HI|]. apply in_or_app. right. apply in_or_app. now left.
  - unfold pool_of. intros HP. clear - HN H HP. induction (pl_ids (st_pool (y_state s))) as [|a l IH]; [contradiction|].
    cbn [app] in HN. inversion HN; subst. destruct HP as [->|HP]; [|now apply IH]. apply H2, in_or_app. right. apply in_or_app. now left.
Qed.
Lemma new_id c s k s' p l i : config_ok c -> reachable c s -> step c (ECall k) s = Some s' ->
  trace s' = trace s ++ OBegin p :: l -> req_id p = Some i -> ~ In i (in_flight (now_ledger c s)).
Proof.
  intros HC HR HS HT HP. destruct (ids_unique _ _ HC HR) as [_ HU]. intros HI. apply (proj2 (HU i HI)).
  destruct (step_tcase _ _ _ _ HR HS) as (l1 & st & w & ch & n & q & t & HC1 & ->). rewrite next_trace in HT. apply app_inv_head in HT.
  assert (exists pool', client_call (max_packet (cf_opts c)) k (st_pool (y_state s)) = Some pool' /\ match snd pool' with inl (x, _) => x | inr x => x end = p) as (pool' & E1 & E2).
  { revert HT. inversion HC1; subst; intros HT; try discriminate; injection HT as -> _; eexists; (split; [eassumption|reflexivity]). }
  unfold client_call in E1. unfold pool_of. destruct (needs_id k) eqn:EN.
  - destruct (pl_ids (st_pool (y_state s))) as [|j ids] eqn:EI; [discriminate|].
    assert (p = build k j) as ->. { destruct (validate _ _); injection E1 as <-; cbn in E2; congruence. }
    rewrite build_id, EN in HP. injection HP as ->. now left.
  - exfalso. assert (p = build k 0) as ->. { destruct (validate _ _); injection E1 as <-; cbn in E2; congruence. }
    rewrite build_id, EN in HP. discriminate.
Qed.

Lemma ids_bound c s : config_ok c -> reachable c s ->
  len (in_flight (now_ledger c s)) + len (pool_of s) <= send_max (cf_opts c).
Proof.
  intros HC HR. pose proof (v_inv _ _ (inv_reachable _ _ HC HR)) as HI. pose proof (perm_len _ _ (i_perm _ _ _ _ _ HI)) as HL.
  rewrite ids_upto_len, !len_app2 in HL. unfold now_ledger, pool_of. fold (cleans c) (ledger_at c s). lia.
Qed.

(* ---- panics ------------------------------------------------------------------------------------ *)
Lemma writes_no_panic o ps oks : ~ In OPanic (tokio_writes o ps oks).
Proof.
  revert oks. induction ps as [|p ps IH]; intros oks; cbn [tokio_writes]; [tauto|].
  destruct oks as [|b oks]; (destruct (write_result Tokio p _); (cbn; intros [H|H]; [discriminate|eapply IH; eassumption])).
Qed.
Lemma smol_writes_no_panic o ps ok : ~ In OPanic (smol_writes o ps ok).
Proof. unfold smol_writes. intros H. apply in_map_iff in H as (p & H & _). destruct (smol_write_all ps ok); discriminate. Qed.

Lemma panic_everywhere c s : config_ok c -> reachable c s -> everywhere (panic_ok (receive_max (cf_opts c))) (trace s).
Proof.
  intros HC. revert s. apply sys_ind; [exact HC|apply everywhere_nil|].
  intros s e l st w ch n q t HR HI HP HT _. rewrite next_trace. apply everywhere_app; [exact HP|].
  pose proof (v_inv _ _ HI) as HV.
  destruct HT; try (apply panic_free; cbn; intuition discriminate);
    try (apply panic_free; rewrite in_app_iff; intros [X|[X|[]]]; [|discriminate]; revert X; first [apply writes_no_panic|apply smol_writes_no_panic]).
  - rewrite H in HV. destruct (inv_answer _ _ _ _ _ _ _ HV H0 H1) as (_ & _ & []).
  - apply panic_last. rewrite H in HV. pose proof (inv_read _ _ _ _ _ _ _ HV H1) as X.
    destruct (bad_ack (receive_max (cf_opts c)) p) eqn:EB; [|destruct X as [X _]; congruence].
    rewrite bad_ack_off in EB. destruct p; try discriminate EB; exact EB.
  - apply panic_free. apply smol_writes_no_panic.
  - apply panic_last. rewrite H in HV. cbn [live] in HV.
    assert (Inv c (y_state s) (p :: y_wait s ++ y_chan s) (ledger_at c s) true) as HV1.
    { eapply Inv_pend; [exact HV| |auto]. unfold pending. rewrite H. cbn [held]. rewrite app_assoc. symmetry. apply Permutation_cons_append. }
    pose proof (inv_request _ _ _ _ _ _ _ HV1 H1) as X. destruct (bad_request _ p) eqn:EB; [|destruct X; discriminate].
    unfold bad_request in EB. destruct p; try discriminate EB. cbn [panics_after]. destruct (pb_pkid p) as [i|]; [|discriminate]. exists i. split; [reflexivity|]. lia.
Qed.

(* the session's answer to a packet, in any state of the loop *)
Lemma incoming_panics c s since p : config_ok c -> reachable c s -> y_pc s = PSelect since ->
  (snd (handle_incoming_packet p (y_state s)) = HPanic <->
   exists a, (p = PPubAck a \/ p = PPubRec a) /\ (ak_id a = 0 \/ receive_max (cf_opts c) < ak_id a)).
Proof.
  intros HC HR HS. pose proof (v_inv _ _ (inv_reachable _ _ HC HR)) as HV. rewrite HS in HV.
  destruct (handle_incoming_packet p (y_state s)) as [st r] eqn:EH. pose proof (inv_read _ _ _ _ _ _ _ HV EH) as X. cbn [snd].
  destruct (bad_ack (receive_max (cf_opts c)) p) eqn:EB.
  - destruct X as (-> & _). split; [intros _|reflexivity]. destruct p; try discriminate EB; cbn [bad_ack] in EB; exists a; (split; [auto|lia]).
  - destruct X as (X & _). split; [congruence|]. intros (a & [->| ->] & H); cbn [bad_ack] in EB; lia.
Qed.
Lemma connack_never_panics c s a : config_ok c -> reachable c s -> y_pc s = PConnRead ->
  snd (handle_incoming_connack (op_clean_start (cf_opts c)) a (y_state s)) <> HPanic.
Proof.
  intros HC HR HS. pose proof (v_inv _ _ (inv_reachable _ _ HC HR)) as HV. rewrite HS in HV.
  destruct (handle_incoming_connack _ a (y_state s)) as [st r] eqn:EH. cbn [snd]. intros ->.
  destruct (ca_rc a) eqn:EC; try (unfold handle_incoming_connack in EH; rewrite EC in EH; discriminate).
  destruct (inv_answer _ _ _ _ _ _ _ HV EC EH) as (_ & _ & []).
Qed.

(* ---- lost identifiers --------------------------------------------------------------------------- *)
Lemma ids_kept c s i : config_ok c -> reachable c s -> 1 <= i <= send_max (cf_opts c) ->
  In i (pool_of s) \/ In i (in_flight (now_ledger c s)) \/
  exists l1 o l2, trace s = l1 ++ o :: l2 /\ loses (op_clean_start (cf_opts c)) (ledger_of (op_clean_start (cf_opts c)) l1) o i.
Proof.
  intros HC HR Hi. pose proof (v_inv _ _ (inv_reachable _ _ HC HR)) as HI. apply ids_upto_in in Hi.
  apply (Permutation_in _ (Permutation_sym (i_perm _ _ _ _ _ HI))) in Hi. rewrite !in_app_iff in Hi.
  destruct Hi as [Hi|[Hi|Hi]]; [auto|auto|]. right; right. now apply lost_cause.
Qed.
Lemma lost_mono1 clean g o i : In i (lg_lost g) -> In i (lg_lost (ledger_step clean g o)).
Proof.
  destruct g as [op se re lo cl ex er]. cbn [lg_lost]. intros H. assert (forall x, In i (lo ++ x)) as HA by (intros x; apply in_or_app; now left).
  destruct o; cbn [ledger_step lg_lost]; auto.
  - destruct (is_some _); exact H.
  - destruct p; auto. destruct (ca_rc c); auto. destruct (_ && _); cbn [lg_lost]; auto.
  - destruct p; cbn [lg_lost]; auto.
  - destruct o; auto.
  - destruct o; auto. cbn [lg_lost]. auto.
Qed.
Lemma lost_mono clean l1 l2 i : In i (lg_lost (ledger_of clean l1)) -> In i (lg_lost (ledger_of clean (l1 ++ l2))).
Proof.
  intros H. induction l2 as [|o l2 IH] using rev_ind; [now rewrite app_nil_r|]. rewrite app_assoc, ledger_of_snoc. now apply lost_mono1.
Qed.
Lemma exec_trace c es s s' : exec c es s = Some s' -> exists l, trace s' = trace s ++ l.
Proof.
  revert s. induction es as [|e es IH]; intros s; cbn [exec].
  - intros H. injection H as <-. exists []. now rewrite app_nil_r.
  - destruct (step c e s) as [t|] eqn:E; [|discriminate]. intros H. destruct (IH _ H) as (l & ->).
    destruct (step_obs _ _ _ _ E) as (l0 & -> & _). exists (l0 ++ l). now rewrite app_assoc.
Qed.

Lemma lost_gone c s i : config_ok c -> reachable c s -> In i (lg_lost (now_ledger c s)) -> gone_for_good c s i.
Proof.
  intros HC HR HL. split.
  - pose proof (v_inv _ _ (inv_reachable _ _ HC HR)) as HI. eapply Inv_range; [exact HI|]. rewrite !in_app_iff. auto.
  - intros es s' HE. assert (reachable c s') as HR'.
    { destruct HR as [es0 H0]. exists (es0 ++ es). now rewrite exec_app, H0. }
    destruct (exec_trace _ _ _ _ HE) as (l & HT).
    assert (In i (lg_lost (now_ledger c s'))) as HL'. { unfold now_ledger. rewrite HT. now apply lost_mono. }
    pose proof (Inv_nodup _ _ _ _ _ (v_inv _ _ (inv_reachable _ _ HC HR'))) as HN. fold (now_ledger c s') in HN.
    unfold ledger_at, cleans in HN. fold (now_ledger c s') in HN. split; intros H.
    + unfold pool_of in H. clear - HN H HL'. induction (pl_ids (st_pool (y_state s'))) as [|a l IH]; [contradiction|].
      cbn [app] in HN. inversion HN; subst. destruct H as [->|H]; [|now apply IH]. apply H2. rewrite !in_app_iff. auto.
    + apply nodup_app_r in HN. clear - HN H HL'. induction (in_flight (now_ledger c s')) as [|a l IH]; [contradiction|].
      cbn [app] in HN. inversion HN; subst. destruct H as [->|H]; [|now apply IH]. apply H2. rewrite in_app_iff. auto.
Qed.

(* ---- release -------------------------------------------------------------------------------------- *)
Lemma pool_gain c e s s' i : config_ok c -> reachable c s -> step c e s = Some s' ->
  (In i (pool_of s') /\ ~ In i (pool_of s) <->
   lg_clients (now_ledger c s) = true /\
   exists o l, trace s' = trace s ++ o :: l /\ ends (op_clean_start (cf_opts c)) (now_ledger c s) o i).
Proof.
  intros HC HR HS. pose proof (inv_reachable _ _ HC HR) as HI. destruct (ids_unique _ _ HC HR) as [_ HU].
  assert (forall o, from_broker o = false -> ~ ends (op_clean_start (cf_opts c)) (now_ledger c s) o i) as HE by (intros o HO; destruct o; try discriminate; cbn; tauto).
  destruct (pool_step _ _ _ _ HI HS) as [HP HB|j HP HB|o l fr HT HO HF HP].
  - rewrite HP. split; [tauto|]. intros (_ & o & l & HT & X). exfalso. eapply HE; [eapply HB; exact HT|exact X].
  - split.
    + intros [H1 H2]. exfalso. apply H2. rewrite HP. now right.
    + intros (_ & o & l & HT & X). exfalso. eapply HE; [eapply HB; exact HT|exact X].
  - unfold now_ledger in *. fold (cleans c) (ledger_at c s) in *. destruct (lg_clients (ledger_at c s)).
    + rewrite HP, in_app_iff. split.
      * intros [[H1|H1] H2]; [contradiction|]. split; [reflexivity|]. exists o, l. split; [exact HT|]. apply frees_ends. now apply (Permutation_in _ HF).
      * intros (_ & o' & l' & HT' & X). rewrite HT in HT'. apply app_inv_head in HT'. injection HT' as <- <-.
        split; [right; apply (Permutation_in _ (Permutation_sym HF)); now apply frees_ends|].
        intros H. assert (In i (in_flight (ledger_at c s))) as HJ.
        { apply frees_ends in X. unfold in_flight. rewrite !in_app_iff. right. clear - X. destruct o; cbn [frees] in X; try contradiction.
          - destruct p; try contradiction. destruct (ca_rc c0); try contradiction. left. destruct (_ && _); [|exact X].
            apply in_req_ids in X as (q & HQ & E). apply filter_In in HQ as [HQ _]. apply in_req_ids. eauto.
          - assert (forall a, In i (req_ids (filter (answers a) (lg_sent (ledger_at c s)))) -> In i (req_ids (lg_sent (ledger_at c s)))) as HG.
            { intros a Y. apply in_req_ids in Y as (q & HQ & E). apply filter_In in HQ as [HQ _]. apply in_req_ids. eauto. }
            destruct p; try (left; eapply HG; eassumption); [contradiction|].
            destruct (existsb _ _) eqn:E; [|contradiction]. apply existsb_in in E. destruct X as [<-|[]]. right. exact E. }
        destruct (HU i HJ) as [_ Y]. contradiction.
    + rewrite HP. split; [tauto|]. intros [? _]. discriminate.
Qed.
Lemma pool_nodup c s : config_ok c -> reachable c s -> NoDup (pool_of s).
Proof. intros HC HR. pose proof (Inv_nodup _ _ _ _ _ (v_inv _ _ (inv_reachable _ _ HC HR))) as HN. now apply nodup_app_l in HN. Qed.

(* ---- unsolicited acknowledgements ------------------------------------------------------------------ *)
Lemma unsolicited c s since a : config_ok c -> reachable c s -> y_pc s = PSelect since -> is_ack a = true ->
  awaited (now_ledger c s) a = false ->
  match a with PPubAck x | PPubRec x => off_table (receive_max (cf_opts c)) (ak_id x) = false | _ => True end ->
  exists i s', ack_id a = Some i /\ step c (EPacket a) s = Some s' /\
    trace s' = trace s ++ [ORead a; ORunEnd (inr (HandlerErr (Unsolicited i (type_of a))))] /\
    y_state s' = y_state s /\ y_wait s' = y_wait s /\ y_chan s' = y_chan s.
Proof.
  intros HC HR HS HA HW HO. pose proof (v_inv _ _ (inv_reachable _ _ HC HR)) as HV. rewrite HS in HV. cbn [live] in HV.
  destruct (handle_incoming_packet a (y_state s)) as [st r] eqn:EH.
  assert (bad_ack (receive_max (cf_opts c)) a = false) as HB by (rewrite bad_ack_off; destruct a; auto).
  pose proof (ack_result _ _ _ _ _ _ (i_R _ _ _ _ _ HV eq_refl) (Inv_fine _ _ _ _ _ HV) (i_open _ _ _ _ _ HV) (Inv_room _ _ _ _ _ HV) EH HA HB) as HX.
  unfold ledger_at, cleans in HX. fold (now_ledger c s) in HX. rewrite HW in HX. destruct HX as [-> HX].
  destruct (ack_id a) as [i|] eqn:EI; [|contradiction]. subst r.
  exists i, (end_run (cf_rt c) (inr (HandlerErr (Unsolicited i (type_of a)))) (set_state (y_state s) (log [ORead a] s))).
  split; [reflexivity|]. cbn [step]. rewrite HS. split.
  { unfold incoming. destruct a; try discriminate HA; cbn [y_state log]; rewrite EH; reflexivity. }
  split; [rewrite trace_end_run; now tr|]. rewrite state_end_run, wait_end_run, chan_end_run. auto.
Qed.
Lemma awaited_accepted c s since a : config_ok c -> reachable c s -> y_pc s = PSelect since -> is_ack a = true ->
  awaited (now_ledger c s) a = true -> lg_clients (now_ledger c s) = true ->
  exists s', step c (EPacket a) s = Some s' /\ trace s' = trace s ++ [ORead a; OHandle a].
Proof.
  intros HC HR HS HA HW HO. pose proof (v_inv _ _ (inv_reachable _ _ HC HR)) as HV. rewrite HS in HV. cbn [live] in HV.
  destruct (handle_incoming_packet a (y_state s)) as [st r] eqn:EH.
  assert (bad_ack (receive_max (cf_opts c)) a = false) as HB.
  { destruct (bad_ack _ a) eqn:EB; [|reflexivity]. exfalso. unfold now_ledger in HW. fold (cleans c) in HW. fold (ledger_at c s) in HW.
    pose proof (i_R _ _ _ _ _ HV eq_refl) as RR.
    assert (exists x, exists y, ak_id y = x /\ off_table (receive_max (cf_opts c)) x = true /\ exists p, In (PPublish p) (lg_sent (ledger_at c s)) /\ pb_pkid p = Some x) as (i & y & _ & EO & p & H1 & H2).
    { rewrite bad_ack_off in EB. destruct a; try discriminate EB; cbn [awaited] in HW; apply existsb_exists in HW as (q & H1 & H2);
        destruct q; try discriminate H2; cbn [answers] in H2; apply has_id_spec in H2; do 2 eexists; (split; [reflexivity|]); eauto. }
    assert (slot (st_pub (y_state s)) i = Some p) as HSL. { apply (r_slot _ _ _ _ RR). split; [now apply in_pubs|exact H2]. }
    unfold slot in HSL. pose proof (r_len _ _ _ _ RR) as HL. unfold off_table in EO. destruct (N.eqb_spec i 0); [discriminate|].
    rewrite (proj2 (nth_error_None (st_pub (y_state s)) (N.to_nat (i - 1)))) in HSL by (cbn [orb] in EO; lia). discriminate. }
  pose proof (ack_result _ _ _ _ _ _ (i_R _ _ _ _ _ HV eq_refl) (Inv_fine _ _ _ _ _ HV) (i_open _ _ _ _ _ HV) (Inv_room _ _ _ _ _ HV) EH HA HB) as HX.
  unfold ledger_at, cleans in HX. fold (now_ledger c s) in HX. rewrite HW, HO in HX. cbn [orb] in HX. subst r.
  eexists. split; [cbn [step]; rewrite HS; reflexivity|]. unfold incoming. destruct a; try discriminate HA; cbn [y_state log]; rewrite EH; now tr.
Qed.

(* ---- cases ------------------------------------------------------------------------------------------- *)
Ltac reach := apply run_reachable; vm_compute; reflexivity.
Ltac cfg := split; [split; vm_compute; discriminate|vm_compute; discriminate].

Lemma lost_witness c es i : config_ok c -> is_some (exec c es (init c)) = true ->
  existsb (N.eqb i) (lg_lost (now_ledger c (run_to c es))) = true -> reachable c (run_to c es) /\ gone_for_good c (run_to c es) i.
Proof.
  intros HC HE HL. pose proof (run_reachable _ _ HE) as HR. split; [exact HR|]. apply lost_gone; [exact HC|exact HR|]. now apply existsb_in.
Qed.

(* an identifier is lost by a call that is refused *)
Definition w_refused : list event := [ECall (sc_pub AtLeastOnce)].
Lemma refused_lost : exists c s p e, config_ok c /\ reachable c s /\ trace s = [OBegin p; ORefuse p e] /\
  req_id p = Some 1 /\ send_max (cf_opts c) = 1 /\ gone_for_good c s 1.
Proof.
  exists sc_small, (run_to sc_small w_refused), (build (sc_pub AtLeastOnce) 1).
  destruct (lost_witness sc_small w_refused 1) as [HR HG]; [cfg|reflexivity|vm_compute; reflexivity|].
  eexists. split; [cfg|]. split; [exact HR|]. split; [vm_compute; reflexivity|]. split; [reflexivity|]. split; [reflexivity|exact HG].
Qed.
(* ... by a failed write *)
Definition w_fail (q : qos) : list event := sc_connect false ++ [ECall (sc_pub q); ESend 0; EOutgoing; EWrite false].
Lemma failed_lost : exists c s l p, config_ok c /\ reachable c s /\ trace s = l ++ [OAccept p; OWriteFail FromClient p; ORunEnd (inr Io)] /\
  req_id p = Some 1 /\ send_max (cf_opts c) = 1 /\ gone_for_good c s 1.
Proof.
  pose (c := sc Tokio 1 1 false). pose (es := w_fail AtLeastOnce). exists c, (run_to c es).
  destruct (lost_witness c es 1) as [HR HG]; [cfg|reflexivity|vm_compute; reflexivity|].
  exists (removelast (removelast (removelast (trace (run_to c es))))), (build (sc_pub AtLeastOnce) 1).
  split; [cfg|]. split; [exact HR|]. split; [vm_compute; reflexivity|]. split; [reflexivity|]. split; [reflexivity|exact HG].
Qed.
(* ... by a PUBREC with an error *)
Definition w_pubrec : list event :=
  sc_connect false ++ sc_do (sc_pub ExactlyOnce) ++ [EPacket (PPubRec (Ack 1 RQuotaExceeded no_props)); EHandled].
Lemma pubrec_lost : exists c s l a, config_ok c /\ reachable c s /\ trace s = l ++ [ORead (PPubRec a); OHandle (PPubRec a); OHandled] /\
  ak_id a = 1 /\ send_max (cf_opts c) = 1 /\ y_pc s = PSelect 0 /\ gone_for_good c s 1.
Proof.
  pose (c := sc Tokio 1 1 false). pose (es := w_pubrec). exists c, (run_to c es).
  destruct (lost_witness c es 1) as [HR HG]; [cfg|reflexivity|vm_compute; reflexivity|].
  exists (removelast (removelast (removelast (trace (run_to c es))))), (Ack 1 RQuotaExceeded no_props).
  split; [cfg|]. split; [exact HR|]. split; [vm_compute; reflexivity|]. split; [reflexivity|]. split; [reflexivity|]. split; [reflexivity|exact HG].
Qed.
(* ... by a session that the broker does not resume *)
Definition w_reset : list event :=
  sc_connect false ++ sc_do (sc_pub ExactlyOnce) ++ sc_in_reply (PPubRec (sc_ack 1)) ++ [EReadErr Io] ++ sc_connect false.
Lemma reset_lost : exists c s l, config_ok c /\ reachable c s /\
  trace s = l ++ [OAnswer (sc_connack false); OHandle (sc_connack false); OHandled; OConnectEnd None; ORun] /\
  In 1 (lg_rel (ledger_of (op_clean_start (cf_opts c)) l)) /\ send_max (cf_opts c) = 1 /\ gone_for_good c s 1.
Proof.
  pose (c := sc Tokio 1 1 false). pose (es := w_reset). exists c, (run_to c es).
  destruct (lost_witness c es 1) as [HR HG]; [cfg|vm_compute; reflexivity|vm_compute; reflexivity|].
  exists (removelast (removelast (removelast (removelast (removelast (trace (run_to c es))))))).
  split; [cfg|]. split; [exact HR|]. split; [vm_compute; reflexivity|]. split; [vm_compute; now left|]. split; [reflexivity|exact HG].
Qed.
(* ... by a call dropped while the channel is full *)
Definition w_give_up : list event := [ECall (sc_pub AtLeastOnce); EGiveUp 0].
Lemma give_up_lost : exists c s p, config_ok c /\ reachable c s /\ trace s = [OBegin p; OGiveUp p] /\ req_id p = Some 1 /\
  send_max (cf_opts c) = 1 /\ gone_for_good c s 1.
Proof.
  pose (c := sc Smol 1 1 false). pose (es := w_give_up). exists c, (run_to c es), (build (sc_pub AtLeastOnce) 1).
  destruct (lost_witness c es 1) as [HR HG]; [cfg|reflexivity|vm_compute; reflexivity|].
  split; [cfg|]. split; [exact HR|]. split; [vm_compute; reflexivity|]. split; [reflexivity|]. split; [reflexivity|exact HG].
Qed.

(* a QoS 2 publish, all identifiers of a client in use *)
Definition w_three : list event :=
  sc_connect false ++ sc_do (sc_pub ExactlyOnce) ++ sc_do sc_sub ++ sc_do (sc_pub AtLeastOnce) ++ sc_in_reply (PPubRec (sc_ack 1)) ++ [ECall sc_unsub; ECall (sc_pub ExactlyOnce)].
Lemma three_case : exists c s, config_ok c /\ reachable c s /\ in_flight (now_ledger c s) = [4; 5; 2; 3; 1] /\ pool_of s = [].
Proof.
  exists (sc Tokio 5 5 false), (run_to (sc Tokio 5 5 false) w_three). split; [cfg|]. split; [reach|]. split; vm_compute; reflexivity.
Qed.

(* a QoS 2 publish ended by a PUBACK *)
Definition w_q2 : list event := sc_connect false ++ sc_do (sc_pub ExactlyOnce).
Lemma puback_ends_q2 : exists c s s' x, config_ok c /\ reachable c s /\ In (PPublish x) (lg_sent (now_ledger c s)) /\
  pb_qos x = ExactlyOnce /\ pb_pkid x = Some 1 /\ step c (EPacket (PPubAck (sc_ack 1))) s = Some s' /\
  ~ In 1 (pool_of s) /\ In 1 (pool_of s').
Proof.
  pose (c := sc Tokio 1 1 false). exists c, (run_to c w_q2), (run_to c (w_q2 ++ [EPacket (PPubAck (sc_ack 1))])), (Publish false ExactlyOnce false sc_topic (Some 1) no_props sc_payload).
  split; [cfg|]. split; [reach|]. split; [vm_compute; now left|]. split; [reflexivity|]. split; [reflexivity|]. split; [vm_compute; reflexivity|].
  split; [vm_compute; tauto|vm_compute; now left].
Qed.

(* acknowledgements that make the client panic: the first with every option at its default value *)
Definition w_crash (a : packet) : list event := sc_connect false ++ [EPacket a].
Lemma opens P V : exists s, exec (Config Tokio (new_options [])) [EConnect; EWrite true; EPacket (sc_connack false); EHandled; EWrites [] true; ERun]
  (Sys (State P [] [] V [] [] []) [] [] (Net false (new_options []) (op_keep_alive (new_options [])) 0 None true []) PIdle 0 []) = Some s /\ y_pc s = PSelect 0.
Proof. eexists. split; vm_compute; reflexivity. Qed.
Lemma crash_zero : exists c s s', config_ok c /\ reachable c s /\ cf_opts c = new_options [] /\
  step c (EPacket (PPubAck (sc_ack 0))) s = Some s' /\ trace s' = trace s ++ [ORead (PPubAck (sc_ack 0)); OPanic].
Proof.
  assert (forall c1, config_ok c1 -> forall s, reachable c1 s -> forall since, y_pc s = PSelect since ->
    exists s', step c1 (EPacket (PPubAck (sc_ack 0))) s = Some s' /\ trace s' = trace s ++ [ORead (PPubAck (sc_ack 0)); OPanic]) as HG.
  { intros c1 HC s HR since HS. pose proof (proj2 (incoming_panics c1 s since (PPubAck (sc_ack 0)) HC HR HS)) as HP.
    eexists. split; [cbn [step]; rewrite HS; reflexivity|]. unfold incoming. cbn [y_state log].
    destruct (handle_incoming_packet (PPubAck (sc_ack 0)) (y_state s)) as [st r]. cbn [snd] in HP. rewrite HP by (exists (sc_ack 0); auto). now tr. }
  pose (c2 := Config Tokio (new_options [])).
  assert (config_ok c2) as HC by cfg.
  assert (exists s, reachable c2 s /\ exists since, y_pc s = PSelect since) as (s & HR & since & HS).
  { destruct (opens (new_pool (send_max (new_options []))) (repeat None (N.to_nat (receive_max (new_options []))))) as (s & E1 & E2).
    exists s. split; [eexists; exact E1|]. exists 0. exact E2. }
  destruct (HG c2 HC s HR since HS) as (s' & H1 & H2). exists c2, s, s'. auto 10.
Qed.
Lemma crash_large : exists c s s', config_ok c /\ reachable c s /\ receive_max (cf_opts c) = 10 /\
  step c (EPacket (PPubRec (sc_ack 11))) s = Some s' /\ trace s' = trace s ++ [ORead (PPubRec (sc_ack 11)); OPanic].
Proof.
  pose (c := sc Smol 10 10 false). exists c, (run_to c (sc_connect false)), (run_to c (sc_connect false ++ [EPacket (PPubRec (sc_ack 11))])).
  split; [cfg|]. split; [reach|]. split; [reflexivity|]. split; vm_compute; reflexivity.
Qed.
(* a publish whose identifier has no place in the table *)
Lemma crash_request : exists c s s' x, config_ok c /\ reachable c s /\ send_max (cf_opts c) = 2 /\ receive_max (cf_opts c) = 1 /\
  step c (EWrite true) s = Some s' /\ trace s' = trace s ++ [OWrite FromClient (PPublish x); OPanic] /\ pb_pkid x = Some 2.
Proof.
  pose (c := sc Tokio 2 1 false).
  exists c, (run_to c (sc_connect false ++ sc_do (sc_pub AtLeastOnce) ++ [ECall (sc_pub AtLeastOnce); ESend 0; EOutgoing])),
    (run_to c (sc_connect false ++ sc_do (sc_pub AtLeastOnce) ++ sc_do (sc_pub AtLeastOnce))), (Publish false AtLeastOnce false sc_topic (Some 2) no_props sc_payload).
  split; [cfg|]. split; [reach|]. split; [reflexivity|]. split; [reflexivity|]. split; [vm_compute; reflexivity|]. split; vm_compute; reflexivity.
Qed.
Lemma select_case : exists c s, config_ok c /\ reachable c s /\ y_pc s = PSelect 0 /\ awaited (now_ledger c s) (PPubAck (sc_ack 1)) = true /\
  awaited (now_ledger c s) (PPubComp (sc_ack 1)) = false /\ awaited (now_ledger c s) (PSubAck (SubAck 1 no_props [])) = false.
Proof.
  pose (c := sc Tokio 10 10 false). exists c, (run_to c (sc_connect false ++ sc_do (sc_pub AtLeastOnce))). split; [cfg|]. split; [reach|].
  split; [vm_compute; reflexivity|]. split; [vm_compute; reflexivity|]. split; vm_compute; reflexivity.
Qed.
