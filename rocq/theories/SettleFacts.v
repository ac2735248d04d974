(* C72: everything the client waits for is on its way. *)
From Coq Require Import Permutation.
From Verif Require Import Base VarInt Prims Props Codes Packets BaseFacts Options Session Client System SpecSession SpecNet SpecPolite SpecSettle SessionFacts SystemFacts AckFacts IdFacts Cases NetFacts NetMore OutFacts WorldFacts WorldMore WorldAll PoliteFacts PoliteMore PoliteAll.

Lemma attentive_polite w w' : attentive w w' -> polite w w'.
Proof. destruct 1 as [w w' H| |]; [destruct H| |]; constructor; assumption. Qed.
Lemma attended_with c s w : attended c s w -> with_broker c s w.
Proof. induction 1; [constructor|eapply wb_client; eassumption|eapply wb_broker; [eassumption|now apply attentive_polite]]. Qed.
Lemma none_id p : unanswerable p = true -> up_id p = None.
Proof. destruct p; try discriminate; try reflexivity. cbn. destruct (pb_qos p), (pb_pkid p); try discriminate; reflexivity. Qed.

Definition under_way (i : N) (u t d : list packet) : Prop := In i (uids u) \/ In i (uids t) \/ In i (dids d).
Record full (c : config) (q : nstate) (w : line) (b : bool) : Prop := {
  fu_shape : Forall request_shape (lg_sent (n_led q));
  fu_all : ln_live w = true -> b = true -> active q = true -> n_phase q <> FDead -> ~ In IPanic (n_todo q) ->
    forall i, In i (req_ids (lg_sent (n_led q))) \/ In i (lg_rel (n_led q)) -> under_way i (ln_up w) (todo_packets (n_todo q)) (ln_down w);
  fu_conn : ln_live w = true -> b = true -> n_phase q = FAnswer -> (exists x, In (PConnect x) (ln_up w)) \/ exists a, In (PConnAck a) (ln_down w) }.

Lemma in_mid {A} (x p : A) u1 u2 : In x (u1 ++ p :: u2) -> x = p \/ In x (u1 ++ u2).
Proof. rewrite !in_app_iff. cbn. intuition. Qed.
Lemma uids_mid i p u1 u2 : In i (uids (u1 ++ p :: u2)) -> up_id p = Some i \/ In i (uids (u1 ++ u2)).
Proof. rewrite !uids_app, uids_cons, !in_app_iff. destruct (up_id p); cbn; intuition congruence. Qed.
Lemma in_dids i l : In i (dids l) <-> exists p, In p l /\ down_id p = Some i.
Proof. unfold dids. rewrite in_flat_map. split; intros (p & H1 & H2); exists p; (split; [exact H1|]); destruct (down_id p); cbn in *; intuition congruence. Qed.
Lemma full_broker c q w w' b : full c q w b -> attentive w w' -> full c q w' b.
Proof.
  intros [A B C] HW. destruct HW as [w w' HS|p us u d v HO|us u d v]; [destruct HS as [p k us u1 u2 d v H|p us u1 u2 d v H]| |]; constructor; lcbn; auto; try discriminate.
  - intros H1 H2 H3 H4 H5 i HI. destruct (B H1 H2 H3 H4 H5 i HI) as [X|[X|X]].
    + apply uids_mid in X as [X|X]; [|now left]. right. right. apply in_dids. exists k. split; [apply in_or_app; right; now left|]. now rewrite <- (answer_ids _ _ H).
    + right. now left.
    + right. right. rewrite dids_app. apply in_or_app. now left.
  - intros H1 H2 H3. destruct (C H1 H2 H3) as [[x X]|[a X]].
    + apply in_mid in X as [<-|X]; [|left; eauto]. right. destruct k; try discriminate H. exists c0. apply in_or_app. right. now left.
    + right. exists a. apply in_or_app. now left.
  - intros H1 H2 H3 H4 H5 i HI. destruct (B H1 H2 H3 H4 H5 i HI) as [X|[X|X]]; [|right; now left|right; now right].
    apply uids_mid in X as [X|X]; [|now left]. rewrite (none_id _ H) in X. discriminate X.
  - intros H1 H2 H3. destruct (C H1 H2 H3) as [[x X]|X]; [|now right]. apply in_mid in X as [<-|X]; [discriminate H|left; eauto].
  - intros H1 H2 H3 H4 H5 i HI. destruct (B H1 H2 H3 H4 H5 i HI) as [X|[X|X]]; [now left|right; now left|]. right. right. rewrite dids_app. apply in_or_app. now left.
  - intros H1 H2 H3. destruct (C H1 H2 H3) as [X|[a X]]; [now left|]. right. exists a. apply in_or_app. now left.
Qed.

(* a packet is read *)
Lemma read_left clean g p i : sound g -> held_down g p -> down_id p = Some i ->
  In i (req_ids (lg_sent (ledger_step clean g (ORead p)))) \/ In i (lg_rel (ledger_step clean g (ORead p))) ->
  exists a, p = PPubRec a /\ awaited g p = true /\ rec_accepts (ak_rc a) = true.
Proof.
  intros HS HD HI HL. destruct (read_facts clean g p) as (_ & K2 & K3 & _). destruct (sound_fine _ HS) as (_ & HN & _).
  assert (NoDup (req_ids (lg_sent g))) as HN1 by now apply nodup_app_l in HN.
  assert (forall q q', In q (lg_sent g) -> In q' (lg_sent g) -> req_id q = Some i -> req_id q' = Some i -> q = q') as HU.
  { clear - HN1. revert HN1. induction (lg_sent g) as [|y l IH]; [intros _ ? ? []|]. rewrite req_ids_cons. intros HN q q' [->|H1] [->|H2] E1 E2; auto.
    - exfalso. rewrite E1 in HN. cbn in HN. inversion HN as [|? ? X]; subst. apply X. apply in_req_ids. eauto.
    - exfalso. rewrite E2 in HN. cbn in HN. inversion HN as [|? ? X]; subst. apply X. apply in_req_ids. eauto.
    - apply IH; auto. now apply nodup_app_r in HN. }
  assert (forall q, In q (lg_sent g) -> req_id q = Some i -> answers p q = true -> In i (req_ids (lg_sent (ledger_step clean g (ORead p)))) -> False) as HX.
  { intros q X1 X2 X3 X4. apply in_req_ids in X4 as (q' & X4 & X5). apply K2 in X4 as [X4 X6]. rewrite (HU q q' X1 X4 X2 X5) in X3. congruence. }
  assert (forall q, In q (lg_sent g) -> req_id q = Some i -> In i (lg_rel g) -> False) as HY.
  { intros q X1 X2 X3. apply (nodup_disjoint _ _ i HN); [|exact X3]. apply in_req_ids. eauto. }
  specialize (HD i HI). destruct p; try discriminate HI; cbn [down_id] in HI.
  - destruct HD as (x & X1 & X2). exfalso. destruct HL as [HL|HL]; [|rewrite K3 in HL; exact (HY _ X1 X2 HL)].
    apply (HX _ X1 X2); [|exact HL]. cbn [answers]. apply has_id_spec. cbn [req_id]. congruence.
  - destruct HD as (x & X1 & X2). assert (answers (PPubRec a) (PPublish x) = true) as EA by (cbn [answers]; apply has_id_spec; cbn [req_id]; congruence).
    destruct HL as [HL|HL]; [exfalso; exact (HX _ X1 X2 EA HL)|].
    rewrite K3 in HL. apply in_app_iff in HL as [HL|HL]; [exfalso; exact (HY _ X1 X2 HL)|].
    exists a. split; [reflexivity|]. cbn [awaited]. destruct (existsb _ _); [|contradiction]. destruct (rec_accepts _); [auto|contradiction].
  - exfalso. destruct HL as [HL|HL].
    + apply in_req_ids in HL as (q & HL & E). apply K2 in HL as [HL _]. exact (HY _ HL E HD).
    + rewrite K3 in HL. apply filter_In in HL as [_ HL]. injection HI as HI. rewrite HI, N.eqb_refl in HL. discriminate HL.
  - destruct HD as (x & X1 & X2). exfalso. destruct HL as [HL|HL]; [|rewrite K3 in HL; exact (HY (PSubscribe x) X1 (f_equal Some X2) HL)].
    apply (HX _ X1 (f_equal Some X2)); [|exact HL]. cbn [answers]. apply has_id_spec. cbn [req_id]. congruence.
  - destruct HD as (x & X1 & X2). exfalso. destruct HL as [HL|HL]; [|rewrite K3 in HL; exact (HY (PUnsubscribe x) X1 (f_equal Some X2) HL)].
    apply (HX _ X1 (f_equal Some X2)); [|exact HL]. cbn [answers]. apply has_id_spec. cbn [req_id]. congruence.
Qed.
Lemma read_new clean g p i : In i (req_ids (lg_sent (ledger_step clean g (ORead p)))) \/ In i (lg_rel (ledger_step clean g (ORead p))) -> down_id p <> Some i ->
  In i (req_ids (lg_sent g)) \/ In i (lg_rel g).
Proof.
  destruct (read_facts clean g p) as (_ & K2 & K3 & _). intros [H|H] HI.
  - left. apply in_req_ids in H as (q & H & E). apply K2 in H as [H _]. apply in_req_ids. eauto.
  - right. rewrite K3 in H. destruct p; auto.
    + apply in_app_iff in H as [H|H]; [exact H|]. cbn [down_id] in HI. destruct (_ && _) in H; [|contradiction]. destruct H as [H|[]]. congruence.
    + now apply filter_In in H.
Qed.
Lemma read_way clean rmax g inn u p d i : sound g -> held_down g p -> ~ In IPanic (on_read rmax g inn p) ->
  (forall i, In i (req_ids (lg_sent g)) \/ In i (lg_rel g) -> under_way i u [] (p :: d)) ->
  In i (req_ids (lg_sent (ledger_step clean g (ORead p)))) \/ In i (lg_rel (ledger_step clean g (ORead p))) ->
  under_way i u (todo_packets (on_read rmax g inn p)) d.
Proof.
  intros HS HD HP HA HI. assert (down_id p = Some i \/ down_id p <> Some i) as [E|E]. { destruct (down_id p) as [j|]; [destruct (N.eq_dec j i); [left|right]; congruence|right; discriminate]. }
  - destruct (read_left clean g p i HS HD E HI) as (a & -> & HW & HR). right. left. cbn [on_read] in *. destruct (off_table _ _); [elim HP; now left|].
    rewrite HW, HR. cbn in *. injection E as E. now left.
  - destruct (HA i (read_new _ _ _ _ HI E)) as [X|[X|X]]; [now left|destruct X|]. right. right. rewrite dids_cons in X. apply in_app_iff in X as [X|X]; [|exact X].
    destruct (down_id p); cbn in X; [destruct X as [->|[]]; congruence|contradiction].
Qed.
Lemma shape_up p i : request_shape p -> req_id p = Some i -> up_id p = Some i.
Proof. destruct p; cbn [request_shape req_id up_id]; try contradiction; try discriminate; auto. intros H E. destruct (pb_qos p); auto. destruct H as [_ H]. rewrite H in E; congruence. Qed.
Lemma shape_dup p : request_shape p -> request_shape (dup p).
Proof. now destruct p. Qed.
Lemma dup_id p : req_id (dup p) = req_id p.
Proof. now destruct p. Qed.
(* the answer to CONNECT *)
Lemma answer_way clean g p inn inn' its i : on_answer clean g p inn inn' its -> let g' := ledger_step clean g (OAnswer p) in Forall request_shape (lg_sent g') ->
  existsb act_item its = true -> In i (req_ids (lg_sent g')) \/ In i (lg_rel g') -> In i (uids (todo_packets its)).
Proof.
  intros HA g' HF HX HI. destruct HA as [inn E1|inn a E1 E2|inn a rel E1 E2 E3|inn a j E1 E2 E3]; try discriminate HX.
  fold g' in E3 |- *. subst p.
  assert (lg_expect g' = map dup (lg_sent g') /\ lg_expect_rel g' = lg_rel g') as (X1 & X2).
  { subst g'. destruct g as [op se re lo cl ex er]. cbn [ledger_step]. rewrite E2. destruct (_ && _); split; reflexivity. }
  rewrite X2 in E3. unfold deliver, resend_items. rewrite !todo_app, todo_resend, X1. cbn [todo_packets flat_map app]. rewrite app_nil_r, uids_app, rel_ids. apply in_or_app.
  destruct HI as [HI|HI]; [left|right; eapply Permutation_in; [symmetry; exact E3|exact HI]].
  apply in_req_ids in HI as (q & HI & E). apply in_uids. exists (dup q). split; [now apply in_map|]. rewrite Forall_forall in HF. apply shape_up; [now apply shape_dup, HF|]. now rewrite dup_id.
Qed.

(* ---- one observation ---- *)
Definition steady (b : bool) (o : out) : bool := match o with OConnect => true | OWriteFail _ _ => false | _ => b end.
Lemma way_pop i u p t d v : v = true -> under_way i u (p :: t) d -> under_way i (arrive v p u) t d.
Proof.
  intros -> [X|[X|X]]; unfold under_way, arrive; rewrite uids_app, !in_app_iff; auto. rewrite uids_cons in X. apply in_app_iff in X as [X|X]; auto.
  left. right. rewrite uids_cons. apply in_or_app. now left.
Qed.
Lemma way_add i u p t d v : under_way i u t d -> under_way i (arrive v p u) t d.
Proof. intros [X|X]; [|now right]. left. destruct v; [|exact X]. cbn [arrive]. rewrite uids_app. apply in_or_app. now left. Qed.
Lemma sent_shape c q w o b : full c q w b -> side (cleans c) (n_led q) o -> Forall request_shape (lg_sent (ledger_step (cleans c) (n_led q) o)).
Proof.
  intros [A _ _] HD. destruct (n_led q) as [op se re lo cl ex er]. cbn [lg_sent] in A. destruct o; cbn [ledger_step lg_sent]; auto.
  - destruct (is_some _); exact A.
  - destruct p; auto. destruct (ca_rc c0); auto. destruct (_ && _); cbn [lg_sent]; [now apply Forall_filter|constructor].
  - destruct p; cbn [lg_sent]; try exact A; now apply Forall_filter.
  - destruct o; auto. cbn [lg_sent]. destruct (is_some _); [|exact A]. apply Forall_app. split; [exact A|]. constructor; [apply HD|constructor].
  - destruct o; exact A.
Qed.

Lemma full_out c q o q' w w' b : okay_with c q w -> full c q w b -> side (cleans c) (n_led q) o -> nstep c q o q' -> noticed o w w' -> full c q' w' (steady b o).
Proof.
  intros HK HF HD HN HO. pose proof (sent_shape _ _ _ _ _ HF HD) as HSH. destruct HN as [HB|b1 f its inn HB HC].
  - destruct HF as [A B C]. qcbn.
    assert (ln_live w' = ln_live w /\ ln_up w' = ln_up w /\ ln_down w' = ln_down w /\ steady b o = b) as (W1 & W2 & W3 & W4). { destruct o; try discriminate HB; inversion HO; subst; try contradiction; auto. }
    destruct (client_ledger (cleans c) (n_led q) o HB) as [L1 L2]. constructor; qcbn; rewrite ?W1, ?W2, ?W3, ?W4; fold (cleans c); rewrite ?L1, ?L2; auto.
  - destruct q as [op ph td qi g]. destruct HK as [KA KB KC KD KE KF KG KH KK KL KI KJ]. destruct HF as [A B C]. qcbn. fold (cleans c) in *. set (g' := ledger_step (cleans c) g o) in *.
    assert (quiet o = true -> lg_sent g' = lg_sent g /\ lg_rel g' = lg_rel g) as HQ. { intros X. destruct (quiet_ledger (cleans c) g o X) as (_ & L2 & L3 & _). auto. }
    destruct HC; inversion HO; subst; try contradiction; lcbn; constructor; qcbn; lcbn; auto; try discriminate; unfold steady; try discriminate.
    all: try (intros V1 V2 V3 V4 V5 i; destruct (HQ eq_refl) as [Q1 Q2]; rewrite Q1, Q2).
    all: try (elim V4; reflexivity).
    all: try discriminate V3.
    all: try (intros HI; assert (f <> FDead) as VD by (intros X; discriminate (KL X))).
    all: try (intros HI; apply (B V1 V2); [exact V3|discriminate|intros []|exact HI]).
    all: try (intros HI; apply way_add; apply (B V1 V2); [exact V3|discriminate|intros []|exact HI]).
    all: try (intros V2 V3; destruct (KE V3) as (_ & X & _); discriminate X).
    all: try (apply (B V1 V2); [first [exact V3|cbn; apply orb_true_r]|exact VD|intros [X|X]; [discriminate X|first [now apply V5|contradiction]]|exact HI]).
    all: try (apply way_pop; [exact V1|]; apply (B V1 V2); [cbn; apply orb_true_r|exact VD|intros [X|X]; [discriminate X|now apply V5]|exact HI]).
    + intros V1 _ _. left. exists x. rewrite V1. apply in_or_app. right. now left.
    + intros V1 V2 V3 _ _ i HI. destruct (KE eq_refl) as (X & _). rewrite X in V3. cbn in V3. right. left. exact (answer_way _ _ _ _ _ _ _ H HSH V3 HI).
    + intros V1 V2 V3 _ V5 i HI. specialize (KJ (loop_alive _ _ _ _ (@in_nil _ _))). apply (read_way (cleans c)); auto.
      * pose proof (ho_down _ _ _ KJ) as X. now inversion X.
      * intros j HJ. apply (B V1 V2); [now rewrite (KC eq_refl)|discriminate|intros []|exact HJ].
    + intros V1 V2 V3 _ V5 i HI. rewrite request_todo. destruct (PoliteMore.sent_after (cleans c) g p) as [E1 E2]. fold g' in E1, E2. rewrite E1, E2 in HI. destruct HD as [D1 _].
      assert ((In i (req_ids (lg_sent g)) \/ In i (lg_rel g)) \/ req_id p = Some i) as [X|X].
      { destruct HI as [HI|HI]; [|auto]. destruct (is_some _); [|auto]. rewrite req_ids_app in HI. apply in_app_iff in HI as [HI|HI]; [auto|]. apply in_req_ids in HI as (q & [<-|[]] & E). auto. }
      * apply way_add. apply (B V1 V2); [now rewrite (KC eq_refl)|discriminate|intros []|exact X].
      * left. rewrite V1. apply in_uids. exists p. split; [apply in_or_app; right; now left|]. now apply shape_up.
Qed.

Lemma full_outs c l q w w' q' l0 b : nrun c l0 q -> everywhere (side_at c) (l0 ++ l) -> nfrom c q l q' -> notices l w w' -> okay_with c q w -> full c q w b ->
  full c q' w' (fold_left steady l b).
Proof.
  intros HN HE HF. revert w l0 b HN HE. induction HF as [q|q o q1 l q' HS HF IH]; intros w l0 b HN HE HO HK HA; inversion HO as [|? ? ? w1 ? HO1 HO2]; subst; [exact HA|].
  assert (side (cleans c) (n_led q) o) as HD by (rewrite (nrun_led _ _ _ HN); exact (HE l0 o l eq_refl)).
  apply (IH w1 (l0 ++ [o])); [eapply nrun_snoc; eassumption|now rewrite <- app_assoc|exact HO2| |].
  - eapply okay_out; eassumption.
  - eapply full_out; eassumption.
Qed.
Lemma full_init c : full c nstate0 line0 true.
Proof. constructor; cbn; try discriminate. constructor. Qed.
Lemma attended_full c s w : config_ok c -> attended c s w -> forall q, nrun c (trace s) q -> full c q w (unbroken (trace s)).
Proof.
  intros HC. induction 1 as [|s w e s' l w' HJ IH HGe HS HT HO|s w w' HJ IH HB]; intros q HQ.
  - inversion HQ; subst; [apply full_init|]. destruct l; discriminate.
  - rewrite HT in HQ. apply nrun_from, nfrom_app in HQ as (q1 & H1 & H2). apply nrun_from in H1. unfold unbroken. rewrite HT, fold_left_app.
    apply (full_outs c l q1 w w' q (trace s)); auto.
    + rewrite <- HT. apply side_everywhere; [exact HC|]. eapply reachable_step; [eapply with_reachable, attended_with; exact HJ|exact HS].
    + apply (with_okay c s w HC); [now apply attended_with|exact H1].
  - eapply full_broker; [now apply IH|exact HB].
Qed.
