(* C71: the client's part of the invariant. *)
From Coq Require Import Permutation.
From Verif Require Import Base VarInt Prims Props Codes Packets BaseFacts Options Session Client System SpecSession SpecNet SpecPolite SessionFacts SystemFacts AckFacts IdFacts Cases NetFacts NetMore OutFacts WorldFacts WorldMore WorldAll PoliteFacts.

Lemma hold_eq g g' ps d : lg_sent g' = lg_sent g -> lg_rel g' = lg_rel g -> hold g ps d -> hold g' ps d.
Proof. intros H1 H2 H. apply (hold_led _ _ _ _ H); intros p X i E; specialize (X i E); now rewrite ?H1, ?H2. Qed.
Lemma hold_pop g u p t d b : hold g (u ++ p :: t) d -> hold g (arrive b p u ++ t) d.
Proof.
  intros H. destruct b; cbn [arrive]; [now rewrite <- app_assoc|]. eapply hold_sub; [exact H| |apply incl_refl|].
  - intros y. rewrite !in_app_iff. cbn. tauto.
  - exists (opt_list (up_id p)). rewrite !uids_app, uids_cons. perm.
Qed.
Lemma hold_add g u p t d b : up_id p = None -> hold g (u ++ t) d -> hold g (arrive b p u ++ t) d.
Proof.
  intros E H. destruct b; cbn [arrive]; [|exact H]. destruct H as [A B C]. apply Forall_app in B as [B1 B2]. constructor.
  - rewrite !uids_app, uids_cons, E in *. cbn. now rewrite app_nil_r.
  - rewrite !Forall_app. split; [split; [exact B1|]|exact B2]. constructor; [|constructor]. intros i X. congruence.
  - exact C.
Qed.
Lemma hold_cut g u t d : hold g (u ++ t) d -> hold g (u ++ []) d.
Proof.
  intros H. eapply hold_sub; [exact H| |apply incl_refl|].
  - intros y. rewrite !in_app_iff. cbn. tauto.
  - exists (uids t). rewrite !uids_app. cbn [uids flat_map]. rewrite app_nil_r. perm.
Qed.

(* ---- ledger and identifiers ---- *)
Lemma held_in g p i : held_up g p -> up_id p = Some i -> In i (req_ids (lg_sent g)) \/ In i (lg_rel g).
Proof.
  intros H E. specialize (H i E). destruct p; try discriminate E; auto; left; apply in_req_ids.
  - destruct H as (x & H1 & H2). exists (PPublish x). auto.
  - exists (PSubscribe s). auto.
  - exists (PUnsubscribe u). auto.
Qed.
Lemma held_down_in g p i : held_down g p -> down_id p = Some i -> In i (req_ids (lg_sent g)) \/ In i (lg_rel g).
Proof.
  intros H E. specialize (H i E). destruct p; try discriminate E; auto; left; apply in_req_ids; destruct H as (x & H1 & H2).
  - exists (PPublish x). auto. - exists (PPublish x). auto. - exists (PSubscribe x). cbn. split; [exact H1|congruence]. - exists (PUnsubscribe x). cbn. split; [exact H1|congruence].
Qed.
Lemma hold_in g ps d i : hold g ps d -> In i (uids ps ++ dids d) -> In i (req_ids (lg_sent g)) \/ In i (lg_rel g).
Proof.
  intros [_ B C] H. apply in_app_iff in H as [H|H].
  - apply in_uids in H as (p & H1 & H2). rewrite Forall_forall in B. eapply held_in; eauto.
  - unfold dids in H. apply in_flat_map in H as (p & H1 & H2). rewrite Forall_forall in C. destruct (down_id p) eqn:E; [|contradiction]. destruct H2 as [<-|[]].
    eapply held_down_in; eauto.
Qed.
Lemma shape_id p i : request_shape p -> up_id p = Some i -> req_id p = Some i.
Proof. destruct p; cbn [request_shape up_id req_id]; try contradiction; try discriminate; auto. now destruct (pb_qos p). Qed.

(* a request is written *)
Lemma sent_after clean g p : lg_sent (ledger_step clean g (OWrite FromClient p)) = (if is_some (req_id p) then lg_sent g ++ [p] else lg_sent g) /\
  lg_rel (ledger_step clean g (OWrite FromClient p)) = lg_rel g.
Proof. destruct g. auto. Qed.
Lemma hold_request clean g u p t d b : sound g -> request_shape p -> (req_id p <> None -> In p (lg_open g)) -> hold g (u ++ t) d ->
  hold (ledger_step clean g (OWrite FromClient p)) (arrive b p u ++ t) d.
Proof.
  intros HS HP HI HH. destruct (sent_after clean g p) as [E1 E2]. set (g' := ledger_step clean g (OWrite FromClient p)) in *.
  assert (incl (lg_sent g) (lg_sent g')) as HI2. { rewrite E1. destruct (is_some _); [apply incl_appl|]; apply incl_refl. }
  assert (hold g' (u ++ t) d) as HG.
  { apply (hold_led _ _ _ _ HH).
    - intros q X i E. specialize (X i E). destruct q; auto; try (rewrite E2; exact X). destruct X as (x & X1 & X2). exists x. auto.
    - intros q X i E. specialize (X i E). destruct q; auto; try (rewrite E2; exact X); destruct X as (x & X1 & X2); exists x; auto. }
  destruct b; cbn [arrive]; [|exact HG]. destruct (up_id p) as [i|] eqn:EU.
  2: { change (u ++ [p]) with (arrive true p u). now apply hold_add. }
  assert (req_id p = Some i) as ER by now apply shape_id.
  assert (~ In i (uids (u ++ t) ++ dids d)) as HN.
  { intros X. apply (hold_in _ _ _ _ HH) in X. assert (In i (req_ids (lg_open g))) as HO. { apply (open_in g i p); [apply HI; congruence|exact ER]. }
    destruct X as [X|X]; [exact (open_sent g i HS HO X)|exact (open_rel g i HS HO X)]. }
  destruct HG as [A B C]. apply Forall_app in B as [B1 B2]. constructor.
  - apply (Permutation_NoDup (l := i :: uids (u ++ t) ++ dids d)); [|now constructor]. rewrite !uids_app, uids_cons, EU. cbn. perm.
  - rewrite !Forall_app. split; [split; [exact B1|]|exact B2]. constructor; [|constructor]. intros j EJ. rewrite EU in EJ. injection EJ as <-. rewrite E1, ER. cbn [is_some].
    destruct p; cbn [request_shape] in HP; try contradiction; try discriminate EU.
    + exists p. split; [apply in_or_app; right; now left|exact ER].
    + apply in_or_app; right; now left.
    + apply in_or_app; right; now left.
  - exact C.
Qed.

(* ---- a packet is read ---- *)
Lemma answers_id p q : answers p q = true -> down_id p = req_id q.
Proof. destruct p, q; try discriminate; cbn [answers]; intros H; apply has_id_spec in H; now rewrite H. Qed.
Lemma read_reply clean rmax g inn p : let t := todo_packets (on_read rmax g inn p) in
  t = [] \/ (exists k, t = [k] /\ up_id k = None /\ is_conn k = false) \/
  exists a, p = PPubRec a /\ t = [PPubRel (okay (ak_id a))] /\ In (ak_id a) (lg_rel (ledger_step clean g (ORead p))).
Proof.
  cbn zeta. unfold on_read, on_ack, deliver, reply, refuse. destruct p; cbn [ak_id]; try (left; reflexivity);
    try (left; repeat match goal with |- context [if ?b then _ else _] => destruct b end; reflexivity).
  - destruct (pb_qos p), (pb_pkid p); try (left; reflexivity).
    + right; left. eexists. split; [reflexivity|]. auto.
    + right; left. destruct (mem _ _ || _); eexists; (split; [reflexivity|auto]).
  - destruct (off_table _ _); [left; reflexivity|]. destruct (awaited g _) eqn:EA; [|left; reflexivity]. destruct (rec_accepts _) eqn:ER; [|left; reflexivity].
    right; right. exists a. split; [reflexivity|]. split; [reflexivity|]. destruct (read_facts clean g (PPubRec a)) as (_ & _ & K & _). rewrite K. cbn [awaited] in EA. rewrite EA, ER.
    apply in_or_app. right. now left.
  - right; left. eexists. split; [reflexivity|auto].
Qed.
Lemma hold_read clean rmax g inn u p d : hold g (u ++ []) (p :: d) -> hold (ledger_step clean g (ORead p)) (u ++ todo_packets (on_read rmax g inn p)) d.
Proof.
  intros HH. destruct (read_facts clean g p) as (_ & K2 & K3 & _). pose proof (read_reply clean rmax g inn p) as HR. cbn zeta in *.
  set (g' := ledger_step clean g (ORead p)) in *. rewrite app_nil_r in HH. destruct HH as [A B C]. inversion C as [|? ? _ C2]; subst. rewrite dids_cons in A.
  assert (forall q, In q (lg_sent g) -> req_id q <> down_id p \/ down_id p = None -> In q (lg_sent g')) as HSE.
  { intros q X1 X2. apply K2. split; [exact X1|]. destruct (answers p q) eqn:EA; [|reflexivity]. pose proof (answers_id _ _ EA) as EI. destruct X2 as [X2|X2]; [congruence|].
    exfalso. destruct p; try discriminate EA; discriminate X2. }
  assert (forall i, In i (lg_rel g) -> Some i <> down_id p \/ down_id p = None -> In i (lg_rel g')) as HRE.
  { intros i X1 X2. rewrite K3. destruct p; auto; [apply in_or_app; auto|]. apply filter_In. split; [exact X1|]. cbn [down_id] in X2.
    destruct (N.eqb_spec (ak_id a) i); [|reflexivity]. subst. destruct X2; congruence. }
  assert (forall i, down_id p = Some i -> ~ In i (uids u) /\ ~ In i (dids d)) as HNI.
  { intros i E. rewrite E in A. cbn [opt_list app] in A. apply NoDup_remove_2 in A. rewrite in_app_iff in A. tauto. }
  assert (Forall (held_up g') u) as HU.
  { apply Forall_forall. intros q X i E. rewrite Forall_forall in B. pose proof (B q X i E) as Y.
    assert (Some i <> down_id p \/ down_id p = None) as HX. { destruct (down_id p) as [j|] eqn:EJ; [|auto]. left. intros [= <-]. destruct (HNI i eq_refl) as [N1 _]. apply N1. apply in_uids. eauto. }
    destruct q; try discriminate E.
    - destruct Y as (x & Y1 & Y2). exists x. split; [|exact Y2]. apply HSE; [exact Y1|]. cbn [req_id]. rewrite Y2. exact HX.
    - auto. - apply HSE; [exact Y|]. cbn in *. now rewrite E. - apply HSE; [exact Y|]. cbn in *. now rewrite E. }
  assert (Forall (held_down g') d) as HD.
  { apply Forall_forall. intros q X i E. rewrite Forall_forall in C2. pose proof (C2 q X i E) as Y.
    assert (Some i <> down_id p \/ down_id p = None) as HX.
    { destruct (down_id p) as [j|] eqn:EJ; [|auto]. left. intros [= <-]. destruct (HNI i eq_refl) as [_ N2]. apply N2. unfold dids. apply in_flat_map. exists q. rewrite E. split; [exact X|now left]. }
    destruct q; try discriminate E; auto; destruct Y as (x & Y1 & Y2); exists x; (split; [|exact Y2]); apply HSE; try exact Y1; cbn [req_id]; rewrite Y2; exact HX. }
  assert (NoDup (uids u ++ dids d)) as HN.
  { eapply Permutation_NoDup in A; [|apply Permutation_app_head; apply Permutation_app_comm]. rewrite app_assoc in A. now apply nodup_app_l in A. }
  destruct HR as [->|[(k & -> & E & _)|(a & -> & -> & HI)]].
  - rewrite app_nil_r. now constructor.
  - constructor; [|apply Forall_app; split; [exact HU|constructor; [|constructor]]|exact HD].
    + rewrite uids_app, uids_cons, E. cbn. now rewrite app_nil_r.
    + intros i X. congruence.
  - constructor; [|apply Forall_app; split; [exact HU|constructor; [|constructor]]|exact HD].
    + rewrite uids_app. cbn. destruct (HNI _ eq_refl) as [N1 N2]. apply (Permutation_NoDup (l := ak_id a :: uids u ++ dids d)); [perm|]. constructor; [|exact HN]. rewrite in_app_iff. tauto.
    + intros i [= <-]. exact HI.
Qed.

(* ---- the answer to CONNECT ---- *)
Lemma dup_ids pubs : Forall (fun p => is_pub p = true) pubs -> exists l, Permutation (req_ids pubs) (l ++ uids (map dup pubs)).
Proof.
  induction 1 as [|p pubs HP HF [l IH]]; [now exists []|]. destruct p; try discriminate HP. cbn [map]. rewrite req_ids_cons, uids_cons. cbn [req_id dup up_id pb_qos pb_pkid].
  destruct (pb_qos p).
  - exists (opt_list (pb_pkid p) ++ l). cbn. perm.
  - exists l. perm.
  - exists l. perm.
Qed.
Lemma rel_ids rel : uids (map (fun i => PPubRel (okay i)) rel) = rel.
Proof. induction rel as [|i rel IH]; [reflexivity|]. cbn. now rewrite <- IH at 2. Qed.
Lemma answer_items clean g p inn inn' its : on_answer clean g p inn inn' its -> let g' := ledger_step clean g (OAnswer p) in sound g -> sound g' ->
  NoDup (uids (todo_packets its)) /\ Forall (held_up g') (todo_packets its) /\ conns (todo_packets its) = [].
Proof.
  intros HA g' HS HS'. destruct HA as [inn E1|inn a E1 E2|inn a rel E1 E2 E3|inn a j E1 E2 E3]; try (repeat split; constructor).
  fold g' in E3 |- *. subst p.
  assert (lg_expect g' = map dup (lg_sent g') /\ lg_expect_rel g' = lg_rel g' /\ Forall (fun p => is_pub p = true) (lg_sent g')) as (X1 & X2 & X3).
  { subst g'. destruct g as [op se re lo cl ex er]. cbn [ledger_step]. rewrite E2. destruct (_ && _); cbn [lg_expect lg_sent lg_expect_rel lg_rel].
    - split; [reflexivity|]. split; [reflexivity|]. apply Forall_forall. intros q X. now apply filter_In in X.
    - auto. }
  rewrite X2 in E3. unfold deliver, resend_items. rewrite !todo_app, todo_resend, X1. cbn [todo_packets flat_map app]. rewrite app_nil_r.
  split; [|split].
  - rewrite uids_app, rel_ids. destruct (dup_ids _ X3) as [l P]. destruct (sound_fine _ HS') as (_ & HN & _).
    assert (Permutation (req_ids (lg_sent g') ++ lg_rel g') (l ++ uids (map dup (lg_sent g')) ++ rel)) as P2 by perm. apply (Permutation_NoDup P2) in HN. now apply nodup_app_r in HN.
  - apply Forall_app. split; apply Forall_forall; intros q X; apply in_map_iff in X as (y & <- & X); intros i E.
    + rewrite Forall_forall in X3. specialize (X3 y X). destruct y; try discriminate X3. cbn [dup] in *. cbn [up_id pb_qos pb_pkid] in E. exists p. split; [exact X|]. now destruct (pb_qos p).
    + cbn in E. injection E as <-. now apply (Permutation_in _ E3).
  - rewrite conns_app. assert (conns (map dup (lg_sent g')) = []) as ->.
    { clear X1 HS'. induction X3 as [|y l HY HL IH]; [reflexivity|]. destruct y; try discriminate HY. exact IH. }
    clear. induction rel; [reflexivity|exact IHrel].
Qed.
