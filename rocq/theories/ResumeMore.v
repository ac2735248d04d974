(* The facts about reconnection behind P_Session.v. *)
From Coq Require Import Permutation.
From Verif Require Import Base VarInt Prims Props Codes Packets BaseFacts Options Session Client System SpecSession SpecNet SpecTrace SessionFacts SystemFacts AckFacts IdFacts Cases Scenario IdMore NetFacts NetMore TraceFacts TraceMore.

(* --- C24 --- *)
Lemma spoil_resend ps x : spoil (map IResend ps ++ [x]) = map IResend ps ++ spoil [x].
Proof. unfold spoil. rewrite map_app, map_map. reflexivity. Qed.
Lemma resend_forward c ps : forall q m l2 q' x, nfrom c q (m ++ OConnectEnd None :: l2) q' -> existsb is_connect_end m = false ->
  n_todo q = map IResend ps ++ [x] -> x = IOpen \/ x = INoConnect ->
  x = IOpen /\ Forall2 (attempt FromResend) ps (net_of m) /\ (cf_rt c = Smol -> net_of m = map (OWrite FromResend) ps).
Proof.
  induction ps as [|p ps IH]; intros q m l2 q' x HF HE ET HX; destruct (next_net _ _ _ _ _ _ HF eq_refl) as [(EM & q1 & g & HA & HF1)|(m1 & o & m2 & q1 & g & -> & EM & HB & HA & HF1)];
    rewrite ET in HA; cbn [map app] in HA; apply act_cons in HA as [EI HA].
  - destruct HX as [-> | ->]; [|destruct HA as (_ & _ & _ & (e & E) & _); discriminate E]. rewrite EM. repeat constructor.
  - exfalso. rewrite existsb_app in HE. cbn [existsb] in HE. apply orb_false_iff in HE as [_ HE]. apply orb_false_iff in HE as [HE _].
    destruct HX as [-> | ->].
    + destruct HA as (_ & _ & _ & [[-> _]|[(e & ->) _]]); discriminate HE.
    + destruct HA as (_ & _ & _ & (e & ->) & _); discriminate HE.
  - destruct HA as ([[E _]|[E _]] & _); discriminate E.
  - rewrite existsb_app in HE. cbn [existsb] in HE. apply orb_false_iff in HE as [_ HE]. apply orb_false_iff in HE as [_ HE].
    rewrite (net_split _ _ _ EM HB). destruct HA as ([[-> HT]|[-> HT]] & _).
    + destruct (IH _ _ _ _ x HF1 HE HT HX) as (-> & H1 & H2). split; [reflexivity|]. split; [constructor; [now left|exact H1]|]. intros HS. now rewrite (H2 HS).
    + destruct (cf_rt c) eqn:ER.
      * destruct (IH _ _ _ _ x HF1 HE HT HX) as (-> & H1 & H2). split; [reflexivity|]. split; [constructor; [now right|exact H1]|]. discriminate.
      * rewrite spoil_resend in HT. destruct HX as [-> | ->]; cbn [spoil map] in HT.
        -- destruct (IH _ _ _ _ INoConnect HF1 HE HT (or_intror eq_refl)) as (E & _). discriminate E.
        -- destruct (IH _ _ _ _ INoConnect HF1 HE HT (or_intror eq_refl)) as (E & _). discriminate E.
Qed.
Lemma connect_trace c l1 p m l2 q : nrun c (l1 ++ OAnswer p :: m ++ OConnectEnd None :: l2) q -> existsb is_connect_end m = false ->
  let g := ledger_of (cleans c) (l1 ++ [OAnswer p]) in
  exists a rel outs, p = PConnAck a /\ ca_rc a = RSuccess /\ Permutation rel (lg_expect_rel g) /\
    net_of m = OHandle p :: OHandled :: outs /\
    let ps := lg_expect g ++ map (fun i => PPubRel (okay i)) rel in
    Forall2 (attempt FromResend) ps outs /\ (cf_rt c = Smol -> outs = map (OWrite FromResend) ps).
Proof.
  intros HN HE g. apply nrun_split in HN as (q0 & q1 & H0 & HS & HF).
  assert (existsb is_opened m = false) as HE2.
  { destruct (existsb is_opened m) eqn:E; [|reflexivity]. rewrite <- HE. symmetry. apply existsb_exists in E as (o & HI & HO). apply existsb_exists. exists o. split; [exact HI|].
    destruct o; try discriminate HO. reflexivity. }
  assert (forall e, n_todo q1 = [IRefused e] -> False) as HBAD.
  { intros e ET. destruct (next_net _ _ _ _ _ _ HF eq_refl) as [(EM & q2 & g2 & HA & _)|(m1 & o & m2 & q2 & g2 & -> & EM & HB & HA & _)]; rewrite ET in HA;
      apply act_cons in HA as (_ & _ & _ & _ & E & _); [discriminate E|]. subst o. rewrite existsb_app in HE. cbn in HE. rewrite orb_true_r in HE. discriminate HE. }
  inversion HS as [HB|b f its inn HB HA]; subst; [discriminate HB|]. inversion HA; subst. cbn [n_todo] in *.
  match goal with O : on_answer _ _ _ _ _ _ |- _ => inversion O; subst; try (exfalso; eapply HBAD; reflexivity) end.
  match goal with P : Permutation _ _ |- _ => rename P into HP end.
  assert (g = ledger_step (cleans c) (n_led q0) (OAnswer (PConnAck a))) as EG by (unfold g; now rewrite ledger_of_snoc, (nrun_led _ _ _ H0)).
  unfold cleans in EG at 1. fold (cleans c) in EG.
  change (op_clean_start (cf_opts c)) with (cleans c) in *. rewrite <- EG in *. clearbody g.
  (* the handler *)
  destruct (next_net _ _ _ _ _ _ HF eq_refl) as [(EM & q2 & g2 & HA2 & _)|(m1 & o & m2 & q2 & g2 & -> & EM & HB2 & HA2 & HF2)];
    cbn [n_todo deliver app] in HA2; apply act_cons in HA2 as (_ & E & ET2 & _); [discriminate E|]. subst o.
  destruct (next_net _ _ _ _ _ _ HF2 eq_refl) as [(EM2 & q3 & g3 & HA3 & _)|(m3 & o & m4 & q3 & g3 & -> & EM2 & HB3 & HA3 & HF3)];
    rewrite ET2 in HA3; apply act_cons in HA3 as (_ & E & ET3 & _); [discriminate E|]. subst o.
  rewrite (net_split _ _ _ EM HB2), (net_split _ _ _ EM2 HB3). unfold resend_items in ET3.
  assert (existsb is_connect_end m4 = false) as HE4.
  { clear - HE. rewrite existsb_app in HE. cbn [existsb] in HE. rewrite existsb_app in HE. cbn [existsb] in HE.
    repeat (apply orb_false_iff in HE as [_ HE]). exact HE. }
  destruct (resend_forward c _ _ _ _ _ IOpen HF3 HE4 ET3 (or_introl eq_refl)) as (_ & HX1 & HX2).
  exists a, rel, (net_of m4). repeat split; auto.
Qed.

Lemma expect_ledger clean g a : ca_rc a = RSuccess ->
  let g' := ledger_step clean g (OAnswer (PConnAck a)) in
  lg_expect g' = (if resumed clean a then map dup (filter is_pub (lg_sent g)) else []) /\
  lg_expect_rel g' = (if resumed clean a then lg_rel g else []) /\
  lg_rel g' = (if resumed clean a then lg_rel g else []) /\
  lg_sent g' = (if resumed clean a then filter is_pub (lg_sent g) else []).
Proof. intros E. destruct g. cbn [ledger_step]. rewrite E. unfold resumed. now destruct (ca_session_present a && negb clean). Qed.

Definition to_resend (clean : bool) (l : list out) (rel : list N) : list packet :=
  map dup (filter is_pub (lg_sent (ledger_of clean l))) ++ map (fun i => PPubRel (okay i)) rel.

Lemma resumes c s l1 a m l2 : config_ok c -> reachable c s -> trace s = l1 ++ OAnswer (PConnAck a) :: m ++ OConnectEnd None :: l2 ->
  existsb is_connect_end m = false -> resumed (op_clean_start (cf_opts c)) a = true ->
  exists rel outs, Permutation rel (lg_rel (ledger_of (op_clean_start (cf_opts c)) l1)) /\
    net_of m = OHandle (PConnAck a) :: OHandled :: outs /\
    let ps := map dup (filter is_pub (lg_sent (ledger_of (op_clean_start (cf_opts c)) l1))) ++ map (fun i => PPubRel (okay i)) rel in
    Forall2 (attempt FromResend) ps outs /\ (cf_rt c = Smol -> outs = map (OWrite FromResend) ps).
Proof.
  intros HC HR HT HE ER. run_of HC HR HT. destruct (connect_trace _ _ _ _ _ _ HN HE) as (a' & rel & outs & E & EC & HP & EM & H1 & H2).
  injection E as <-. rewrite ledger_of_snoc in *. destruct (expect_ledger (cleans c) (ledger_of (cleans c) l1) a EC) as (E1 & E2 & _).
  unfold cleans in *. rewrite E1, E2, ER in *. exists rel, outs. auto.
Qed.
Lemma starts_anew c s l1 a m l2 : config_ok c -> reachable c s -> trace s = l1 ++ OAnswer (PConnAck a) :: m ++ OConnectEnd None :: l2 ->
  existsb is_connect_end m = false -> resumed (op_clean_start (cf_opts c)) a = false ->
  net_of m = [OHandle (PConnAck a); OHandled].
Proof.
  intros HC HR HT HE ER. run_of HC HR HT. destruct (connect_trace _ _ _ _ _ _ HN HE) as (a' & rel & outs & E & EC & HP & EM & H1 & H2).
  injection E as <-. rewrite ledger_of_snoc in *. destruct (expect_ledger (cleans c) (ledger_of (cleans c) l1) a EC) as (E1 & E2 & _).
  unfold cleans in *. rewrite E1, E2, ER in *. apply Permutation_sym, Permutation_nil in HP. subst rel. cbn in H1. inversion H1; subst. exact EM.
Qed.
Lemma resend_only c s l1 p o l2 : config_ok c -> reachable c s -> trace s = l1 ++ o :: l2 -> attempt FromResend p o ->
  exists l0 a m, l1 = l0 ++ OAnswer (PConnAck a) :: m /\ ca_rc a = RSuccess /\ existsb is_connect_end m = false /\ resumed (op_clean_start (cf_opts c)) a = true.
Proof.
  intros HC HR HT HA. run_of HC HR HT. destruct (resend_before _ _ _ _ _ _ HN HA) as (l0 & a & m & -> & EC & HE & _ & HX). exists l0, a, m. repeat split; auto.
  rewrite ledger_of_snoc in HX. destruct (expect_ledger (cleans c) (ledger_of (cleans c) l0) a EC) as (E1 & E2 & _). rewrite E1, E2 in HX.
  unfold cleans in HX at 1 3. destruct (resumed _ a); [reflexivity|]. destruct HX as [[]|(i & _ & [])].
Qed.

(* --- C25: the old exchanges are forgotten --- *)
Definition waiting (g : ledger) : list N := req_ids (lg_sent g) ++ lg_rel g.
Lemma req_ids_in i l : In i (req_ids l) <-> exists p, In p l /\ req_id p = Some i.
Proof.
  unfold req_ids. rewrite in_flat_map. split; intros (p & H1 & H2); exists p; (split; [exact H1|]).
  - destruct (req_id p); [|destruct H2]. destruct H2 as [->|[]]; reflexivity.
  - rewrite H2. now left.
Qed.
Lemma req_ids_filter i f l : In i (req_ids (filter f l)) -> In i (req_ids l).
Proof. rewrite !req_ids_in. intros (p & H1 & H2). apply filter_In in H1 as [H1 _]. eauto. Qed.
Lemma waiting_back clean g o i : In i (waiting (ledger_step clean g o)) -> In i (waiting g) \/ exists p, o = OWrite FromClient p /\ req_id p = Some i.
Proof.
  unfold waiting. destruct g as [op se re lo cl ex er]. destruct o; cbn [ledger_step lg_sent lg_rel]; auto; try (destruct o; cbn [lg_sent lg_rel]; auto).
  - destruct (is_some (req_id p)); auto.
  - destruct p; auto. destruct (ca_rc c); auto. destruct (_ && _); cbn [lg_sent lg_rel]; [|intros []]. intros H. left. apply in_app_or in H as [H|H]; apply in_or_app; [left|now right]. now apply req_ids_filter in H.
  - assert (forall f, In i (req_ids (filter f se) ++ re) -> In i (req_ids se ++ re) \/ exists p0, ORead p = OWrite FromClient p0 /\ req_id p0 = Some i) as HF.
    { intros f H. left. apply in_app_or in H as [H|H]; apply in_or_app; [left|now right]. now apply req_ids_filter in H. }
    destruct p; try (apply HF); cbn [lg_sent lg_rel].
    + intros H. left. apply in_app_or in H as [H|H]; [apply in_or_app; left; now apply req_ids_filter in H|]. apply in_app_or in H as [H|H]; [apply in_or_app; now right|].
      destruct (existsb _ se) eqn:EX; [|destruct H]. destruct (rec_accepts _); [|destruct H]. destruct H as [<-|[]]. apply in_or_app. left.
      apply existsb_exists in EX as (p & HI & HP). apply req_ids_in. exists p. split; [exact HI|]. destruct p; try discriminate HP. cbn [answers] in HP. now apply has_id_spec.
    + intros H. left. apply in_app_or in H as [H|H]; apply in_or_app; [now left|right]. now apply filter_In in H as [H _].
  - destruct (is_some (req_id p)); auto. intros H. apply in_app_or in H as [H|H]; [|left; apply in_or_app; now right].
    apply req_ids_in in H as (p' & HI & HP). apply in_app_or in HI as [HI|[<-|[]]]; [|eauto]. left. apply in_or_app. left. apply req_ids_in. eauto.
Qed.
Lemma awaited_waiting g a i : is_ack a = true -> awaited g a = true -> ack_id a = Some i -> In i (waiting g).
Proof.
  intros HA HW HI. unfold waiting. apply in_or_app. destruct a; try discriminate HA; cbn [awaited ack_id] in *; injection HI as <-.
  1,2,4,5: left; apply existsb_exists in HW as (p & HI & HP); apply req_ids_in; exists p; split; [exact HI|]; destruct p; try discriminate HP; cbn [answers] in HP; now apply has_id_spec.
  right. apply existsb_exists in HW as (j & HI & HP). apply N.eqb_eq in HP. now subst.
Qed.
Lemma waiting_new clean l1 a l2 i : ca_rc a = RSuccess -> resumed clean a = false ->
  In i (waiting (ledger_of clean (l1 ++ OAnswer (PConnAck a) :: l2))) -> exists p, In (OWrite FromClient p) l2 /\ req_id p = Some i.
Proof.
  intros EC ER. induction l2 as [|o l2 IH] using rev_ind.
  - rewrite ledger_of_snoc. destruct (expect_ledger clean (ledger_of clean l1) a EC) as (_ & _ & E1 & E2). unfold waiting. rewrite E1, E2, ER. intros [].
  - replace (l1 ++ OAnswer (PConnAck a) :: l2 ++ [o]) with ((l1 ++ OAnswer (PConnAck a) :: l2) ++ [o]) by now rewrite <- app_assoc.
    rewrite ledger_of_snoc. intros H. apply waiting_back in H as [H|(p & -> & HP)].
    + destruct (IH H) as (p & HI & HP). exists p. split; [apply in_or_app; now left|exact HP].
    + exists p. split; [apply in_or_app; right; now left|exact HP].
Qed.
Lemma forgotten c s since l1 a l2 p i : config_ok c -> reachable c s -> trace s = l1 ++ OAnswer (PConnAck a) :: l2 ->
  ca_rc a = RSuccess -> resumed (op_clean_start (cf_opts c)) a = false ->
  y_pc s = PSelect since -> is_ack p = true -> ack_id p = Some i -> (forall r, In (OWrite FromClient r) l2 -> req_id r <> Some i) ->
  match p with PPubAck x | PPubRec x => off_table (receive_max (cf_opts c)) (ak_id x) = false | _ => True end ->
  exists s', step c (EPacket p) s = Some s' /\
    trace s' = trace s ++ [ORead p; ORunEnd (inr (HandlerErr (Unsolicited i (type_of p))))] /\ y_state s' = y_state s.
Proof.
  intros HC HR HT EC ER HS HA HI HW HO. destruct (awaited (now_ledger c s) p) eqn:EA.
  - exfalso. pose proof (awaited_waiting _ _ _ HA EA HI) as HX. unfold now_ledger in HX. rewrite HT in HX. apply waiting_new in HX as (r & H1 & H2); [|exact EC|exact ER]. now apply (HW r).
  - destruct (unsolicited c s since p HC HR HS HA EA HO) as (j & s' & HJ & H1 & H2 & H3 & _). rewrite HI in HJ. injection HJ as <-. eauto.
Qed.

Lemma resumes_smol c s l1 a m l2 : config_ok c -> reachable c s -> cf_rt c = Smol ->
  trace s = l1 ++ OAnswer (PConnAck a) :: m ++ OConnectEnd None :: l2 -> existsb is_connect_end m = false ->
  resumed (op_clean_start (cf_opts c)) a = true ->
  exists rel, Permutation rel (lg_rel (ledger_of (op_clean_start (cf_opts c)) l1)) /\
  net_of m = OHandle (PConnAck a) :: OHandled ::
    map (OWrite FromResend) (map dup (filter is_pub (lg_sent (ledger_of (op_clean_start (cf_opts c)) l1))) ++ map (fun i => PPubRel (okay i)) rel).
Proof.
  intros Hc Hr Hs HT HE HR. destruct (resumes c s l1 a m l2 Hc Hr HT HE HR) as (rel & outs & HP & HN & HF).
  exists rel. split; [exact HP|]. cbv zeta in HF. destruct HF as [_ HF]. now rewrite HN, (HF Hs).
Qed.
Lemma resumes_tokio c s l1 a m l2 : config_ok c -> reachable c s ->
  trace s = l1 ++ OAnswer (PConnAck a) :: m ++ OConnectEnd None :: l2 -> existsb is_connect_end m = false ->
  resumed (op_clean_start (cf_opts c)) a = true ->
  exists rel outs, Permutation rel (lg_rel (ledger_of (op_clean_start (cf_opts c)) l1)) /\
  net_of m = OHandle (PConnAck a) :: OHandled :: outs /\
  Forall2 (attempt FromResend)
    (map dup (filter is_pub (lg_sent (ledger_of (op_clean_start (cf_opts c)) l1))) ++ map (fun i => PPubRel (okay i)) rel) outs.
Proof.
  intros Hc Hr HT HE HR. destruct (resumes c s l1 a m l2 Hc Hr HT HE HR) as (rel & outs & HP & HN & HF).
  exists rel, outs. split; [exact HP|]. split; [exact HN|]. apply HF.
Qed.
