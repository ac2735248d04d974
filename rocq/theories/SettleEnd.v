(* C72: the end of the work. *)
From Coq Require Import Permutation.
From Verif Require Import Base VarInt Prims Props Codes Packets BaseFacts Options Session Client System SpecSession SpecNet SpecPolite SpecSettle SessionFacts SystemFacts AckFacts EndFacts IdFacts Cases NetFacts NetMore OutFacts OutMore WorldFacts WorldMore WorldAll PoliteFacts PoliteMore PoliteAll PoliteEnd SettleFacts SettleMore.

(* ---- it can be decided whether there is work ---- *)
Lemma down_empty l w w' : notices l w w' -> ln_down w = [] -> Forall (fun o => match o with OAnswer _ | ORead _ => False | _ => True end) (firstn 1 l).
Proof. destruct 1 as [w|o l w w1 w2 HO HL]; intros E; [constructor|]. constructor; [|constructor]. destruct HO; lcbn; try exact I; try discriminate E. destruct o; auto. Qed.
Lemma pick_none {A} i (x : A) r : pick i [] = Some (x, r) -> False.
Proof. destruct i; discriminate. Qed.
Lemma rest_dec c s w : reachable c s -> (exists s' w', toil c s w s' w') \/ at_rest c s w.
Proof.
  intros HR. destruct (busy_or_rest c s w HR) as [H|H]; [now left|].
  assert ((y_wait s <> [] /\ len (y_chan s) < CHANNEL_SIZE) \/ (y_wait s = [] \/ CHANNEL_SIZE <= len (y_chan s))) as [[H1 H2]|HN].
  { destruct (y_wait s); [auto|]. destruct (N.lt_ge_cases (len (y_chan s)) CHANNEL_SIZE); [left; split; [discriminate|assumption]|auto]. }
  { left. destruct (y_wait s) as [|x wt] eqn:EW; [congruence|]. eapply (can_do c s w (ESend 0)); [exact HR|exact I|cbn [step]; unfold send_call; rewrite EW; cbn [pick]; apply N.ltb_lt in H2; rewrite H2; reflexivity|exact I]. }
  destruct (ln_up w) as [|p u] eqn:EU.
  - right. intros s' w' [e s1 l w1 E1 E2 E3 E4|w1 E1]; [|destruct E1; lcbn; now destruct u1].
    destruct (step_tcase _ _ _ _ HR E2) as (m & st & wt & ch & n & q & t & HTC & ->). rewrite next_trace in E3. apply app_inv_head in E3. subst m. clear E2.
    assert (match e with EPacket _ => ln_down w <> [] | _ => True end) as HD. { destruct HTC; auto; intros X; pose proof (down_empty _ _ _ E4 X) as Y; cbn [firstn] in Y; inversion Y; contradiction. }
    destruct H as [[H1 H2]|[H1|(_ & H1 & [H2|([t0 H2] & H3 & H4 & H5)])]]; destruct HTC; cbn [effort] in E1; try contradiction; try congruence;
      try (match goal with X : pick _ _ = Some _ |- _ => destruct HN as [HN|HN]; [rewrite HN in X; exact (pick_none _ _ _ X)|lia] end).
  - left. apply can_serve. congruence.
Qed.
Lemma toils_app c n m s w s1 w1 s' w' : toils c n s w s1 w1 -> toils c m s1 w1 s' w' -> toils c (n + m) s w s' w'.
Proof. induction 1; intros H2; [exact H2|]. cbn [Nat.add]. econstructor; eauto. Qed.
Theorem toils_end c s w : config_ok c -> reachable c s -> exists n s' w', toils c n s w s' w' /\ at_rest c s' w'.
Proof.
  intros HC. remember (remaining c s w) as k eqn:EK. revert s w EK. induction k as [k IH] using (well_founded_induction lt_wf). intros s w -> HR.
  destruct (rest_dec c s w HR) as [(s1 & w1 & HT)|HA]; [|exists 0%nat, s, w; split; [constructor|exact HA]].
  destruct (IH _ (toil_less _ _ _ _ _ HC HR HT) s1 w1 eq_refl (toil_reachable _ _ _ _ _ HR HT)) as (n & s' & w' & H1 & H2).
  exists (S n), s', w'. split; [econstructor; eassumption|exact H2].
Qed.

(* ---- joint runs ---- *)
Lemma toil_attended c s w s' w' : attended c s w -> toil c s w s' w' -> attended c s' w'.
Proof.
  intros HA [e s1 l w1 H1 H2 H3 H4|w1 H]; [|eapply an_broker; [exact HA|now apply at_deals]].
  eapply an_client; try eassumption. destruct e; try contradiction H1; exact I.
Qed.
Lemma toils_attended c n s w s' w' : attended c s w -> toils c n s w s' w' -> attended c s' w'.
Proof. intros HA HT. induction HT; [exact HA|]. apply IHHT. eapply toil_attended; eassumption. Qed.
Lemma attended_reachable c s w : attended c s w -> reachable c s.
Proof. intros H. eapply with_reachable, attended_with, H. Qed.
Definition linking (q : pc) : bool := match q with PConnWrite | PConnRead | PConnHandle _ | PConnResend _ => true | _ => false end.
Lemma attended_used c s w : config_ok c -> attended c s w -> nt_connected (y_net s) = ln_used w.
Proof.
  intros HC HA. destruct (conforms c s HC (attended_reachable _ _ _ HA)) as [q HQ]. rewrite <- (k_open _ _ _ HQ).
  apply (k_used c q w). apply (with_okay c s w HC (attended_with _ _ _ HA)). exact (k_run _ _ _ HQ).
Qed.
Lemma net_on c s e l st wt ch n q t : tcase c s e l st wt ch n q t -> linking q = true -> nt_connected n = nt_connected (y_net s).
Proof. destruct 1; cbn [linking]; try discriminate; try reflexivity; destruct (cf_rt c); try reflexivity; try discriminate; try (destruct reply; discriminate); try (destruct r; discriminate). Qed.
Lemma linking_before c s e l st wt ch n q t : tcase c s e l st wt ch n q t -> linking q = true -> linking (y_pc s) = true \/ l = [OConnect].
Proof.
  destruct 1; cbn [linking]; intros HL; try (right; reflexivity); try discriminate HL; try (left; exact HL); try (left; now rewrite H).
  all: destruct (cf_rt c); try discriminate HL. all: try (destruct reply; discriminate HL). all: try (destruct r; discriminate HL).
Qed.
Lemma linking_off c s w : config_ok c -> attended c s w -> linking (y_pc s) = true -> nt_connected (y_net s) = false.
Proof.
  intros HC. induction 1 as [|s w e s' l w' HJ IH HGe HS HT HO|s w w' HJ IH HB]; intros HL; [discriminate HL| |auto].
  destruct (step_tcase _ _ _ _ (attended_reachable _ _ _ HJ) HS) as (m & st & wt & ch & n & q & t & HTC & ->). rewrite next_trace in HT. apply app_inv_head in HT. subst m.
  cbn [next y_pc y_net] in *. rewrite (net_on _ _ _ _ _ _ _ _ _ _ HTC HL). destruct (linking_before _ _ _ _ _ _ _ _ _ _ HTC HL) as [X|X]; [auto|]. subst l.
  inversion HO as [|? ? ? w1 ? HO1 HO2]; subst. rewrite (attended_used _ _ _ HC HJ). inversion HO1; subst; [reflexivity|contradiction].
Qed.

(* ---- what happens to an exchange ---- *)
Definition calm (o : out) : Prop := match o with OAnswer _ | OWriteFail _ _ | OGiveUp _ | ORefuse _ _ => False | _ => True end.
Lemma flight_in g i : In i (in_flight g) <-> In i (req_ids (lg_open g)) \/ In i (req_ids (lg_sent g)) \/ In i (lg_rel g).
Proof. unfold in_flight. rewrite !in_app_iff. tauto. Qed.
Lemma flight_read clean g p i : In i (in_flight g) -> In i (in_flight (ledger_step clean g (ORead p))) \/ settles i p = true.
Proof.
  rewrite !flight_in. destruct (read_facts clean g p) as (K1 & K2 & K3 & _). rewrite K1. intros [H|[H|H]]; [auto| |].
  - apply in_req_ids in H as (q & H & E). destruct (answers p q) eqn:EA.
    + pose proof (answers_id _ _ EA) as EI. rewrite E in EI.
      destruct p; try discriminate EA; cbn [down_id] in EI; injection EI as EI; subst i; cbn [settles]; rewrite ?N.eqb_refl; auto.
      destruct (rec_accepts (ak_rc a)) eqn:ER; [|auto]. left. right. right. rewrite K3. apply in_or_app. right.
      assert (existsb (answers (PPubRec a)) (lg_sent g) = true) as -> by (apply existsb_exists; eauto). now left.
    + left. right. left. apply in_req_ids. exists q. split; [|exact E]. apply K2. auto.
  - assert (In i (lg_rel (ledger_step clean g (ORead p))) \/ settles i p = true) as [X|X]; [|auto|auto]. rewrite K3. destruct p; auto.
    + left. apply in_or_app. now left.
    + cbn [settles]. destruct (N.eqb_spec (ak_id a) i); [auto|]. left. apply filter_In. split; [exact H|]. now apply negb_true_iff, N.eqb_neq.
Qed.
Lemma flight_step clean g o i : calm o -> In i (in_flight g) -> In i (in_flight (ledger_step clean g o)) \/ exists p, o = ORead p /\ settles i p = true.
Proof.
  intros HO HI. destruct o; try contradiction HO; try (left; destruct g; exact HI).
  - left. destruct g as [op se re lo cl ex er]. rewrite flight_in in *. cbn [ledger_step lg_open lg_sent lg_rel] in *. destruct (is_some _); cbn [lg_open lg_sent lg_rel]; [|exact HI]. rewrite req_ids_app, in_app_iff. tauto.
  - destruct (flight_read clean g p i HI) as [X|X]; [auto|]. right. eauto.
  - left. destruct o; try (destruct g; exact HI). destruct g as [op se re lo cl ex er]. rewrite flight_in in *. cbn [ledger_step lg_open lg_sent lg_rel] in *. destruct HI as [HI|[HI|HI]]; [| |auto].
    + apply in_req_ids in HI as (q & HI & E). destruct (req_id p) as [j|] eqn:EJ; cbn [is_some].
      * destruct (N.eq_dec i j) as [->|N0]; [right; left; apply in_req_ids; exists p; split; [apply in_or_app; right; now left|exact EJ]|].
        left. apply in_req_ids. exists q. split; [|exact E]. unfold without_req. rewrite EJ. apply filter_In. split; [exact HI|]. unfold has_id. rewrite E. apply negb_true_iff, N.eqb_neq. congruence.
      * left. apply in_req_ids. exists q. unfold without_req. rewrite EJ. auto.
    + right. left. destruct (is_some _); [|exact HI]. rewrite req_ids_app. apply in_or_app. now left.
Qed.
Lemma flight_outs clean l : Forall calm l -> forall g i, In i (in_flight g) -> In i (in_flight (fold_left (ledger_step clean) l g)) \/ exists p, In (ORead p) l /\ settles i p = true.
Proof.
  induction 1 as [|o l HO HL IH]; intros g i HI; [auto|]. cbn [fold_left]. destruct (flight_step clean g o i HO HI) as [X|(p & -> & X)]; [|right; exists p; split; [now left|exact X]].
  destruct (IH _ _ X) as [Y|(p & Y & Z)]; [auto|]. right. exists p. split; [now right|exact Z].
Qed.
(* ---- steps of the work outside of connect ---- *)
Definition late (o : out) : Prop := match o with OConnect | OAnswer _ | OGiveUp _ | ORefuse _ _ | ODropClients => False | _ => True end.
Lemma smol_late o ps ok : Forall late (smol_writes o ps ok).
Proof. apply Forall_forall. intros x H. unfold smol_writes in H. apply in_map_iff in H as (y & <- & _). destruct (smol_write_all ps ok); exact I. Qed.
Lemma reply_linking rt r t : linking (reply_pc rt r t) = false.
Proof. destruct rt, r; reflexivity. Qed.
Lemma late_case c s e l st wt ch n q t : tcase c s e l st wt ch n q t -> effort s e -> linking (y_pc s) = false -> Forall late l /\ linking q = false.
Proof.
  intros HT HE HL. destruct HT; cbn [effort] in HE; try contradiction HE; try (match goal with H : y_pc s = _ |- _ => rewrite H in HL; discriminate HL end).
  all: split; rewrite ?reply_linking; try assumption; try reflexivity; try (solve [repeat constructor]); try (solve [apply smol_late]).
  all: apply Forall_app; split; [apply smol_late|repeat constructor].
Qed.
Lemma write_plain rt p ok e : write_result rt p ok = Some e -> e <> NoOutgoingPacketSender.
Proof. unfold write_result. destruct (ser_err rt p); [intros [= <-]; discriminate|]. destruct ok; [discriminate|]. intros [= <-]. discriminate. Qed.
Lemma off_case c s e l st wt ch n q t : reachable c s -> tcase c s e l st wt ch n q t -> effort s e -> linking (y_pc s) = false -> nt_connected (y_net s) = true -> nt_connected n = false ->
  exists l1 r, l = l1 ++ [ORunEnd r] /\
  match r with
  | inr NoOutgoingPacketSender => pl_open (st_pool (y_state s)) = false
  | inl _ | inr (HandlerErr _) => True
  | inr x => (exists o p, In (OWriteFail o p) l) \/ cf_rt c = Smol /\ x = Io
  end.
Proof.
  intros HR HT HE HL HN HF.
  destruct HT; cbn [effort] in HE; try contradiction HE; try (match goal with H : y_pc s = _ |- _ => rewrite H in HL; discriminate HL end).
  all: try congruence.
  all: try (solve [exfalso; cbn [set_await set_last nt_connected] in HF; first [congruence|destruct (cf_rt c); cbn in HF; congruence]]).
  all: try (solve [eexists [], _; split; [reflexivity|first [exact I|assumption]]]).
  all: try (solve [eexists [_], _; split; [reflexivity|exact I]]).
  all: try (solve [eexists [_], _; split; [reflexivity|]; match goal with H : write_result _ _ _ = Some ?x |- _ => pose proof (write_plain _ _ _ _ H); destruct x; try exact I; try congruence; left; do 2 eexists; now left end]).
  pose proof (smol_pc _ _ _ HR H) as ER. exists (smol_writes FromReply ps ok), (inr e). split; [reflexivity|].
  destruct ps as [|p ps].
  - unfold smol_write_all in H0. cbn in H0. destruct ok; [discriminate H0|]. injection H0 as <-. right. auto.
  - assert (In (OWriteFail FromReply p) (smol_writes FromReply (p :: ps) ok ++ [ORunEnd (inr e)])) as X by (unfold smol_writes; rewrite H0; now left).
    destruct e; try exact I; try (left; do 2 eexists; exact X).
    exfalso. unfold smol_write_all in H0. destruct (find _ _); [destruct (ser_err _ _); discriminate H0|]. destruct ok; discriminate H0.
Qed.
Lemma idle_case c s e l st wt ch n q t : tcase c s e l st wt ch n q t -> effort s e -> linking (y_pc s) = false -> nt_connected (y_net s) = false -> nt_connected n = false.
Proof.
  intros HT HE HL HN. destruct HT; cbn [effort] in HE; try contradiction HE; try (match goal with H : y_pc s = _ |- _ => rewrite H in HL; discriminate HL end).
  all: try congruence; try (cbn [set_await set_last nt_connected end_net]; try destruct (cf_rt c); cbn; congruence).
Qed.
Lemma reason_more c h l r h' l' : good_reason c h l r -> (forall o, In o h -> In o h') -> (forall o, In o l -> In o l') -> good_reason c h' l' r.
Proof.
  intros H H1 H2. destruct r as [r|r]; [exact I|]. assert ((exists o p, In (OWriteFail o p) l) \/ cf_rt c = Smol /\ r = Io -> (exists o p, In (OWriteFail o p) l') \/ cf_rt c = Smol /\ r = Io) as K.
  { intros [(o & p & X)|X]; [left; exists o, p; auto|auto]. }
  destruct r; cbn [good_reason] in *; auto. destruct e; auto.
Qed.
Lemma toils_grow c k s w s' w' : attended c s w -> toils c k s w s' w' -> exists l, trace s' = trace s ++ l.
Proof.
  intros HA HT. induction HT as [s w|k s w s1 w1 s' w' H1 H2 IH]; [exists []; now rewrite app_nil_r|].
  destruct (IH (toil_attended _ _ _ _ _ HA H1)) as [l2 E2]. destruct H1 as [e s1 l1 w1 E3 E4 E5 E6|w1 E3]; [|eauto]. exists (l1 ++ l2). now rewrite E2, E5, <- app_assoc.
Qed.
Lemma toil_why c s w s' w' l : config_ok c -> attended c s w -> linking (y_pc s) = false -> toil c s w s' w' -> trace s' = trace s ++ l ->
  Forall late l /\ linking (y_pc s') = false /\
  (nt_connected (y_net s) = false -> nt_connected (y_net s') = false) /\
  (nt_connected (y_net s) = true -> nt_connected (y_net s') = false -> exists r, In (ORunEnd r) l /\ good_reason c (trace s') l r).
Proof.
  intros HC HA HL HT HE. pose proof (toil_attended _ _ _ _ _ HA HT) as HA'. destruct HT as [e s' l1 w' H1 H2 H3 H4|w' H].
  2: { rewrite <- (app_nil_r (trace s)) in HE at 1. apply app_inv_head in HE. subst l. repeat apply conj; auto. congruence. }
  rewrite H3 in HE. apply app_inv_head in HE. subst l1.
  pose proof (attended_reachable _ _ _ HA) as HR. pose proof (run_errors c s' w' HC (attended_with _ _ _ HA')) as HX.
  destruct (step_tcase _ _ _ _ HR H2) as (m & st & wt & ch & n & q & t & HTC & ->). rewrite next_trace in *. apply app_inv_head in H3. subst m. cbn [next y_pc y_net].
  destruct (late_case _ _ _ _ _ _ _ _ _ _ HTC H1 HL) as [K1 K2]. repeat apply conj; auto.
  - intros HN. eapply idle_case; eassumption.
  - intros HN HF. destruct (off_case _ _ _ _ _ _ _ _ _ _ HR HTC H1 HL HN HF) as (l1 & r & -> & HRE). exists r. split; [apply in_or_app; right; now left|].
    destruct r as [r|r]; [exact I|]. destruct r; try exact HRE.
    + cbn [good_reason]. apply in_or_app. left. apply (dropped (cleans c)). rewrite <- HRE. symmetry. exact (i_open _ _ _ _ _ (v_inv _ _ (inv_reachable _ _ HC HR))).
    + destruct (HX (trace s ++ l1) _ [] ltac:(now rewrite <- app_assoc) _ eq_refl) as (i & -> & HD). cbn [good_reason]. apply in_app_iff in HD. rewrite !in_app_iff. tauto.
Qed.
Lemma toils_why' c k s w s' w' : config_ok c -> toils c k s w s' w' -> attended c s w -> linking (y_pc s) = false -> forall l, trace s' = trace s ++ l ->
  Forall late l /\ linking (y_pc s') = false /\
  (nt_connected (y_net s) = false -> nt_connected (y_net s') = false) /\
  (nt_connected (y_net s) = true -> nt_connected (y_net s') = false -> exists r, In (ORunEnd r) l /\ good_reason c (trace s') l r).
Proof.
  intros HC HT. induction HT as [s w|k s w s1 w1 s' w' H1 H2 IH]; intros HA HL l E.
  - rewrite <- (app_nil_r (trace s)) in E at 1. apply app_inv_head in E. subst l. repeat apply conj; auto. congruence.
  - pose proof (toil_attended _ _ _ _ _ HA H1) as HA1. destruct (toils_grow _ _ _ _ _ _ HA1 H2) as [l2 E2].
    assert (exists l1, trace s1 = trace s ++ l1) as [l1 E1] by (inversion H1; subst; [eauto|exists []; now rewrite app_nil_r]).
    assert (l = l1 ++ l2) as ->. { rewrite E2, E1, <- app_assoc in E. now apply app_inv_head in E. }
    destruct (toil_why _ _ _ _ _ _ HC HA HL H1 E1) as (A1 & A2 & A3 & A4). destruct (IH HA1 A2 _ E2) as (B1 & B2 & B3 & B4).
    repeat apply conj; auto; [apply Forall_app; auto|]. intros HN HF. destruct (nt_connected (y_net s1)) eqn:EN.
    + destruct (B4 eq_refl HF) as (r & X1 & X2). exists r. split; [apply in_or_app; now right|]. eapply reason_more; [exact X2|auto|]. intros o X. apply in_or_app. now right.
    + destruct (A4 HN eq_refl) as (r & X1 & X2). exists r. split; [apply in_or_app; now left|]. eapply reason_more; [exact X2| |]; intros o X; [rewrite E2|]; apply in_or_app; now left.
Qed.
Lemma up_unlinked c s w : config_ok c -> attended c s w -> nt_connected (y_net s) = true -> linking (y_pc s) = false.
Proof. intros HC HA HN. destruct (linking (y_pc s)) eqn:E; [|reflexivity]. pose proof (linking_off _ _ _ HC HA E). congruence. Qed.
Theorem toils_why c k s w s' w' l : config_ok c -> attended c s w -> nt_connected (y_net s) = true -> toils c k s w s' w' -> trace s' = trace s ++ l ->
  nt_connected (y_net s') = false -> exists r, In (ORunEnd r) l /\ good_reason c (trace s') l r.
Proof. intros HC HA HN HT HL HF. now apply (toils_why' _ _ _ _ _ _ HC HT HA (up_unlinked _ _ _ HC HA HN) _ HL). Qed.

(* ---- at rest ---- *)
Lemma dead_panics c l q : nrun c l q -> n_phase q = FDead -> In OPanic l.
Proof.
  intros H. induction H as [|l q o q' H IH HS]; [discriminate|]. intros E. apply in_or_app. destruct HS as [HB|b f its inn HB HA]; cbn [n_phase] in E; [left; auto|].
  revert E IH. inversion HA; subst; intros E IH; try discriminate E; try (left; apply IH; congruence). right. now left.
Qed.
Lemma resting_of c s w : reachable c s -> at_rest c s w -> resting s w.
Proof. intros HR HA. destruct (busy_or_rest c s w HR) as [(s' & w' & H)|H]; [now destruct (HA _ _ H)|exact H]. Qed.
Theorem rest_empty c s w : config_ok c -> send_max (cf_opts c) <= receive_max (cf_opts c) -> attended c s w -> at_rest c s w -> ln_live w = true -> unbroken (trace s) = true ->
  nt_connected (y_net s) = true -> in_flight (now_ledger c s) = [] /\ y_wait s = [] /\ y_chan s = [] /\ exists t, y_pc s = PSelect t.
Proof.
  intros HC HM HA HR HL HU HN. pose proof (attended_reachable _ _ _ HA) as HRE. destruct (conforms c s HC HRE) as [q HQ].
  pose proof (attended_full _ _ _ HC HA q (k_run _ _ _ HQ)) as [_ HF _]. pose proof (no_panics _ _ _ HC HM (attended_with _ _ _ HA)) as HP.
  pose proof (k_todo _ _ _ HQ) as HT. destruct (resting_of _ _ _ HRE HR) as [[_ X]|[X|(U & D & [X|([t X] & W & C & _)])]].
  - congruence.
  - rewrite X in HT. destruct (HP (dead_panics _ _ _ (k_run _ _ _ HQ) (proj1 HT))).
  - pose proof (up_unlinked _ _ _ HC HA HN) as Y. rewrite X in Y. discriminate Y.
  - rewrite X in HT. destruct HT as [T1 T2]. split; [|repeat apply conj; eauto].
    rewrite U, D, T2, T1 in HF. assert (active q = true) as HAC. { unfold active. rewrite (k_open _ _ _ HQ), HN. reflexivity. }
    specialize (HF HL HU HAC ltac:(discriminate) ltac:(intros [])).
    destruct (v_inv _ _ (inv_reachable _ _ HC HRE)) as [_ _ _ I4 _ _ _]. unfold pending in I4. rewrite W, C, X in I4. apply Permutation_sym, Permutation_nil in I4.
    change (ledger_at c s) with (now_ledger c s) in I4. assert (n_led q = now_ledger c s) as EL by exact (k_led _ _ _ HQ). rewrite EL in HF.
    destruct (in_flight (now_ledger c s)) as [|i r] eqn:E; [reflexivity|]. exfalso. assert (In i (in_flight (now_ledger c s))) as Z by (rewrite E; now left).
    apply flight_in in Z. rewrite I4 in Z. destruct Z as [[]|Z]. destruct (HF _ Z) as [[]|[[]|[]]].
Qed.
Lemma unbroken_late a l : Forall late l -> unbroken (a ++ l) = true -> Forall calm l.
Proof.
  unfold unbroken. rewrite fold_left_app. generalize (fold_left (fun (b : bool) (o : out) => match o with OConnect => true | OWriteFail _ _ => false | _ => b end) a true). intros b H. revert b.
  assert (forall l, Forall late l -> fold_left (fun (b : bool) (o : out) => match o with OConnect => true | OWriteFail _ _ => false | _ => b end) l false = false) as K.
  { induction 1 as [|o m HO HM IH]; [reflexivity|]. cbn [fold_left]. destruct o; try contradiction HO; exact IH. }
  induction H as [|o m HO HM IH]; intros b HB; constructor.
  - destruct o; try exact I; try contradiction HO. cbn [fold_left] in HB. now rewrite K in HB.
  - cbn [fold_left] in HB. eapply IH, HB.
Qed.
Theorem all_answered c k s w s' w' l : config_ok c -> send_max (cf_opts c) <= receive_max (cf_opts c) -> attended c s w -> nt_connected (y_net s) = true ->
  toils c k s w s' w' -> at_rest c s' w' -> trace s' = trace s ++ l ->
  ln_live w' = true -> unbroken (trace s') = true -> nt_connected (y_net s') = true ->
  in_flight (now_ledger c s') = [] /\ y_wait s' = [] /\ y_chan s' = [] /\
  (forall i, In i (in_flight (now_ledger c s)) -> exists p, In (ORead p) l /\ settles i p = true).
Proof.
  intros HC HM HA HN HT HR HL HV HU HN'. destruct (rest_empty _ _ _ HC HM (toils_attended _ _ _ _ _ _ HA HT) HR HV HU HN') as (R1 & R2 & R3 & _). repeat apply conj; auto.
  intros i HI. destruct (toils_why' _ _ _ _ _ _ HC HT HA (up_unlinked _ _ _ HC HA HN) _ HL) as (K & _). rewrite HL in HU. pose proof (unbroken_late _ _ K HU) as HCA.
  destruct (flight_outs (cleans c) l HCA (now_ledger c s) i HI) as [X|X]; [|exact X]. exfalso.
  unfold now_ledger, ledger_of in R1. rewrite HL, fold_left_app in R1. unfold now_ledger, ledger_of in X. fold (cleans c) in *. rewrite R1 in X. contradiction.
Qed.
Lemma select_rest c s w t : reachable c s -> ln_up w = [] -> ln_down w = [] -> y_pc s = PSelect t -> y_wait s = [] -> y_chan s = [] -> pl_open (st_pool (y_state s)) = true -> at_rest c s w.
Proof.
  intros HR EU ED EP EW EC EO s' w' [e s1 l w1 E1 E2 E3 E4|w1 E1]; [|destruct E1; lcbn; now destruct u1].
  destruct (step_tcase _ _ _ _ HR E2) as (m & st & wt & ch & n & q & t0 & HTC & ->). rewrite next_trace in E3. apply app_inv_head in E3. subst m. clear E2.
  assert (match e with EPacket _ => False | _ => True end) as HD. { destruct HTC; auto; pose proof (down_empty _ _ _ E4 ED) as Y; cbn [firstn] in Y; inversion Y; contradiction. }
  destruct HTC; cbn [effort] in E1; try contradiction; try congruence. rewrite EW in H. exact (pick_none _ _ _ H).
Qed.
