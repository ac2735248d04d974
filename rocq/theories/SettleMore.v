(* C72: the work is finite, and what is the case when it is done. *)
From Coq Require Import Permutation.
From Verif Require Import Base VarInt Prims Props Codes Packets BaseFacts Options Session Client System SpecSession SpecNet SpecPolite SpecSettle SessionFacts SystemFacts AckFacts IdFacts Cases NetFacts NetMore OutFacts WorldFacts WorldMore WorldAll PoliteFacts PoliteMore PoliteAll PoliteEnd SettleFacts.
Local Open Scope nat_scope.

(* ---- how much is left ---------------------------------------------------------------------------- *)
Definition up_work (p : packet) : nat := match p with PPublish _ => 12 | _ => 6 end.
Definition down_work (p : packet) : nat := match p with PPublish _ | PPubRec _ | PPubRel _ => 10 | _ => 5 end.
Definition work (f : packet -> nat) (l : list packet) : nat := list_sum (map f l).
Definition kept_work (g : ledger) : nat := 12 * length (lg_sent g) + 6 * length (lg_rel g).
Definition pc_work (g : ledger) (connected : bool) (q : pc) : nat :=
  match q with
  | PIdle => if connected then 2 else 0
  | PCrash => 0
  | PSelect _ => 1
  | PConnWrite => kept_work g + 14
  | PConnRead => kept_work g + 6
  | PConnHandle (Some ps) => work up_work ps + 5
  | PConnHandle None => 5
  | PConnResend ps => work up_work ps + 4
  | PHandle (AfterPacket (Some r)) => up_work r + 3
  | PHandle _ => 3
  | PReply r => up_work r + 2
  | PFlush ps => work up_work ps + 2
  | PRequest p => up_work p + 2
  | PPing | PBye => 8
  end.
Definition remaining (c : config) (s : sys) (w : line) : nat :=
  work (fun p => up_work p + 3) (y_chan s) + work (fun p => up_work p + 4) (y_wait s) + work up_work (ln_up w) + work down_work (ln_down w) +
  pc_work (ledger_at c s) (nt_connected (y_net s)) (y_pc s).
Lemma work_app f a b : work f (a ++ b) = work f a + work f b.
Proof. unfold work. now rewrite map_app, list_sum_app. Qed.
Lemma work_cons f p l : work f (p :: l) = f p + work f l. Proof. reflexivity. Qed.
Lemma work_perm f a b : Permutation a b -> work f a = work f b.
Proof. induction 1; rewrite ?work_cons in *; lia. Qed.
Lemma work_mid f a p b : work f (a ++ p :: b) = f p + work f (a ++ b).
Proof. rewrite !work_app, work_cons. lia. Qed.

(* ---- what is read and written ---- *)
Definition out_writes (l : list out) : nat := list_sum (map (fun o => match o with OWrite _ p | OWriteFail _ p => up_work p | _ => 0 end) l).
Definition out_reads (l : list out) : nat := list_sum (map (fun o => match o with OAnswer p | ORead p => down_work p | _ => 0 end) l).
Lemma arrive_work v p u : work up_work (arrive v p u) <= work up_work u + up_work p.
Proof. destruct v; cbn [arrive]; rewrite ?work_app, ?work_cons; cbn; lia. Qed.
Lemma notices_work l w w' : notices l w w' -> ~ In OConnect l ->
  work up_work (ln_up w') + work down_work (ln_down w') + out_reads l <= work up_work (ln_up w) + work down_work (ln_down w) + out_writes l.
Proof.
  induction 1 as [w|o l w w1 w2 HO HL IH]; intros HN; [unfold out_reads, out_writes; cbn; lia|]. specialize (IH (fun X => HN (or_intror X))).
  unfold out_reads, out_writes in *. cbn [map list_sum fold_right].
  destruct HO; lcbn; try (elim HN; now left); rewrite ?work_cons in *; try lia.
  all: unfold list_sum in *; try lia.
  all: try (pose proof (arrive_work v p u); lia).
  all: try (pose proof (arrive_work (v && arrives) p u); lia).
  all: match goal with H : match ?x with _ => _ end |- _ => destruct x as [| | | | | |[]| | | | | | | | |]; try contradiction; lia end.
Qed.
Lemma tokio_work o ps oks : out_writes (tokio_writes o ps oks) = work up_work ps /\ out_reads (tokio_writes o ps oks) = 0 /\ ~ In OConnect (tokio_writes o ps oks).
Proof.
  revert oks. induction ps as [|p ps IH]; intros oks; [destruct oks; auto|]. unfold out_writes, out_reads in *. rewrite work_cons. destruct oks as [|b oks]; cbn [tokio_writes].
  - destruct (IH []) as (I1 & I2 & I3). destruct (write_result _ _ _); cbn [map list_sum fold_right In]; unfold list_sum in *; rewrite I1, I2; intuition discriminate.
  - destruct (IH oks) as (I1 & I2 & I3). destruct (write_result _ _ _); cbn [map list_sum fold_right In]; unfold list_sum in *; rewrite I1, I2; intuition discriminate.
Qed.
Lemma smol_work o ps ok : out_writes (smol_writes o ps ok) = work up_work ps /\ out_reads (smol_writes o ps ok) = 0 /\ ~ In OConnect (smol_writes o ps ok).
Proof.
  unfold smol_writes. destruct (smol_write_all ps ok); induction ps as [|p ps (I1 & I2 & I3)]; auto; unfold out_writes, out_reads in *; rewrite work_cons; cbn [map list_sum fold_right In]; unfold list_sum in *; rewrite I1, I2; intuition discriminate.
Qed.
Lemma out_app l l' : out_writes (l ++ l') = out_writes l + out_writes l' /\ out_reads (l ++ l') = out_reads l + out_reads l'.
Proof. unfold out_writes, out_reads. now rewrite !map_app, !list_sum_app. Qed.

Definition reply_size (r : option packet) : nat := match r with Some p => up_work p | None => 0 end.
Lemma reply_work p st st' r b : handle_incoming_packet p st = (st', HOk (r, b)) -> reply_size r + 3 < 1 + down_work p /\ forall x, r <> Some (PPublish x).
Proof.
  destruct p; cbn [handle_incoming_packet]; try discriminate; unfold handle_incoming_publish, handle_incoming_puback, handle_incoming_pubrec, handle_incoming_pubrel, handle_incoming_pubcomp, handle_incoming_suback, handle_incoming_unsuback, mbind, ret, fail;
    intros H; repeat match type of H with context [match ?x with _ => _ end] => lazymatch x with context [match _ with _ => _ end] => fail | _ => destruct x; try discriminate H end end; injection H as <- <- <-; (split; [cbn; lia|discriminate]).
Qed.
Lemma reply_pc_work rt r t g n : pc_work g n (reply_pc rt r t) <= reply_size r + 2.
Proof. destruct rt, r as [p|]; cbn [reply_pc pc_work opt_list work map list_sum fold_right]; unfold list_sum; cbn; lia. Qed.

(* ---- every piece of work makes less of it ---- *)
Lemma deals_less w w' : deals w w' -> work up_work (ln_up w') + work down_work (ln_down w') < work up_work (ln_up w) + work down_work (ln_down w).
Proof.
  destruct 1 as [p k us u1 u2 d v H|p us u1 u2 d v H]; lcbn; rewrite work_mid, ?work_app, ?work_cons; cbn [work map list_sum fold_right].
  - assert (down_work k < up_work p) by (destruct p, k; try discriminate H; cbn; lia). unfold list_sum in *. cbn. lia.
  - destruct p; cbn [up_work]; lia.
Qed.
Lemma quiet_kept c l g : Forall (fun o => quiet o = true) l -> kept_work (fold_left (ledger_step (cleans c)) l g) = kept_work g.
Proof.
  revert g. induction l as [|o l IH]; intros g H; [reflexivity|]. inversion H; subst. cbn [fold_left]. rewrite IH by assumption.
  destruct (quiet_ledger (cleans c) g o H2) as (_ & L2 & L3 & _). unfold kept_work. now rewrite L2, L3.
Qed.
Lemma ledger_next c s l st wt ch n q t : ledger_at c (next s l st wt ch n q t) = fold_left (ledger_step (cleans c)) l (ledger_at c s).
Proof. unfold ledger_at, ledger_of. now rewrite next_trace, fold_left_app. Qed.
Lemma pick_work {A} i (l : list A) x r : pick i l = Some (x, r) -> Permutation l (x :: r).
Proof. apply pick_perm. Qed.
Lemma resend_work g ps : (exists rel, ps = lg_expect g ++ map (fun i => PPubRel (Ack i RSuccess no_props)) rel /\ Permutation rel (lg_expect_rel g) /\ sorted rel) ->
  work up_work ps <= 12 * length (lg_expect g) + 6 * length (lg_expect_rel g).
Proof.
  intros (rel & -> & HP & _). rewrite work_app. apply Permutation_length in HP. rewrite <- HP. clear HP.
  assert (work up_work (lg_expect g) <= 12 * length (lg_expect g)) as H1. { induction (lg_expect g) as [|p l IH]; [cbn; lia|]. rewrite work_cons. cbn [length]. destruct p; cbn [up_work]; lia. }
  assert (work up_work (map (fun i => PPubRel (Ack i RSuccess no_props)) rel) <= 6 * length rel) as H2. { induction rel as [|p l IH]; [cbn; lia|]. cbn [map length]. rewrite work_cons. cbn [up_work]. lia. }
  lia.
Qed.
Lemma expect_kept clean g p a : p = PConnAck a -> ca_rc a = RSuccess ->
  let g' := ledger_step clean g (OAnswer p) in 12 * length (lg_expect g') + 6 * length (lg_expect_rel g') <= kept_work g.
Proof.
  intros -> E. destruct g as [op se re lo cl ex er]. cbn [ledger_step]. rewrite E. unfold kept_work. destruct (_ && _); cbn [lg_expect lg_expect_rel lg_sent lg_rel length]; [|lia].
  rewrite map_length. assert (length (filter is_pub se) <= length se) by (clear; induction se as [|x l IH]; cbn; [lia|destruct (is_pub x); cbn; lia]). lia.
Qed.
Lemma connect_work o : up_work (create_connect o) = 6. Proof. reflexivity. Qed.
Lemma end_off rt n : nt_connected (end_net rt n) = false.
Proof. now destruct rt. Qed.
Lemma pc_ledger g g' n q : lg_sent g = lg_sent g' -> lg_rel g = lg_rel g' -> pc_work g n q = pc_work g' n q.
Proof. intros H1 H2. unfold pc_work, kept_work. now rewrite H1, H2. Qed.
Lemma handle_same clean g p : ledger_step clean g (OHandle p) = g.
Proof. now destruct g. Qed.
Lemma client_less c s e s' l w w' : config_ok c -> reachable c s -> effort s e -> step c e s = Some s' -> trace s' = trace s ++ l -> notices l w w' -> remaining c s' w' < remaining c s w.
Proof.
  intros HC HR HE HS HT HN. assert (reachable c s') as HR' by (eapply reachable_step; eassumption). pose proof (v_expects _ _ (inv_reachable _ _ HC HR')) as HX.
  destruct (step_tcase _ _ _ _ HR HS) as (m & st & wt & ch & n & q & t & HTC & ->). rewrite next_trace in HT. apply app_inv_head in HT. subst m.
  pose proof (notices_work _ _ _ HN) as HW. clear HN HS. unfold remaining. rewrite ledger_next in *. cbn [next y_chan y_wait y_pc y_net] in *.
  generalize dependent (ledger_at c s). intros g HX.
  pose proof (fun r => reply_pc_work (cf_rt c) r (y_now s)) as RP.
  destruct HTC; cbn [effort] in HE; try contradiction HE; try (match goal with H : y_pc s = _ |- _ => rewrite H end).
  all: try (match type of HW with context [tokio_writes ?o ?ps ?oks] => destruct (tokio_work o ps oks) as (T1 & T2 & T3) end).
  all: try (match type of HW with context [smol_writes ?o ?ps ?oks] => destruct (smol_work o ps oks) as (T1 & T2 & T3) end).
  all: try (match type of HW with context [?a ++ ?b] => rewrite (proj1 (out_app a b)), (proj2 (out_app a b)) in HW; rewrite T1, T2 in HW; specialize (HW ltac:(intros X; apply in_app_iff in X as [X|[X|[]]]; [contradiction|discriminate X])) end).
  all: try (specialize (HW ltac:(intros X; repeat (destruct X as [X|X]; [discriminate X|]); contradiction))).
  all: try (rewrite T1, T2 in HW).
  all: unfold out_writes, out_reads, list_sum in HW; cbn [map fold_right] in HW; rewrite ?connect_work in HW; cbn [up_work down_work] in HW.
  all: rewrite ?end_off; cbn [pc_work set_connected nt_connected]; rewrite ?work_app, ?work_cons, ?HE.
  all: try (match goal with |- context [if nt_connected ?n then 2 else 0] => assert ((if nt_connected n then 2 else 0) <= 2) by (destruct (nt_connected n); lia) end).
  all: try (match goal with H : y_chan _ = _ |- _ => rewrite H; rewrite ?work_cons end).
  all: try (match type of HW with context [up_work ?p] => assert (6 <= up_work p <= 12) by (destruct p; cbn [up_work]; lia) end).
  all: try (match type of HW with context [down_work ?p] => assert (5 <= down_work p) by (destruct p; cbn [down_work]; lia) end).
  all: try (match goal with H : handle_incoming_packet _ _ = _ |- _ => destruct (reply_work _ _ _ _ _ H) as [RW1 RW2] end).
  all: try (unfold list_sum; cbn [map fold_right up_work down_work]; lia).
  - apply pick_perm in H. rewrite (work_perm _ _ _ H), work_cons. rewrite (pc_ledger (fold_left (ledger_step (cleans c)) [OAccept p] g) g) by now destruct g. cbn [work map list_sum fold_right]. unfold list_sum. cbn. lia.
  - congruence.
  - destruct g. cbn [fold_left ledger_step]. lia.
  - destruct re as [ps|]; [|lia]. cbn [expects] in HX. cbn [fold_left] in HX. apply resend_work in HX. pose proof (expect_kept (cleans c) g _ a eq_refl H0) as HK. cbn zeta in HK.
    rewrite handle_same in HX. lia.
  - destruct p; try discriminate H0; injection H0 as <-; lia.
  - destruct reply as [r|]; [|lia]. cbn [reply_size] in RW1. lia.
  - specialize (RP reply (fold_left (ledger_step (cleans c)) [ORead p] g) (nt_connected (y_net s))). lia.
  - specialize (RP None (fold_left (ledger_step (cleans c)) [OHandled] g) (nt_connected (set_await None (y_net s)))). cbn [reply_size] in RP. lia.
  - specialize (RP r (fold_left (ledger_step (cleans c)) [OHandled] g) (nt_connected (y_net s))). destruct r; cbn [reply_size] in RP; lia.
  - change (up_work bye) with 6 in HW. lia.
  - change (up_work bye) with 6 in HW. lia.
Qed.
Lemma toil_less c s w s' w' : config_ok c -> reachable c s -> toil c s w s' w' -> remaining c s' w' < remaining c s w.
Proof.
  intros HC HR [e s1 l w1 H1 H2 H3 H4|w1 H]; [eapply client_less; eassumption|]. apply deals_less in H. unfold remaining. lia.
Qed.
Lemma toil_reachable c s w s' w' : reachable c s -> toil c s w s' w' -> reachable c s'.
Proof. intros HR [e s1 l w1 H1 H2 H3 H4|w1 H]; [eapply reachable_step; eassumption|exact HR]. Qed.
Theorem toils_bounded c s w : config_ok c -> reachable c s -> exists n, forall k s' w', toils c k s w s' w' -> k <= n.
Proof.
  intros HC HR. exists (remaining c s w). intros k s' w' HT. revert HR. induction HT as [|n s w s1 w1 s' w' H1 HT IH]; intros HR; [lia|].
  pose proof (toil_less _ _ _ _ _ HC HR H1). specialize (IH (toil_reachable _ _ _ _ _ HR H1)). lia.
Qed.

(* ---- when there is none left ---- *)
Definition resting (s : sys) (w : line) : Prop :=
  y_pc s = PIdle /\ nt_connected (y_net s) = false \/ y_pc s = PCrash \/
  ln_up w = [] /\ ln_down w = [] /\ (y_pc s = PConnRead \/ (exists t, y_pc s = PSelect t) /\ y_wait s = [] /\ y_chan s = [] /\ pl_open (st_pool (y_state s)) = true).
Definition free_out (o : out) : Prop := match o with OConnect | OAnswer _ | ORead _ => False | _ => True end.
Lemma can_notice l w : Forall free_out l -> exists w', notices l w w'.
Proof.
  intros H. revert w. induction H as [|o l HO HL IH]; intros w; [eexists; constructor|].
  assert (exists w1, noticed o w w1) as [w1 H1].
  { destruct w as [us u d v]. destruct o; try contradiction HO; try (eexists; apply (no_fail _ _ true true)); try (eexists; now constructor).
    destruct r; eexists; [apply no_other; exact I|constructor]. }
  destruct (IH w1) as [w2 H2]. exists w2. econstructor; eassumption.
Qed.
Lemma tokio_free o ps oks : Forall free_out (tokio_writes o ps oks).
Proof. revert oks. induction ps as [|p ps IH]; intros oks; [destruct oks; constructor|]. destruct oks; cbn [tokio_writes]; destruct (write_result _ _ _); constructor; cbn; auto. Qed.
Lemma smol_free o ps ok : Forall free_out (smol_writes o ps ok).
Proof. unfold smol_writes. apply Forall_forall. intros x H. apply in_map_iff in H as (y & <- & _). destruct (smol_write_all ps ok); exact I. Qed.
(* an event that does not read can be noticed *)
Lemma can_do c s w e s' : reachable c s -> effort s e -> step c e s = Some s' -> match e with EPacket p => exists d, ln_down w = p :: d | _ => True end -> exists s1 w1, toil c s w s1 w1.
Proof.
  intros HR HE HS HD. destruct (step_tcase _ _ _ _ HR HS) as (l & st & wt & ch & n & q & t & HTC & ->).
  assert (exists w1, notices l w w1) as [w1 HN]; [|eexists; exists w1; eapply to_client; [exact HE|exact HS|apply next_trace|exact HN]].
  clear HS. destruct w as [us u d v]. lcbn.
  destruct HTC; cbn [effort] in HE; try contradiction HE.
  all: try (solve [apply can_notice; repeat constructor]).
  all: try (apply can_notice; apply Forall_app; split; [first [apply tokio_free|apply smol_free]|repeat constructor]).
  all: try (apply can_notice; apply smol_free).
  all: destruct HD as [d' ->].
  all: match goal with |- exists w1, notices (?o :: ?l) ?w w1 => let X := fresh in destruct (can_notice l (Line us u d' v)) as [w1 X]; [repeat constructor|exists w1; econstructor; [constructor|exact X]] end.
Qed.

Lemma can_serve c s w : ln_up w <> [] -> exists s' w', toil c s w s' w'.
Proof.
  destruct w as [us u d v]. lcbn. intros HN. destruct u as [|p u]; [congruence|].
  destruct (unanswerable p) eqn:EU; [eexists; exists (Line us u d v); apply to_broker; exact (de_none p us [] u d v EU)|].
  assert (exists k, answer_to p k = true) as [k HK].
  { destruct p; try discriminate EU; cbn in EU.
    - exists (PConnAck (ConnAck false RSuccess no_props)). reflexivity.
    - destruct (pb_qos p) eqn:EQ, (pb_pkid p) as [i|] eqn:EP; try discriminate EU.
      + exists (PPubAck (Ack i RSuccess no_props)). cbn. rewrite EQ, EP. apply N.eqb_refl.
      + exists (PPubRec (Ack i RSuccess no_props)). cbn. rewrite EQ, EP. apply N.eqb_refl.
    - exists (PPubComp (Ack (ak_id a) RSuccess no_props)). apply N.eqb_refl.
    - exists (PSubAck (SubAck (sb_id s0) no_props [])). apply N.eqb_refl.
    - exists (PUnsubAck (SubAck (ub_id u0) no_props [])). apply N.eqb_refl.
    - exists PPingResp. reflexivity. }
  eexists. exists (Line us u (d ++ [k]) v). apply to_broker. exact (de_answer p k us [] u d v HK).
Qed.
Lemma busy_or_rest c s w : reachable c s -> (exists s' w', toil c s w s' w') \/ resting s w.
Proof.
  intros HR. assert (forall e s', effort s e -> step c e s = Some s' -> match e with EPacket _ => False | _ => True end -> exists s1 w1, toil c s w s1 w1) as HD.
  { intros e s' H1 H2 H3. apply (can_do c s w e s'); auto. now destruct e. }
  unfold resting. destruct w as [us u d v]. lcbn. destruct u as [|p u].
  2: { left. apply can_serve. discriminate. }
  destruct (y_pc s) eqn:EP.
  - destruct (nt_connected (y_net s)) eqn:EN; [|auto]. left. eapply (HD ERun); [exact EN|cbn [step]; rewrite EP; reflexivity|exact I].
  - left. eapply (HD (EWrite true)); [exact I|cbn [step]; rewrite EP; reflexivity|exact I].
  - destruct d as [|p d]; [right; right; right; auto|]. left. eapply (can_do c s _ (EPacket p)); [exact HR|exact I|cbn [step]; rewrite EP; reflexivity|eexists; reflexivity].
  - left. eapply (HD EHandled); [exact I|cbn [step]; rewrite EP; reflexivity|exact I].
  - left. eapply (HD (EWrites [] true)); [exact I|cbn [step]; rewrite EP; reflexivity|exact I].
  - destruct d as [|p d]; [|left; eapply (can_do c s _ (EPacket p)); [exact HR|exact I|cbn [step]; rewrite EP; reflexivity|eexists; reflexivity]].
    destruct (y_chan s) as [|x ch] eqn:EC.
    + destruct (y_wait s) as [|x wt] eqn:EW.
      * destruct (pl_open (st_pool (y_state s))) eqn:EO; [right; right; right; split; [reflexivity|split; [reflexivity|right; eauto 8]]|]. left. eapply (HD EOutgoing); [exact I|cbn [step]; rewrite EP; unfold outgoing; rewrite EC, EO; reflexivity|exact I].
      * left. eapply (HD (ESend 0)); [exact I|cbn [step]; unfold send_call; rewrite EW; cbn [pick]; rewrite EC; reflexivity|exact I].
    + left. eapply (HD EOutgoing); [exact I|cbn [step]; rewrite EP; unfold outgoing; rewrite EC; reflexivity|exact I].
  - left. eapply (HD EHandled); [exact I|cbn [step]; rewrite EP; reflexivity|exact I].
  - left. eapply (HD (EWrite true)); [exact I|cbn [step]; rewrite EP; reflexivity|exact I].
  - left. eapply (HD (EWrite true)); [exact I|cbn [step]; rewrite EP; reflexivity|exact I].
  - left. eapply (HD (EWrite true)); [exact I|cbn [step]; rewrite EP; reflexivity|exact I].
  - left. eapply (HD (EWrite true)); [exact I|cbn [step]; rewrite EP; reflexivity|exact I].
  - left. eapply (HD (EWrite true)); [exact I|cbn [step]; rewrite EP; reflexivity|exact I].
  - auto.
Qed.
