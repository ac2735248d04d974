(* Proofs of C59 *)
From Coq Require Import Permutation.
From Verif Require Import Base VarInt Prims Props Codes Packets BaseFacts SpecCodec SpecOptions Options Session Client System SpecSession SpecNet SpecTrace SpecOut
  Witness Check EncFacts StrictMore InjFacts FrameFacts CodecFacts CodecMore LimitMore OptionsMore SessionFacts SystemFacts Cases IdFacts IdMore NetFacts NetMore TraceFacts LoopMore OutFacts OutMore.

Lemma req_ids_len l : Forall identified l -> len (req_ids l) = len l.
Proof.
  induction 1 as [|p l HP HL IH]; [reflexivity|]. change (req_ids (p :: l)) with (opt_list (req_id p) ++ req_ids l). unfold identified in HP. destruct (req_id p); [|congruence].
  cbn. unfold len in *. cbn [length]. lia.
Qed.
Lemma filter_len {A} f (l : list A) : len (filter f l) <= len l.
Proof. unfold len. enough (length (filter f l) <= length l)%nat by lia. induction l as [|x l IH]; cbn; [lia|]. destruct (f x); cbn; lia. Qed.
Lemma quota_kept c s a : config_ok c -> reachable c s -> announced (trace s) = Some a -> send_max (cf_opts c) <= quota a -> unfinished (now_ledger c s) <= quota a.
Proof.
  intros HC HR _ HQ. pose proof (ids_bound c s HC HR) as HB. pose proof (i_sent _ _ _ _ _ (v_inv _ _ (inv_reachable _ _ HC HR))) as HS.
  change (ledger_at c s) with (now_ledger c s) in HS. unfold in_flight in HB. rewrite !len_app2 in HB. rewrite (req_ids_len _ HS) in HB.
  unfold unfinished. pose proof (filter_len is_pub (lg_sent (now_ledger c s))). lia.
Qed.

(* ---- sizes ---------------------------------------------------------------------------------- *)
Definition small (c : config) (p : packet) : Prop :=
  match p with PPublish _ | PSubscribe _ | PUnsubscribe _ => body_len p <= max_packet (cf_opts c) | _ => True end.
Definition small_out (c : config) (o : out) : Prop := match o with OWrite _ p | OWriteFail _ p => small c p | _ => True end.
Lemma small_call c k pl pool' p : client_call (max_packet (cf_opts c)) k pl = Some (pool', inr p) -> small c p.
Proof.
  intros H. assert (exists i, p = build k i /\ validate (max_packet (cf_opts c)) p = None) as (i & -> & HV).
  { unfold client_call in H. destruct (needs_id k); [destruct (pl_ids pl); [discriminate H|]|]; destruct (validate _ _) eqn:E; try discriminate H; injection H as <- <-; eauto. }
  destruct k; cbn [build validate small] in *; try exact I.
  - exact (valid_len _ (RqPublish _) HV).
  - exact (valid_len _ (RqSubscribe _) HV).
  - exact (valid_len _ (RqUnsubscribe _) HV).
Qed.
Lemma small_dup c p : small c p -> small c (dup p).
Proof. destruct p; exact (fun H => H). Qed.
Record small_led (c : config) (g : ledger) : Prop := { sl_sent : Forall (small c) (lg_sent g); sl_expect : Forall (small c) (lg_expect g) }.
Lemma small_step c g o : small_led c g -> small_out c o -> small_led c (ledger_step (cleans c) g o).
Proof.
  intros [A B] HW. destruct g as [op se re lo cl ex er]. cbn [lg_sent lg_expect] in *.
  destruct o as [p|p|p e|p| | |r| |r|p|p|p| |x p|x p|]; try (constructor; assumption); cbn [ledger_step].
  - destruct (is_some (req_id p)); constructor; assumption.
  - destruct p as [c0|a|x|a|a|a|a|s|s|u|u| | |d|d]; try (constructor; assumption). destruct (ca_rc a); try (constructor; assumption).
    destruct (ca_session_present a && negb (cleans c)); constructor; cbn [lg_sent lg_expect]; auto using Forall_filter.
    apply Forall_forall. intros q Hq. apply in_map_iff in Hq as (p & <- & Hp). apply filter_In in Hp as [Hp EP]. rewrite Forall_forall in A. apply small_dup. auto.
  - destruct p as [c0|a|x|a|a|a|a|s|s|u|u| | |d|d]; constructor; cbn [lg_sent lg_expect]; auto using Forall_filter.
  - destruct x; try (constructor; assumption). constructor; cbn [lg_sent lg_expect]; auto. destruct (is_some (req_id p)); [|exact A]. apply Forall_app. auto.
  - destruct x; constructor; assumption.
Qed.
Lemma small_of c l : Forall (small_out c) l -> small_led c (ledger_of (cleans c) l).
Proof.
  unfold ledger_of. induction l as [|o l IH] using rev_ind; intros H; [repeat constructor|]. apply Forall_app in H as [H1 H2]. rewrite fold_left_app. cbn [fold_left].
  apply small_step; [auto|exact (Forall_inv H2)].
Qed.
Definition reply_only (p : packet) : bool := match p with PPubAck _ | PPubRec _ | PPubRel _ | PPubComp _ => true | _ => false end.
Lemma small_bare_reply c p : reply_only p = true -> small c p.
Proof. now destruct p. Qed.
Lemma smol_writes_all (P : packet -> Prop) c o ps ok : (forall p, P p -> small c p) -> Forall P ps -> Forall (small_out c) (smol_writes o ps ok).
Proof.
  intros H HP. apply Forall_forall. intros x Hx. apply smol_writes_origin in Hx as (p & Hp & [-> | ->]); rewrite Forall_forall in HP; cbn; auto.
Qed.
Lemma tokio_writes_all (P : packet -> Prop) c o ps oks : (forall p, P p -> small c p) -> Forall P ps -> Forall (small_out c) (tokio_writes o ps oks).
Proof.
  intros H HP. apply Forall_forall. intros x Hx. apply tokio_writes_origin in Hx as (p & Hp & [-> | ->]); rewrite Forall_forall in HP; cbn; auto.
Qed.
Definition pc_reply (q : pc) : Prop :=
  match q with
  | PHandle (AfterPacket r) => Forall (fun p => reply_only p = true) (opt_list r)
  | PReply p => reply_only p = true
  | PFlush ps => Forall (fun p => reply_only p = true) ps
  | _ => True
  end.
Lemma reply_only_handle p st st' r b : handle_incoming_packet p st = (st', HOk (Some r, b)) -> reply_only r = true.
Proof.
  intros H. destruct p as [c|a|x|a|a|a|a|s|s|u|u| | |d|d]; cbn [handle_incoming_packet] in H; try discriminate H.
  - unfold handle_incoming_publish in H. destruct (pb_qos x); [discriminate H| |]; (destruct (pb_pkid x) as [i|]; [|discriminate H]).
    + injection H as <- <- <-. reflexivity.
    + unfold mbind, add_incoming_pub, ret in H. destruct (set_insert i (st_in st)) as [l' fr]. injection H as <- <- <-. reflexivity.
  - unfold handle_incoming_puback, mbind in H. destruct (remove_outgoing_pub _ _) as [s1 [[old|]|e|]]; cbn [is_some] in H; try discriminate H.
    destruct (make_pkid_available _ _) as [s2 [[]|e|]]; discriminate H.
  - unfold handle_incoming_pubrec, mbind in H. destruct (remove_outgoing_pub (ak_id a) st) as [s1 [[old|]|e|]] eqn:ER; try discriminate H.
    assert (Some (PPubRel (plain_ack (ak_id a))) = Some r) as ER2.
    { unfold add_outgoing_rel, ret in H. destruct (ak_rc a); try discriminate H; destruct (set_insert _ _) as [l' fr]; injection H; intros; now subst. }
    injection ER2 as <-. reflexivity.
  - unfold handle_incoming_pubrel, mbind, remove_incoming_pub, ret in H. destruct (set_remove _ _) as [l' fr]. injection H as <- <- <-. reflexivity.
  - unfold handle_incoming_pubcomp, mbind in H. destruct (remove_outgoing_rel _ _) as [s1 [[|]|e|]]; try discriminate H. destruct (make_pkid_available _ _) as [s2 [[]|e|]]; discriminate H.
  - unfold handle_incoming_suback, mbind in H. destruct (remove_outgoing_sub _ _) as [s1 [[|]|e|]]; try discriminate H. destruct (make_pkid_available _ _) as [s2 [[]|e|]]; discriminate H.
  - unfold handle_incoming_unsuback, mbind in H. destruct (remove_outgoing_unsub _ _) as [s1 [[|]|e|]]; try discriminate H. destruct (make_pkid_available _ _) as [s2 [[]|e|]]; discriminate H.
Qed.
Lemma pc_reply_all c s : reachable c s -> pc_reply (y_pc s).
Proof.
  revert s. apply reachable_ind2; [exact I|]. intros s e s' HR IH HS. destruct (step_tcase _ _ _ _ HR HS) as (l & st & w & ch & n & q & t & HT & ->). cbn [y_pc next].
  assert (forall rt r t, Forall (fun p => reply_only p = true) (opt_list r) -> pc_reply (reply_pc rt r t)) as HP.
  { intros rt r t0 H. destruct rt, r; cbn in *; auto. exact (Forall_inv H). }
  inversion HT; subst; try exact I; try exact IH.
  - match goal with H : loop_packet ?p = Some ?a |- _ => destruct p; try discriminate H; injection H as <-; exact I end.
  - destruct reply as [r|]; [|constructor]. constructor; [eapply reply_only_handle; eassumption|constructor].
  - apply HP. destruct reply as [r|]; [|constructor]. constructor; [eapply reply_only_handle; eassumption|constructor].
  - destruct (cf_rt c); exact I.
  - apply HP. constructor.
  - apply HP. match goal with H : y_pc s = _ |- _ => rewrite H in IH end. exact IH.
Qed.
Lemma small_all c s : config_ok c -> reachable c s -> Forall (small c) (pending s) /\ Forall (small_out c) (trace s).
Proof.
  intros HC. revert s. apply sys_ind; [exact HC|split; constructor|].
  intros s e l st w ch n q t HR HI [A B] HT _. rewrite next_trace, Forall_app. unfold pending in *. cbn [y_wait y_chan y_pc next].
  apply Forall_app in A as [AW A]. apply Forall_app in A as [AC AH]. pose proof (pc_reply_all _ _ HR) as HPB.
  assert (forall ps, y_pc s = PConnResend ps -> Forall (small c) ps) as HRS.
  { intros ps E. pose proof (v_expects _ _ HI) as HE. rewrite E in HE. cbn [expects] in HE. destruct HE as (rel & -> & _). apply Forall_app. split.
    - exact (sl_expect _ _ (small_of c _ B)).
    - apply Forall_forall. intros p Hp. apply in_map_iff in Hp as (i & <- & _). exact I. }
  inversion HT; subst; try match goal with H : y_pc s = _ |- _ => rewrite H in *; try specialize (HRS _ eq_refl) end; cbn [held pc_reply] in *;
    (split; [rewrite ?app_nil_r, ?Forall_app; repeat apply conj; auto|split; [exact B|]]); try solve [repeat (apply Forall_cons; [exact I|]); apply Forall_nil].
  all: try match goal with |- Forall _ (held (reply_pc ?rt ?r _)) => destruct rt, r; apply Forall_nil end.
  all: try match goal with |- context [match cf_rt ?k with Tokio => _ | Smol => _ end] => destruct (cf_rt k); apply Forall_nil end.
  all: try match goal with H : pick _ _ = Some _ |- _ => destruct (pick_all _ _ _ _ _ H AW) as [P1 P2]; first [exact P2|apply Forall_cons; [exact P1|apply Forall_nil]] end.
  all: try match goal with H : y_chan _ = ?p :: ?r |- _ => rewrite H in AC; first [exact (Forall_inv_tail AC)|apply Forall_cons; [exact (Forall_inv AC)|apply Forall_nil]] end.
  all: try solve [apply Forall_app; split; [first [eapply tokio_writes_all; [|exact HRS]; auto|eapply smol_writes_all; [|exact HRS]; auto|eapply smol_writes_all; [|exact HPB]; auto using small_bare_reply]|repeat (apply Forall_cons; [exact I|]); apply Forall_nil]].
  all: try solve [eapply smol_writes_all; [|exact HPB]; auto using small_bare_reply].
  all: try solve [apply Forall_cons; [first [exact (Forall_inv AH)|exact (small_bare_reply _ _ HPB)]|repeat (apply Forall_cons; [exact I|]); apply Forall_nil]].
  apply Forall_cons; [|apply Forall_nil]. eapply small_call; eassumption.
Qed.
Lemma plain_size rt a : plain a -> forall p, p = PPubAck a \/ p = PPubRec a \/ p = PPubRel a \/ p = PPubComp a -> len (wire_bytes rt p) <= 6.
Proof.
  destruct a as [i r ps]. intros [E1 E2] p H. cbn in E1, E2. subst r ps. destruct rt; destruct H as [->|[->|[->| ->]]]; vm_compute; discriminate.
Qed.
Lemma size_kept c es s x p : config_ok c -> built c -> Forall event_ok es -> exec c es (init c) = Some s -> In (OWrite x p) (trace s) ->
  x <> FromConnect -> (forall d, x = FromClient -> p <> PDisconnect d) -> len (wire_bytes (cf_rt c) p) <= N.max 6 (max_packet (cf_opts c) + 5).
Proof.
  intros HC HB HF HE HI HX HD. destruct (lawful_bytes c es s x p HC HB HF HE HI) as [HL _]. assert (reachable c s) as HR by (now exists es).
  destruct (written_all c s HC HR) as [_ HW]. destruct (small_all c s HC HR) as [_ HS]. rewrite Forall_forall in HW, HS. destruct (HW _ HI) as [HW1 _]. specialize (HS _ HI). cbn in HS.
  destruct (lawful_plain x p HL HX) as [N1 N2].
  assert (match p with PPublish _ | PSubscribe _ | PUnsubscribe _ => True | _ => False end -> len (wire_bytes (cf_rt c) p) <= max_packet (cf_opts c) + 5) as HReq.
  { intros HT. destruct HL as [HWf _]. destruct (announced_partial p HWf N1) as [A B]. pose proof (vlen_bound (body_len p)).
    assert (len (wire_bytes (cf_rt c) p) = packet_len p) as ->. { unfold wire_bytes. destruct (cf_rt c); cbn [ser_err] in HW1; [symmetry; apply (B N2 HW1)|symmetry; apply (A HW1)]. }
    destruct p; try contradiction; cbn [small] in HS; unfold packet_len; lia. }
  destruct HL as [_ HL]. destruct x, p; try contradiction; try congruence; try (specialize (HReq I); lia).
  - elim (HD d eq_refl eq_refl).
  - enough (len (wire_bytes (cf_rt c) (PPubAck a)) <= 6) by lia. apply (plain_size _ a); auto.
  - enough (len (wire_bytes (cf_rt c) (PPubRec a)) <= 6) by lia. apply (plain_size _ a); auto.
  - enough (len (wire_bytes (cf_rt c) (PPubRel a)) <= 6) by lia. apply (plain_size _ a); [apply HL|auto].
  - enough (len (wire_bytes (cf_rt c) (PPubComp a)) <= 6) by lia. apply (plain_size _ a); auto.
  - enough (len (wire_bytes (cf_rt c) (PPubRel a)) <= 6) by lia. apply (plain_size _ a); [apply HL|auto].
  - enough (len (wire_bytes (cf_rt c) PPingReq) <= 6) by lia. destruct (cf_rt c); vm_compute; discriminate.
  - destruct d as [r ps]. destruct HL as [E1 E2]. cbn in E1, E2. subst r ps.
    enough (len (wire_bytes (cf_rt c) bye) <= 6) by (unfold bye in *; lia). destruct (cf_rt c); vm_compute; discriminate.
Qed.
(* a configuration whose own limits are not above the broker's respects the broker's size limit *)
Lemma size_limit_kept c es s a x p : config_ok c -> built c -> Forall event_ok es -> exec c es (init c) = Some s -> In (OWrite x p) (trace s) ->
  x <> FromConnect -> (forall d, x = FromClient -> p <> PDisconnect d) -> size_limit a (N.max 6 (max_packet (cf_opts c) + 5)) -> size_limit a (len (wire_bytes (cf_rt c) p)).
Proof.
  intros HC HB HF HE HI HX HD HS. pose proof (size_kept c es s x p HC HB HF HE HI HX HD). unfold size_limit in *. destruct (maximum_packet_size (ca_props a)); [lia|exact I].
Qed.
