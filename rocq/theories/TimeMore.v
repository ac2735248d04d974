(* Punctual executions. *)
From Verif Require Import Base VarInt Prims Props Codes Packets BaseFacts Options Session Client System SpecSession SpecNet SpecTrace SpecTime SessionFacts SystemFacts AckFacts IdFacts Cases LoopMore TimeFacts.

Lemma punctual_reachable c D s e : punctual c D s e -> reachable c s.
Proof.
  induction 1 as [|s e d HP IH _ _|s e x s' HP IH _ HS|s e x s' HP IH _ _ HS _].
  - now exists [].
  - now apply (reachable_step c (ETick d) s).
  - eapply reachable_step; eassumption.
  - eapply reachable_step; eassumption.
Qed.

(* when the timer of the select in state s fires *)
Definition deadline (c : config) (s : sys) : N :=
  match cf_rt c, y_pc s with Smol, PSelect since => smol_deadline since (y_net s) | _, _ => tokio_deadline (y_net s) end.
Lemma timer_none c s : config_ok c -> reachable c s -> selecting s = true -> ck_zero (now_clock c s) = false ->
  step c ETimer s = None -> y_now s < deadline c s.
Proof.
  intros HC HR HS HZ. pose proof (time_inv c s HC HR) as HI. pose proof (ti_perform _ _ _ _ _ HI) as T5. rewrite HZ in T5. cbn in T5.
  unfold selecting in HS. unfold deadline. cbn [step]. destruct (y_pc s); try discriminate HS. unfold timer, tokio_timer, smol_timer.
  destruct (cf_rt c); (destruct (N.ltb_spec (y_now s) (match nt_await (y_net s) with Some _ => _ | None => _ end)) || idtac).
  - destruct (N.ltb_spec (y_now s) (tokio_deadline (y_net s))); [auto|]. rewrite T5. destruct (nt_await (y_net s)); discriminate.
  - destruct (N.ltb_spec (y_now s) (smol_deadline since (y_net s))); [auto|]. rewrite T5. destruct (nt_await (y_net s)); discriminate.
Qed.
Lemma deadline_last c s : config_ok c -> reachable c s -> selecting s = true -> ck_zero (now_clock c s) = false ->
  deadline c s <= nt_last (y_net s) + ck_own (now_clock c s) /\
  (forall p, ck_ping (now_clock c s) = Some p -> deadline c s = p + ck_own (now_clock c s)).
Proof.
  intros HC HR HS HZ. pose proof (time_inv c s HC HR) as HI. unfold selecting in HS. unfold deadline.
  destruct (y_pc s) eqn:EP; try discriminate HS. destruct HI as [_ _ _ T4 T5 _ _ _ T9 T10 _ _ _ _ _]. specialize (T9 eq_refl ltac:(discriminate)). specialize (T10 eq_refl).
  rewrite HZ in T5. cbn in T5. unfold own_of in T4. unfold tokio_deadline, smol_deadline. rewrite T5. cbn [negb].
  destruct (cf_rt c); rewrite <- T9, <- T4; destruct (nt_await (y_net s)); split; try lia; intros p E; try discriminate E; injection E as <-; reflexivity.
Qed.
Lemma zero_step k x : ck_zero (clock_step k x) = false -> ck_zero k = false.
Proof.
  destruct x as [t o]. destruct o; cbn; auto; try (destruct o; try destruct p; auto; fail).
  - destruct p; auto. destruct (ca_rc c); auto. cbn. intros H. now apply orb_false_iff in H as [H _].
Qed.
Lemma zero_fold l k : ck_zero (fold_left clock_step l k) = false -> ck_zero k = false.
Proof. revert k. induction l as [|x l IH]; intros k; cbn; [auto|]. intros H. eauto using zero_step. Qed.

(* from where the wait for a write is counted *)
Definition since_of (rt : runtime) (r : N) (k : clock) : N :=
  match rt with Tokio => N.max r (ck_write k) | Smol => N.max (N.max r (ck_write k)) (ck_read k) end.
Definition slack (rt : runtime) (D : N) : N := match rt with Tokio => 0 | Smol => D + D end.
Definition pbound (rt : runtime) (D K B R : N) (last : N) (q : pc) (now e : N) : Prop :=
  let M := B + slack rt D + K in
  last <= B + slack rt D /\
  match q with
  | PSelect _ => e <= M + D /\ now <= N.max e M
  | PHandle _ => e <= M /\ now <= e + D /\ (rt = Smol -> e <= R)
  | PFlush _ => e <= R + D /\ now <= e + D
  | PReply _ | PRequest _ | PPing | PBye => e <= M + D /\ now <= e + D
  | _ => True
  end.
Definition pinv (c : config) (D : N) (s : sys) (e : N) : Prop :=
  e <= y_now s /\ (ck_zero (now_clock c s) = false -> forall r, ck_run (now_clock c s) = Some r ->
    pbound (cf_rt c) D (ck_own (now_clock c s)) (since_of (cf_rt c) r (now_clock c s)) (ck_read (now_clock c s)) (nt_last (y_net s)) (y_pc s) (y_now s) e).

Lemma now_clock_next c s l st w ch n q t : now_clock c (next s l st w ch n q t) = fold_left clock_step (map (pair (y_now s)) l) (now_clock c s).
Proof. unfold now_clock. cbn [next y_log]. apply clock_app. Qed.
Lemma client_step c s x l st w ch n q t : by_clients x = true -> tcase c s x l st w ch n q t ->
  n = y_net s /\ q = y_pc s /\ t = y_now s /\ now_clock c (next s l st w ch n q t) = now_clock c s.
Proof. intros HB HT. rewrite now_clock_next. destruct HT; try discriminate HB; auto. Qed.

Lemma punctual_inv c D s e : config_ok c -> punctual c D s e -> pinv c D s e.
Proof.
  intros HC HP. induction HP as [|s e d HP IH HS HB|s e x s' HP IH HX HS|s e x s' HP IH HX HX2 HS HQ].
  - split; [cbn; lia|]. intros _ r E. discriminate E.
  - pose proof (punctual_reachable _ _ _ _ HP) as HR. destruct IH as [IH0 IH]. split; [cbn [set_now y_now]; lia|].
    change (now_clock c (set_now (y_now s + d) s)) with (now_clock c s). cbn [set_now y_net y_pc y_now]. intros HZ r Er. specialize (IH HZ r Er).
    destruct (N.eq_dec d 0) as [->|HD]; [rewrite N.add_0_r; exact IH|].
    unfold pbound in *. cbv zeta in *. destruct IH as [IH1 IH]. split; [exact IH1|].
    destruct (y_pc s) eqn:EP; auto; unfold selecting, busy in HS, HB; rewrite EP in HS, HB; try specialize (HB eq_refl); try solve [intuition lia].
    specialize (HS eq_refl (d - 1) ltac:(lia)). 
    assert (reachable c (set_now (y_now s + (d - 1)) s)) as HR2 by (apply (reachable_step c (ETick (d - 1)) s); [exact HR|reflexivity]).
    apply timer_none in HS; [|exact HC|exact HR2|unfold selecting; cbn; now rewrite EP|exact HZ].
    change (deadline c (set_now (y_now s + (d - 1)) s)) with (deadline c s) in HS. cbn [set_now y_now] in HS.
    destruct (deadline_last c s HC HR) as [HL _]; [unfold selecting; now rewrite EP|exact HZ|]. lia.
  - pose proof (punctual_reachable _ _ _ _ HP) as HR. destruct (step_tcase _ _ _ _ HR HS) as (l & st & w & ch & n & q & t & HT & ->).
    destruct (client_step _ _ _ _ _ _ _ _ _ _ HX HT) as (-> & -> & -> & EK). unfold pinv. rewrite EK. cbn [next y_net y_pc y_now]. exact IH.
  - pose proof (punctual_reachable _ _ _ _ HP) as HR. destruct (step_tcase _ _ _ _ HR HS) as (l & st & w & ch & n & q & t & HT & ->).
    destruct IH as [IH0 IH]. split; [lia|]. rewrite now_clock_next. intros HZ r Er. cbn [next y_net y_pc y_now].
    assert (in_run q = true) as HN.
    { destruct (in_run q) eqn:EQ; [reflexivity|]. pose proof (time_inv c _ HC (reachable_step _ _ _ _ HR HS)) as HI.
      cbn [next y_net y_pc y_now] in HI. rewrite now_clock_next in HI. destruct (ti_idle _ _ _ _ _ HI EQ) as [X _]. congruence. }
    pose proof (time_inv c s HC HR) as HI. pose proof (zero_fold _ _ HZ) as HZ0. specialize (IH HZ0).
    assert (selecting s = true -> is_timer x = false -> forall r0, ck_run (now_clock c s) = Some r0 -> y_now s <= since_of (cf_rt c) r0 (now_clock c s) + slack (cf_rt c) D + ck_own (now_clock c s)) as HQ2.
    { intros E1 E2 r0 E3. specialize (IH r0 E3). destruct (N.eq_dec D 0) as [->|HD].
      - unfold pbound in IH. cbv zeta in IH. unfold selecting in E1. destruct (y_pc s); try discriminate E1. lia.
      - specialize (HQ E1 HD E2). apply timer_none in HQ; auto. destruct (deadline_last c s HC HR E1 HZ0) as [HL _]. destruct IH as [IH _]. lia. }
    clear HQ. unfold selecting in HQ2. set (k := now_clock c s) in *. clearbody k.

    destruct HI as [T1 T2 T3 T4 T5 T6 T7 T8 T9 T10 T13 T14 T15 T11 T12].
    destruct HT; try discriminate HX; try discriminate HX2; try discriminate HN; clear HX HX2.
    all: try (match goal with E : y_pc _ = _ |- _ => rewrite E in T6, T7, T8, T9, T10, T13, T14, T11, T12, IH, HQ2 end).
    all: cbn [map fold_left in_run answered is_timer] in *.
    all: try match goal with |- context [reply_pc _ ?r _] => is_var r; destruct r end.
    all: destruct (cf_rt c) eqn:RT; cbn [reply_pc opt_list] in *; try discriminate T14.
    all: try (destruct (smol_clock FromReply (y_now s) ps ok k (or_intror eq_refl)) as (v & HW & EW); rewrite EW in *).
    all: unfold pbound, since_of, slack, set_last, set_await, set_connected, set_buf, set_w, end_net in *; cbv zeta in *; cbn [clock_step nt_last ck_run ck_write ck_read ck_ping ck_promise ck_own ck_zero] in *.
    all: try (destruct (T7 eq_refl) as (r0 & E0 & E1 & E2); assert (r0 = r) as -> by congruence; specialize (IH r E0)).
    all: try specialize (HQ2 eq_refl eq_refl r Er).
    all: try solve [intuition lia].
    all: try solve [split; [|split]; try (intros X; discriminate X); lia].
    all: injection Er as <-; split; [|split]; lia.
Qed.
