(* The facts behind P_Time.v. *)
From Verif Require Import Base VarInt Prims Props Codes Packets BaseFacts Options Session Client System SpecSession SpecNet SpecTrace SpecTime SessionFacts SystemFacts AckFacts IdFacts Cases TraceFacts LoopMore TimeFacts TimeMore.

(* --- C37, C40 --- *)
Lemma gap c D s e r : config_ok c -> punctual c D s e -> ck_zero (now_clock c s) = false -> ck_run (now_clock c s) = Some r ->
  y_now s <= since_of (cf_rt c) r (now_clock c s) + slack (cf_rt c) D + ck_own (now_clock c s) + 2 * D.
Proof.
  intros HC HP HZ HR. destruct (punctual_inv c D s e HC HP) as [_ HI]. specialize (HI HZ r HR). pose proof (time_inv c s HC (punctual_reachable _ _ _ _ HP)) as HT.
  assert (in_run (y_pc s) = true) as HN.
  { destruct (in_run (y_pc s)) eqn:EQ; [reflexivity|]. destruct (ti_idle _ _ _ _ _ HT EQ) as [X _]. congruence. }
  unfold pbound in HI. cbv zeta in HI. destruct (y_pc s) eqn:EP; try discriminate HN; try lia.
  pose proof (ti_rt _ _ _ _ _ HT) as X. cbn beta iota in X. rewrite X in *. unfold slack, since_of in *. lia.
Qed.

(* the broker counts on the interval the tokio client uses *)
Definition told (q : pc) : bool := match q with PConnRead | PConnHandle _ | PConnResend _ => true | _ => in_run q end.
Definition whole (x : N) : Prop := exists k, k < 65536 /\ x = from_secs k.
Definition same_keep (n : net) (q : pc) (k : clock) : Prop :=
  op_keep_alive (nt_opts n) = ck_own k /\ whole (ck_own k) /\ (nt_connected n = true \/ told q = true -> ck_promise k = ck_own k).
Lemma whole_told x : whole x -> from_secs (as_secs x mod 65536) = x.
Proof.
  intros (k & HK & ->). unfold as_secs, from_secs, second. rewrite N.div_mul by discriminate. now rewrite N.mod_small.
Qed.
Lemma promise_w w k : ck_promise (set_w w k) = ck_promise k /\ ck_own (set_w w k) = ck_own k.
Proof. split; reflexivity. Qed.
Lemma tokio_promise c s : config_ok c -> expressible c -> cf_rt c = Tokio -> reachable c s -> short_keep (trace s) ->
  same_keep (y_net s) (y_pc s) (now_clock c s).
Proof.
  intros HC HX HT. revert s. apply (sys_ind c (fun s => short_keep (trace s) -> same_keep (y_net s) (y_pc s) (now_clock c s)) HC).
  - intros _. split; [reflexivity|]. split; [exact HX|]. intros [X|X]; discriminate X.
  - intros s e l st w ch n q t HR HI IH HS _ HK. rewrite now_clock_next. cbn [next y_net y_pc]. rewrite next_trace in HK.
    assert (short_keep (trace s)) as HK0. { intros a k H. apply HK. apply in_or_app. now left. }
    specialize (IH HK0). assert (short_keep l) as HK1. { intros a k H. apply HK. apply in_or_app. now right. } clear HK HK0.
    set (k := now_clock c s) in *. clearbody k. destruct IH as (I1 & I2 & I3).
    destruct HS; unfold same_keep; rewrite ?map_app, ?fold_left_app.
    all: try (destruct (tokio_clock (y_now s) ps oks k) as (v & HW & EW); rewrite EW).
    all: try (destruct (smol_clock FromResend (y_now s) ps ok k (or_introl eq_refl)) as (v & HW & EW); rewrite EW).
    all: try (destruct (smol_clock FromReply (y_now s) ps ok k (or_intror eq_refl)) as (v & HW & EW); rewrite EW).
    all: try (match goal with E : y_pc _ = _ |- _ => rewrite E in * end).
    all: rewrite ?HT in *; try discriminate.
    all: cbn [map fold_left]; try (erewrite clock_refused by eassumption); unfold bye.
    all: try match goal with |- context [reply_pc _ ?r _] => destruct r end.
    all: cbn [clock_step reply_pc told in_run answered nt_opts nt_connected set_last set_await set_connected end_net set_buf set_w ck_promise ck_own] in *.
    all: try solve [repeat split; auto; intros; tauto].
    all: try match goal with E : ca_rc _ = RSuccess |- _ => rewrite E end.
    all: cbn [apply_connack nt_opts nt_connected set_last ck_promise ck_own].
    + unfold create_connect. cbn [ck_promise ck_own cn_keep_alive]. repeat split; auto. intros _. rewrite I1. now apply whole_told.
    + destruct (server_keep_alive (ca_props a)) as [m|] eqn:EK; cbn [with_keep_alive op_keep_alive]; repeat split; auto.
      exists m. split; [|reflexivity]. apply (HK1 a); [now left|exact EK].
    + destruct (server_keep_alive (ca_props a)) as [m|] eqn:EK; cbn [with_keep_alive op_keep_alive]; repeat split; auto.
      exists m. split; [|reflexivity]. apply (HK1 a); [now left|exact EK].
    + destruct (server_keep_alive (ca_props a)) as [m|] eqn:EK; cbn [with_keep_alive op_keep_alive]; repeat split; auto.
      exists m. split; [|reflexivity]. apply (HK1 a); [now left|exact EK].
Qed.

Lemma tokio_gap c D s e r : config_ok c -> expressible c -> cf_rt c = Tokio -> punctual c D s e -> short_keep (trace s) ->
  ck_zero (now_clock c s) = false -> ck_run (now_clock c s) = Some r ->
  y_now s <= N.max r (ck_write (now_clock c s)) + ck_promise (now_clock c s) + 2 * D.
Proof.
  intros HC HX HT HP HK HZ HR. pose proof (punctual_reachable _ _ _ _ HP) as HRe. pose proof (gap c D s e r HC HP HZ HR) as HG. rewrite HT in HG. cbn [since_of slack] in HG.
  destruct (tokio_promise c s HC HX HT HRe HK) as (_ & _ & E). rewrite E; [lia|]. right.
  pose proof (time_inv c s HC HRe) as HI. destruct (in_run (y_pc s)) eqn:EQ; [destruct (y_pc s); try reflexivity; discriminate EQ|].
  destruct (ti_idle _ _ _ _ _ HI EQ) as [X _]. congruence.
Qed.
Lemma smol_gap c D s e r : config_ok c -> cf_rt c = Smol -> punctual c D s e ->
  ck_zero (now_clock c s) = false -> ck_run (now_clock c s) = Some r ->
  y_now s <= N.max (N.max r (ck_write (now_clock c s))) (ck_read (now_clock c s)) + ck_own (now_clock c s) + 4 * D.
Proof. intros HC HT HP HZ HR. pose proof (gap c D s e r HC HP HZ HR) as HG. rewrite HT in HG. cbn [since_of slack] in HG. lia. Qed.

(* --- C38 --- *)
Definition qbound (D M : N) (q : pc) (now e : N) : Prop :=
  match q with
  | PSelect _ => e <= M + 2 * D /\ now <= N.max e M
  | PHandle _ | PRequest _ => e <= M /\ now <= e + D
  | PReply _ | PFlush _ => e <= M + D /\ now <= e + D
  | PPing | PBye => e <= M + 2 * D /\ now <= e + D
  | _ => True
  end.
Lemma ping_inv c D s e : config_ok c -> punctual c D s e ->
  e <= y_now s /\ forall p, ck_ping (now_clock c s) = Some p -> qbound D (p + ck_own (now_clock c s)) (y_pc s) (y_now s) e.
Proof.
  intros HC HP. induction HP as [|s e d HP IH HS HB|s e x s' HP IH HX HS|s e x s' HP IH HX HX2 HS HQ].
  - split; [cbn; lia|]. intros p E. discriminate E.
  - pose proof (punctual_reachable _ _ _ _ HP) as HR. destruct IH as [IH0 IH]. split; [cbn [set_now y_now]; lia|].
    change (now_clock c (set_now (y_now s + d) s)) with (now_clock c s). cbn [set_now y_net y_pc y_now]. intros p Ep. specialize (IH p Ep).
    pose proof (time_inv c s HC HR) as HI. assert (ck_zero (now_clock c s) = false) as HZ by (apply (ti_pz _ _ _ _ _ HI); congruence).
    destruct (N.eq_dec d 0) as [->|HD]; [rewrite N.add_0_r; exact IH|].
    unfold qbound in *.
    destruct (y_pc s) eqn:EP; auto; unfold selecting, busy in HS, HB; rewrite EP in HS, HB; try specialize (HB eq_refl); try lia.
    specialize (HS eq_refl (d - 1) ltac:(lia)). 
    assert (reachable c (set_now (y_now s + (d - 1)) s)) as HR2 by (apply (reachable_step c (ETick (d - 1)) s); [exact HR|reflexivity]).
    apply timer_none in HS; [|exact HC|exact HR2|unfold selecting; cbn; now rewrite EP|exact HZ].
    change (deadline c (set_now (y_now s + (d - 1)) s)) with (deadline c s) in HS. cbn [set_now y_now] in HS.
    destruct (deadline_last c s HC HR) as [_ HL]; [unfold selecting; now rewrite EP|exact HZ|]. specialize (HL p Ep). lia.
  - pose proof (punctual_reachable _ _ _ _ HP) as HR. destruct (step_tcase _ _ _ _ HR HS) as (l & st & w & ch & n & q & t & HT & ->).
    destruct (client_step _ _ _ _ _ _ _ _ _ _ HX HT) as (-> & -> & -> & EK). rewrite EK. cbn [next y_net y_pc y_now]. exact IH.
  - pose proof (punctual_reachable _ _ _ _ HP) as HR. destruct (step_tcase _ _ _ _ HR HS) as (l & st & w & ch & n & q & t & HT & ->).
    destruct IH as [IH0 IH]. split; [lia|]. rewrite now_clock_next. intros p0 Ep. cbn [next y_net y_pc y_now].
    assert (in_run q = true /\ ck_zero (now_clock c s) = false) as [HN HZ].
    { pose proof (time_inv c _ HC (reachable_step _ _ _ _ HR HS)) as HI. cbn [next y_net y_pc y_now] in HI. rewrite now_clock_next in HI. split.
      - destruct (in_run q) eqn:EQ; [reflexivity|]. destruct (ti_idle _ _ _ _ _ HI EQ) as (_ & X & _). congruence.
      - apply (zero_fold (map (pair (y_now s)) l)), (ti_pz _ _ _ _ _ HI). congruence. }
    pose proof (time_inv c s HC HR) as HI.
    assert (selecting s = true -> is_timer x = false -> forall p, ck_ping (now_clock c s) = Some p -> y_now s <= p + ck_own (now_clock c s)) as HQ2.
    { intros E1 E2 p1 E3. specialize (IH p1 E3). destruct (N.eq_dec D 0) as [->|HD].
      - unfold qbound in IH. unfold selecting in E1. destruct (y_pc s); try discriminate E1. lia.
      - specialize (HQ E1 HD E2). apply timer_none in HQ; auto. destruct (deadline_last c s HC HR E1 HZ) as [_ HL]. specialize (HL p1 E3). lia. }
    clear HQ. unfold selecting in HQ2. set (k := now_clock c s) in *. clearbody k.
    destruct HI as [T1 T2 T3 T4 T5 T6 T7 T8 T9 T10 T13 T14 T15 T11 T12].
    destruct HT; try discriminate HX; try discriminate HX2; try discriminate HN; clear HX HX2.
    all: try (match goal with E : y_pc _ = _ |- _ => rewrite E in T6, T7, T8, T9, T10, T13, T14, T11, T12, IH, HQ2 end).
    all: cbn [map fold_left in_run answered is_timer] in *.
    all: try match goal with |- context [reply_pc _ ?r _] => is_var r; destruct r end.
    all: destruct (cf_rt c) eqn:RT; cbn [reply_pc opt_list] in *; try discriminate T14.
    all: try (destruct (smol_clock FromReply (y_now s) ps ok k (or_intror eq_refl)) as (v & HW & EW); rewrite EW in * ).
    all: unfold qbound, set_w in *; cbn [clock_step ck_run ck_write ck_read ck_ping ck_promise ck_own ck_zero] in *.
    all: try discriminate Ep.
    all: try (injection Ep as <-; lia).
    all: try (assert (ck_ping k = Some p0) as Ep0 by (destruct p; congruence); clear Ep; rename Ep0 into Ep).
    all: try specialize (HQ2 eq_refl eq_refl p0 Ep); try specialize (IH p0 Ep).
    all: try lia.
Qed.
Lemma ping_bound c D s e p : config_ok c -> punctual c D s e -> ck_ping (now_clock c s) = Some p ->
  y_now s <= p + ck_own (now_clock c s) + 3 * D.
Proof.
  intros HC HP Ep. destruct (ping_inv c D s e HC HP) as [_ HI]. specialize (HI p Ep). pose proof (time_inv c s HC (punctual_reachable _ _ _ _ HP)) as HT.
  assert (in_run (y_pc s) = true) as HN.
  { destruct (in_run (y_pc s)) eqn:EQ; [reflexivity|]. destruct (ti_idle _ _ _ _ _ HT EQ) as (_ & X & _). congruence. }
  unfold qbound in HI. destruct (y_pc s); try discriminate HN; lia.
Qed.
Lemma fires c s p : config_ok c -> reachable c s -> selecting s = true -> ck_ping (now_clock c s) = Some p ->
  p + ck_own (now_clock c s) <= y_now s ->
  exists s1 s2, step c ETimer s = Some s1 /\ step c (EWrite true) s1 = Some s2 /\
    y_log s2 = y_log s ++ [(y_now s, OWrite FromTimer (PDisconnect (Disconnect RKeepAliveTimeout no_props))); (y_now s, ORunEnd (inl KeepAliveTimeout))].
Proof.
  intros HC HR HS Ep HN. pose proof (time_inv c s HC HR) as HI. assert (ck_zero (now_clock c s) = false) as HZ by (apply (ti_pz _ _ _ _ _ HI); congruence).
  destruct (deadline_last c s HC HR HS HZ) as [_ HL]. specialize (HL p Ep). unfold selecting in HS. unfold deadline in HL. cbn [step].
  destruct (y_pc s) eqn:EP; try discriminate HS. pose proof (ti_await _ _ _ _ _ HI eq_refl ltac:(discriminate)) as EA. rewrite Ep in EA.
  exists (set_pc PBye s). unfold timer, tokio_timer, smol_timer. rewrite EA.
  destruct (cf_rt c); [destruct (N.ltb_spec (y_now s) (tokio_deadline (y_net s)))|destruct (N.ltb_spec (y_now s) (smol_deadline since (y_net s)))]; try (exfalso; lia);
    eexists; (split; [reflexivity|]); (split; [reflexivity|]).
  - unfold bye_written. replace (write_result Tokio bye true) with (@None cerr) by (vm_compute; reflexivity). cbn. now rewrite <- app_assoc.
  - unfold bye_written. replace (write_result Smol bye true) with (@None cerr) by (vm_compute; reflexivity). cbn. now rewrite <- app_assoc.
Qed.

(* every write for a timer is the first observation of its step *)
Lemma timer_step c s e s' l1 t p o l2 : reachable c s -> step c e s = Some s' -> y_log s' = y_log s ++ l1 ++ (t, o) :: l2 -> attempt FromTimer p o ->
  l1 = [] /\ t = y_now s /\
  ((y_pc s = PPing /\ p = PPingReq /\ (o = OWrite FromTimer p -> l2 = [])) \/ (y_pc s = PBye /\ p = bye /\ (o = OWrite FromTimer p -> l2 = [(t, ORunEnd (inl KeepAliveTimeout))]))) /\
  (o = OWriteFail FromTimer p -> exists e, l2 = [(t, ORunEnd (inr e))]).
Proof.
  intros HR HS HL HA. destruct (step_tcase _ _ _ _ HR HS) as (l & st & w & ch & n & q & t' & HT & ->). cbn [next y_log] in HL. apply app_inv_head in HL.
  assert (forall org ps l0, (org = FromResend \/ org = FromReply) -> (forall x, In x ps -> exists p, attempt org p x) -> map (pair (y_now s)) (ps ++ l0) = l1 ++ (t, o) :: l2 -> (forall x, In x l0 -> (exists r, x = ORunEnd r) \/ (exists r, x = OConnectEnd r)) -> False) as HQ.
  { intros org ps l0 HO H1 H2 H3. assert (In (t, o) (map (pair (y_now s)) (ps ++ l0))) as H4 by (rewrite H2; apply in_or_app; right; now left).
    apply in_map_iff in H4 as (x & E & HI). injection E as _ ->. apply in_app_or in HI as [HI|HI].
    - destruct (H1 o HI) as (p' & [-> | ->]); destruct HA as [X|X]; destruct HO as [-> | ->]; discriminate X.
    - destruct (H3 o HI) as [(r & ->)|(r' & ->)]; destruct HA as [X|X]; discriminate X. }
  destruct HT; try (exfalso; eapply (HQ FromResend); [now left| |exact HL|]; [intros x Hx; first [apply tokio_writes_origin in Hx|apply smol_writes_origin in Hx]; destruct Hx as (y & _ & Hy); eauto|intros x [<-|[]]; eauto]; fail).
  all: try (exfalso; eapply (HQ FromReply); [now right| |exact HL|]; [intros x Hx; apply smol_writes_origin in Hx; destruct Hx as (y & _ & Hy); eauto|intros x [<-|[]]; eauto]; fail).
  all: try (exfalso; rewrite <- (app_nil_r (smol_writes FromReply ps ok)) in HL; eapply (HQ FromReply); [now right| |exact HL|intros x []]; intros x Hx; apply smol_writes_origin in Hx; destruct Hx as (y & _ & Hy); eauto; fail).
  all: cbn [map] in HL; try (destruct l1; discriminate HL).
  all: destruct l1 as [|x1 [|x2 [|x3 l1]]]; cbn [app] in HL; try discriminate HL.
  all: injection HL; intros; subst; try (destruct HA as [X|X]; discriminate X).
  all: destruct HA as [X|X]; try discriminate X; injection X as <-.
  all: split; [reflexivity|split; [reflexivity|split]]; try (intros X; discriminate X); try (intros _; eexists; reflexivity).
  all: first [left; split; [assumption|split; [reflexivity|]]|right; split; [assumption|split; [reflexivity|]]]; intros X; first [discriminate X|reflexivity].
Qed.
Lemma timer_at c s l1 t p o l2 : reachable c s -> y_log s = l1 ++ (t, o) :: l2 -> attempt FromTimer p o ->
  exists s1, reachable c s1 /\ y_log s1 = l1 /\ t = y_now s1 /\
  ((y_pc s1 = PPing /\ p = PPingReq) \/ (y_pc s1 = PBye /\ p = bye /\ (o = OWrite FromTimer p -> exists l3, l2 = (t, ORunEnd (inl KeepAliveTimeout)) :: l3))).
Proof.
  intros HR. revert s HR l1 t o l2.
  apply (reachable_ind2 c (fun s => forall l1 t o l2, y_log s = l1 ++ (t, o) :: l2 -> attempt FromTimer p o -> exists s1, reachable c s1 /\ y_log s1 = l1 /\ t = y_now s1 /\
    ((y_pc s1 = PPing /\ p = PPingReq) \/ (y_pc s1 = PBye /\ p = bye /\ (o = OWrite FromTimer p -> exists l3, l2 = (t, ORunEnd (inl KeepAliveTimeout)) :: l3))))).
  - intros l1 t o l2 H. destruct l1; discriminate H.
  - intros s e s' HR IH HS l1 t o l2 HL HA. destruct (step_tcase _ _ _ _ HR HS) as (l & st & w & ch & n & q & t' & HT & E).
    assert (exists k, y_log s' = y_log s ++ k) as [k EK] by (rewrite E; eexists; reflexivity). clear HT E.
    rewrite EK in HL. destruct (app_split _ _ _ _ _ HL) as [(j & E)|(j & E1 & E2)].
    + destruct (IH l1 t o j E HA) as (s1 & R1 & R2 & R3 & R4). exists s1. repeat split; auto. destruct R4 as [R4|(R4 & R5 & R6)]; [now left|right]. repeat split; auto.
      intros EO. destruct (R6 EO) as [l3 ->]. rewrite E in HL. rewrite <- app_assoc in HL. apply app_inv_head in HL. cbn in HL. injection HL as HL. eauto.
    + rewrite E2 in EK. destruct (timer_step _ _ _ _ _ _ _ _ _ HR HS EK HA) as (-> & -> & R & _). exists s. rewrite app_nil_r in E1. subst l1. repeat split; auto.
      destruct R as [(R1 & R2 & _)|(R1 & R2 & R3)]; [now left|right]. repeat split; auto. intros EO. rewrite (R3 EO). eauto.
Qed.
Lemma bye_only c s l1 t d o l2 : config_ok c -> cf_rt c = Tokio -> reachable c s -> y_log s = l1 ++ (t, o) :: l2 -> attempt FromTimer (PDisconnect d) o ->
  d = Disconnect RKeepAliveTimeout no_props /\
  (exists p, ck_ping (clock_of (op_keep_alive (cf_opts c)) l1) = Some p /\ p + ck_own (clock_of (op_keep_alive (cf_opts c)) l1) <= t) /\
  (o = OWrite FromTimer (PDisconnect d) -> exists l3, l2 = (t, ORunEnd (inl KeepAliveTimeout)) :: l3).
Proof.
  intros HC HT HR HL HA. destruct (timer_at c s l1 t _ o l2 HR HL HA) as (s1 & R1 & R2 & R3 & [(_ & X)|(R4 & R5 & R6)]); [discriminate X|].
  injection R5 as ->. split; [reflexivity|]. split; [|exact R6]. pose proof (time_inv c s1 HC R1) as HI. unfold now_clock in HI. rewrite R2 in HI. subst t.
  destruct (ti_bye _ _ _ _ _ HI R4) as [H|[X _]]; [exact H|congruence].
Qed.

(* --- C39 --- *)
Lemma timer_nonzero c s l1 t p o l2 : config_ok c -> reachable c s -> y_log s = l1 ++ (t, o) :: l2 -> attempt FromTimer p o ->
  cf_rt c = Tokio \/ p = PPingReq -> ck_own (clock_of (op_keep_alive (cf_opts c)) l1) <> 0.
Proof.
  intros HC HR HL HA HP E. destruct (timer_at c s l1 t _ o l2 HR HL HA) as (s1 & R1 & R2 & R3 & R4).
  pose proof (time_inv c s1 HC R1) as HI. unfold now_clock in HI. rewrite R2 in HI. set (k := clock_of _ l1) in *. clearbody k.
  assert (ck_zero k = true) as HZ by (apply (ti_zero _ _ _ _ _ HI); [right; left; destruct R4 as [[-> _]|[-> _]]; reflexivity|exact E]).
  destruct R4 as [(R4 & R5)|(R4 & R5 & _)].
  - destruct (ti_asked _ _ _ _ _ HI R4) as [X _]. congruence.
  - destruct HP as [HP| ->]; [|discriminate R5]. destruct (ti_bye _ _ _ _ _ HI R4) as [(q & X & _)|[X _]]; [|congruence].
    pose proof (ti_pz _ _ _ _ _ HI). rewrite X in *. rewrite HZ in H. discriminate H. congruence.
Qed.
