(* Lemmas about handlers. *)
From Verif Require Import Base BaseFacts VarInt Prims Props Codes Packets Options Session Client System SpecCodec SpecSession Utf8Facts SystemFacts Cases WireFacts Handlers.

Lemma hexec_app {A} (f : handler A) c xs ys h : hexec f c (xs ++ ys) h = match hexec f c xs h with Some h' => hexec f c ys h' | None => None end.
Proof. revert h. induction xs as [|x xs IH]; intros h; cbn; [reflexivity|]. destruct (hstep f c x h); [apply IH|reflexivity]. Qed.
Lemma henv_step {A} (f : handler A) c e h h' : henv f c e h = Some h' -> step c e (hs_sys h) = Some (hs_sys h') /\ e <> EHandled /\ (hs_dead h' = hs_dead h) /\ (hs_dead h = true -> of_client e = true).
Proof.
  unfold henv. intros H. destruct (hs_dead h && negb (of_client e)) eqn:ED; [discriminate H|].
  assert (hs_dead h = true -> of_client e = true) as HD by (intros X; rewrite X in ED; destruct (of_client e); [reflexivity|discriminate ED]).
  destruct e; try discriminate H; try (destruct (own _ _); [discriminate H|]);
    match type of H with option_map _ ?S = _ => destruct S eqn:ES; [|discriminate H] end; injection H as <-;
    (split; [reflexivity|split; [discriminate|split; [reflexivity|exact HD]]]).
Qed.
Lemma hcall_step {A} c (h h' : hsys A) : hcall c h = Some h' -> exists k, step c (ECall k) (hs_sys h) = Some (hs_sys h').
Proof.
  unfold hcall. intros H. destruct (hs_plan h) as [[[|k ks] e]|]; try discriminate H. destruct (hs_wait h); [discriminate H|]. destruct (hs_dead h); [discriminate H|].
  destruct (step c (ECall k) (hs_sys h)) eqn:E; [|discriminate H]. exists k. rewrite E. destruct (len _ =? len _); injection H as <-; reflexivity.
Qed.
Lemma hreturn_step {A} c (h h' : hsys A) : hreturn c h = Some h' -> hs_sys h' = hs_sys h \/ step c EHandled (hs_sys h) = Some (hs_sys h').
Proof.
  unfold hreturn. intros H. destruct (hs_plan h) as [[[|k ks] [m|]]|]; try discriminate H; (destruct (hs_wait h); [discriminate H|]); (destruct (hs_dead h); [discriminate H|]).
  - right. destruct (step c EHandled (hs_sys h)); [|discriminate H]. now injection H as <-.
  - left. now injection H as <-.
Qed.
Lemma hstep_refines {A} (f : handler A) c x h h' : hstep f c x h = Some h' -> hs_sys h' = hs_sys h \/ exists e, step c e (hs_sys h) = Some (hs_sys h').
Proof.
  destruct x as [e| |]; cbn [hstep]; intros H.
  - apply henv_step in H as [H _]. eauto.
  - apply hcall_step in H as [k H]. eauto.
  - apply hreturn_step in H as [H|H]; eauto.
Qed.
Lemma handler_refines {A} (f : handler A) c m h : hreachable f c m h -> reachable c (hs_sys h).
Proof.
  intros [xs H]. revert h H. induction xs as [|x xs IH] using rev_ind; intros h H.
  - injection H as <-. now exists [].
  - rewrite hexec_app in H. destruct (hexec f c xs (hinit c m)) as [h1|]; [|discriminate H]. specialize (IH h1 eq_refl). cbn [hexec] in H.
    destruct (hstep f c x h1) as [h2|] eqn:E; [|discriminate H]. injection H as <-. apply hstep_refines in E as [-> |(e & E)]; [exact IH|]. eapply reachable_step; eassumption.
Qed.

(* --- every execution of System is one with nop --- *)
Lemma pc_handles c e s s' : buf_empty s -> step c e s = Some s' -> handling (y_pc s') = true -> (exists p, e = EPacket p) \/ (handling (y_pc s) = true /\ of_client e = true).
Proof.
  intros HR HS HH. destruct (step_cases _ _ _ _ HR HS) as (l & st & w & ch & n & q & t & HC & ->). cbn [next y_pc] in HH.
  inversion HC; subst; eauto; try discriminate HH; revert HH; clear; destruct (cf_rt c); try discriminate; unfold reply_pc;
    repeat match goal with |- context[match ?x with _ => _ end] => destruct x end; discriminate.
Qed.
Lemma client_pc c e s s' : of_client e = true -> step c e s = Some s' -> y_pc s' = y_pc s.
Proof.
  intros HO HS. destruct e; try discriminate HO; cbn [step] in HS.
  - now injection HS as <-.
  - unfold begin_call in HS. destruct (pl_open _); [|discriminate HS]. destruct (client_call _ _ _) as [[p' [[? ?]|?]]|]; [| |discriminate HS]; now injection HS as <-.
  - unfold send_call in HS. destruct (pick _ _) as [[? ?]|]; [|discriminate HS]. destruct (_ <? _); [|discriminate HS]. now injection HS as <-.
  - unfold give_up in HS. destruct (pick _ _) as [[? ?]|]; [|discriminate HS]. now injection HS as <-.
  - unfold drop_clients in HS. destruct (y_wait s); [|discriminate HS]. now injection HS as <-.
Qed.
Lemma busy_step c e s s' : handling (y_pc s) = true -> step c e s = Some s' -> of_client e = true \/ e = EHandled.
Proof. intros HH HS. destruct e; auto; cbn [step] in HS; destruct (y_pc s); try discriminate HH; discriminate HS. Qed.
Definition idle_ok (h : hsys unit) : Prop :=
  hs_plan h = (if handling (y_pc (hs_sys h)) then Some (Plan [] (Return tt)) else None) /\ hs_wait h = None /\ hs_dead h = false.
Lemma nop_step c h e s : reachable c (hs_sys h) -> idle_ok h -> step c e (hs_sys h) = Some s -> exists x h', hstep nop c x h = Some h' /\ hs_sys h' = s /\ idle_ok h'.
Proof.
  intros HR (HP & HW & HD) HS.
  assert (of_client e = true -> handling (y_pc s) = handling (y_pc (hs_sys h))) as HC by (intros X; now rewrite (client_pc _ _ _ _ X HS)).
  assert (of_client e = false -> e <> EHandled -> handling (y_pc (hs_sys h)) = false) as HB.
  { intros X Y. destruct (handling (y_pc (hs_sys h))) eqn:EH; [|reflexivity]. destruct (busy_step _ _ _ _ EH HS); congruence. }
  assert (of_client e = false -> (forall p, e <> EPacket p) -> handling (y_pc s) = false) as HN.
  { intros X Y. destruct (handling (y_pc s)) eqn:EH; [|reflexivity]. destruct (pc_handles _ _ _ _ (reachable_buf _ _ HR) HS EH) as [[p Z]|[_ Z]]; [now elim (Y p)|congruence]. }
  destruct h as [s0 m pl w d]. cbn [hs_sys hs_plan hs_wait hs_dead] in *. subst pl w d.
  destruct e; try (match type of HS with step _ ?e0 _ = _ => exists (HEnv e0) end; eexists; cbn [hstep]; unfold henv; cbn [hs_sys hs_plan hs_wait hs_dead own shift andb]; rewrite HS; cbn [option_map]; split; [reflexivity|]; split; [reflexivity|];
    unfold idle_ok; cbn [hs_sys hs_plan hs_wait hs_dead]; split; [|auto]; first [rewrite (HC eq_refl); reflexivity|rewrite (HB eq_refl ltac:(discriminate)), (HN eq_refl ltac:(intros; discriminate)); reflexivity|idtac]).
  - destruct (handling (y_pc s)); reflexivity.
  - exists HReturn. cbn [hstep]. unfold hreturn. cbn [hs_sys hs_plan hs_wait hs_dead].
    assert (handling (y_pc s0) = true) as -> by (cbn [step] in HS; destruct (y_pc s0); try discriminate HS; reflexivity).
    rewrite HS. cbn [option_map]. eexists. split; [reflexivity|]. split; [reflexivity|]. unfold idle_ok. cbn [hs_sys hs_plan hs_wait hs_dead]. split; [|auto].
    now rewrite (HN eq_refl ltac:(intros; discriminate)).
Qed.
Lemma nop_realises c s : reachable c s -> exists h, hreachable nop c tt h /\ hs_sys h = s.
Proof.
  intros [es H]. assert (exists h, hreachable nop c tt h /\ hs_sys h = s /\ idle_ok h) as (h & H1 & H2 & _); [|eauto].
  revert s H. induction es as [|e es IH] using rev_ind; intros s H.
  - injection H as <-. exists (hinit c tt). split; [now exists []|]. split; [reflexivity|]. split; [reflexivity|auto].
  - rewrite exec_app in H. destruct (exec c es (init c)) as [s1|] eqn:E1; [|discriminate H]. destruct (IH s1 eq_refl) as (h & (xs & HX) & <- & HI). cbn [exec] in H.
    destruct (step c e (hs_sys h)) as [s2|] eqn:E; [|discriminate H]. injection H as <-.
    destruct (nop_step c h e s2 ltac:(eexists; exact E1) HI E) as (x & h' & H1 & H2 & H3). exists h'. split; [|auto]. exists (xs ++ [x]). rewrite hexec_app, HX. cbn [hexec]. now rewrite H1.
Qed.

(* --- a handler that waits for the channel or for an identifier waits for ever --- *)
(* what clients do, without success *)
Definition futile (o : out) : Prop := match o with OBegin _ | ORefuse _ _ | OGiveUp _ | ODropClients => True | _ => False end.
Definition by_clients (o : out) : Prop := match o with OBegin _ | OAccept _ | ORefuse _ _ | OGiveUp _ | ODropClients => True | _ => False end.

Lemma client_out c e s s' : of_client e = true -> step c e s = Some s' -> exists l, trace s' = trace s ++ l /\ Forall by_clients l /\
  (CHANNEL_SIZE <= len (y_chan s) -> y_chan s' = y_chan s /\ Forall futile l) /\
  (pl_ids (st_pool (y_state s)) = [] -> pl_ids (st_pool (y_state s')) = []).
Proof.
  intros HO HS. destruct e; try discriminate HO; cbn [step] in HS.
  - injection HS as <-. exists []. rewrite app_nil_r. repeat apply conj; auto.
  - unfold begin_call in HS. destruct (pl_open _) eqn:EO; [|discriminate HS]. destruct (client_call _ _ _) as [[p' r]|] eqn:EC; [|discriminate HS].
    assert (pl_ids (st_pool (y_state s)) = [] -> pl_ids p' = []) as HP.
    { intros X. unfold client_call in EC. destruct (needs_id _); [rewrite X in EC; discriminate EC|]. destruct (validate _ _); injection EC as <- _; exact X. }
    destruct r as [[pkt e]|pkt]; injection HS as <-; unfold trace; cbn [log set_wait set_state y_log y_chan y_state]; rewrite map_app; cbn [map snd];
      (eexists; split; [reflexivity|]; repeat apply conj; [repeat constructor|intros _; split; [reflexivity|repeat constructor]|exact HP]).
  - unfold send_call in HS. destruct (pick _ _) as [[p r]|]; [|discriminate HS]. destruct (_ <? _) eqn:EL; [|discriminate HS]. injection HS as <-.
    unfold trace; cbn [log set_wait set_chan y_log y_chan y_state]; rewrite map_app; cbn [map snd]. eexists; split; [reflexivity|]. repeat apply conj; [repeat constructor|lia|auto].
  - unfold give_up in HS. destruct (pick _ _) as [[p r]|]; [|discriminate HS]. injection HS as <-.
    unfold trace; cbn [log set_wait set_chan y_log y_chan y_state]; rewrite map_app; cbn [map snd]. eexists; split; [reflexivity|]. repeat apply conj; [repeat constructor|intros _; split; [reflexivity|repeat constructor]|auto].
  - unfold drop_clients in HS. destruct (y_wait s); [|discriminate HS]. injection HS as <-.
    unfold trace; cbn [log set_wait set_state y_log y_chan y_state]; rewrite map_app; cbn [map snd]. eexists; split; [reflexivity|]. repeat apply conj; [repeat constructor|intros _; split; [reflexivity|repeat constructor]|auto].
Qed.

Section Stuck.
Context {A : Type} (f : handler A) (c : config).
Lemma env_stuck e h h' : handling (y_pc (hs_sys h)) = true -> henv f c e h = Some h' -> of_client e = true /\ y_pc (hs_sys h') = y_pc (hs_sys h) /\ step c e (hs_sys h) = Some (hs_sys h').
Proof.
  intros HH H. apply henv_step in H as (HS & HE & _ & _). destruct (busy_step _ _ _ _ HH HS) as [X|X]; [|contradiction]. repeat split; [exact X|eapply client_pc; eassumption|exact HS].
Qed.
Lemma channel_stuck xs h h' : handling (y_pc (hs_sys h)) = true -> hs_wait h <> None -> CHANNEL_SIZE <= len (y_chan (hs_sys h)) -> hexec f c xs h = Some h' ->
  y_pc (hs_sys h') = y_pc (hs_sys h) /\ hs_wait h' <> None /\ exists l, trace (hs_sys h') = trace (hs_sys h) ++ l /\ Forall futile l.
Proof.
  revert h. induction xs as [|x xs IH]; intros h HH HW HC H.
  - injection H as <-. split; [reflexivity|]. split; [exact HW|]. exists []. now rewrite app_nil_r.
  - cbn [hexec] in H. destruct (hstep f c x h) as [h1|] eqn:E; [|discriminate H].
    assert (y_pc (hs_sys h1) = y_pc (hs_sys h) /\ hs_wait h1 <> None /\ CHANNEL_SIZE <= len (y_chan (hs_sys h1)) /\ exists l, trace (hs_sys h1) = trace (hs_sys h) ++ l /\ Forall futile l)
      as (H1 & H2 & H3 & l & H4 & H5).
    { destruct x as [e| |]; cbn [hstep] in E.
      - destruct (env_stuck _ _ _ HH E) as (HO & HP & HS). destruct (client_out _ _ _ _ HO HS) as (l & HT & _ & HL & _). destruct (HL HC) as [HL1 HL2].
        split; [exact HP|]. split; [|split; [now rewrite HL1|eauto]]. unfold henv in E. destruct (hs_dead h && _); [discriminate E|].
        destruct e; try discriminate HO; try (destruct (step c _ (hs_sys h)); [|discriminate E]; injection E as <-; exact HW).
        + exfalso. cbn [step] in HS. unfold send_call in HS. destruct (pick _ _) as [[? ?]|]; [|discriminate HS]. replace (len (y_chan (hs_sys h)) <? CHANNEL_SIZE) with false in HS by lia. discriminate HS.
        + destruct (hs_wait h) as [j|]; [|contradiction]. cbn [own shift] in E. destruct (Nat.eqb i j); [discriminate E|]. destruct (step c _ (hs_sys h)); [|discriminate E]. injection E as <-. discriminate.
      - exfalso. unfold hcall in E. destruct (hs_plan h) as [[[|k ks] e]|]; try discriminate E. destruct (hs_wait h); [discriminate E|contradiction].
      - exfalso. unfold hreturn in E. destruct (hs_plan h) as [[[|k ks] [m|]]|]; try discriminate E; (destruct (hs_wait h); [discriminate E|contradiction]). }
    rewrite <- H1 in HH. destruct (IH h1 HH H2 H3 H) as (K1 & K2 & k & K3 & K4). split; [congruence|]. split; [exact K2|]. exists (l ++ k). rewrite K3, H4, app_assoc. split; [reflexivity|now apply Forall_app].
Qed.
Lemma id_stuck xs h h' k ks e : handling (y_pc (hs_sys h)) = true -> hs_plan h = Some (Plan (k :: ks) e) -> hs_wait h = None -> needs_id k = true -> pl_ids (st_pool (y_state (hs_sys h))) = [] ->
  hexec f c xs h = Some h' -> y_pc (hs_sys h') = y_pc (hs_sys h) /\ hs_plan h' = hs_plan h /\ exists l, trace (hs_sys h') = trace (hs_sys h) ++ l /\ Forall by_clients l.
Proof.
  revert h. induction xs as [|x xs IH]; intros h HH HP HW HN HI H.
  - injection H as <-. split; [reflexivity|]. split; [reflexivity|]. exists []. now rewrite app_nil_r.
  - cbn [hexec] in H. destruct (hstep f c x h) as [h1|] eqn:E; [|discriminate H].
    assert (y_pc (hs_sys h1) = y_pc (hs_sys h) /\ hs_plan h1 = hs_plan h /\ hs_wait h1 = None /\ pl_ids (st_pool (y_state (hs_sys h1))) = [] /\ exists l, trace (hs_sys h1) = trace (hs_sys h) ++ l /\ Forall by_clients l)
      as (H1 & H2 & H3 & H0 & l & H4 & H5).
    { destruct x as [e0| |]; cbn [hstep] in E.
      - destruct (env_stuck _ _ _ HH E) as (HO & HQ & HS). destruct (client_out _ _ _ _ HO HS) as (l & HT & HB & _ & HL).
        split; [exact HQ|]. rewrite <- and_assoc. split; [|split; [now apply HL|eauto]]. unfold henv in E. destruct (hs_dead h && _); [discriminate E|]. rewrite HW in E. cbn [own shift] in E.
        destruct e0; try discriminate HO; (destruct (step c _ (hs_sys h)); [|discriminate E]; injection E as <-; split; [reflexivity|]; first [reflexivity|exact HW]).
      - exfalso. unfold hcall in E. rewrite HP, HW in E. destruct (hs_dead h); [discriminate E|]. cbn [step] in E. unfold begin_call in E.
        destruct (pl_open _); [|discriminate E]. unfold client_call in E. rewrite HN, HI in E. discriminate E.
      - exfalso. unfold hreturn in E. rewrite HP in E. discriminate E. }
    rewrite <- H1 in HH. rewrite <- H2 in HP. destruct (IH h1 HH HP H3 HN H0 H) as (K1 & K2 & k0 & K3 & K4). split; [congruence|]. split; [congruence|]. exists (l ++ k0). rewrite K3, H4, app_assoc. split; [reflexivity|now apply Forall_app].
Qed.
End Stuck.
