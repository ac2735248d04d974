(* C68: lemmas. *)
From Verif Require Import Base BaseFacts VarInt Prims Props Codes Packets Options Session Client System SpecSession SystemFacts Cases Handlers HandlerFacts SpecHandler.

Lemma made_more ks l l' : made ks l -> made ks (l ++ l').
Proof.
  intros H. destruct H; [constructor|]. replace ((l1 ++ OBegin p :: l2 ++ OAccept p :: l3) ++ l') with (l1 ++ OBegin p :: l2 ++ OAccept p :: (l3 ++ l')) by (rewrite <- !app_assoc; cbn; now rewrite <- !app_assoc).
  now constructor.
Qed.
Lemma clients_between l : Forall by_clients l -> Forall between l.
Proof. apply Forall_impl. intros []; cbn; auto. Qed.
Lemma build_asks k id : asks k (build k id).
Proof. destruct k; cbn; auto. destruct q; cbn; repeat split; auto. all: discriminate. Qed.
Lemma pick_nth {A} (l : list A) : forall i x r, pick i l = Some (x, r) -> nth_error l i = Some x /\
  forall j, j <> i -> nth_error r (if Nat.ltb i j then Nat.pred j else j) = nth_error l j.
Proof.
  induction l as [|y l IH]; intros i x r H; destruct i as [|i]; cbn [pick] in H; try discriminate.
  - injection H as <- <-. split; [reflexivity|]. intros [|j] HJ; [contradiction|reflexivity].
  - destruct (pick i l) as [[z r']|] eqn:E; [|discriminate]. injection H as -> <-. destruct (IH _ _ _ E) as [H1 H2]. split; [exact H1|].
    intros [|j] HJ; [reflexivity|]. assert (j <> i) as HJ' by (intros ->; now apply HJ). specialize (H2 j HJ'). change (Nat.ltb (S i) (S j)) with (Nat.ltb i j). cbn [nth_error]. rewrite <- H2.
    destruct (Nat.ltb i j) eqn:EL; [|reflexivity]. apply Nat.ltb_lt in EL. destruct j as [|j]; [inversion EL|]. reflexivity.
Qed.

(* what a step adds to the log *)
Lemma step_marks c e s s' : buf_empty s -> step c e s = Some s' -> exists l, trace s' = trace s ++ l /\
  match e with
  | EPacket p => if handling (y_pc s') then exists l', l = l' ++ [OHandle p] /\ Forall between l' else Forall between l
  | EHandled => handling (y_pc s') = false /\ exists l', l = OHandled :: l' /\ Forall between l'
  | _ => Forall between l
  end.
Proof.
  intros HR HS. destruct (step_cases _ _ _ _ HR HS) as (l & st & w & ch & n & q & t & HC & ->). rewrite next_trace. exists l. split; [reflexivity|]. cbn [next y_pc].
  assert (forall o ps ok, Forall between (smol_writes o ps ok)) as HW.
  { intros o ps ok. unfold smol_writes. repeat match goal with |- context [match ?x with _ => _ end] => destruct x end; repeat constructor; apply Forall_forall; intros x HX; apply in_map_iff in HX as (y & <- & _); exact I. }
  assert (forall ps, Forall between (map (OWrite FromResend) ps)) as HM by (intros ps; apply Forall_forall; intros x HX; apply in_map_iff in HX as (y & <- & _); exact I).
  assert (forall r, handling (reply_pc (cf_rt c) r (y_now s)) = false) as HP by (intros r; destruct (cf_rt c), r; reflexivity).
  assert (forall o ps oks, Forall between (tokio_writes o ps oks)) as HT.
  { intros o. induction ps as [|x ps IH]; intros oks; [constructor|]. cbn [tokio_writes]. destruct oks as [|b oks]; (destruct (write_result _ _ _); (constructor; [exact I|apply IH])). }
  inversion HC; subst; cbn [handling]; try solve [repeat constructor]; try solve [apply HW]; try solve [apply Forall_app; split; [apply HW|repeat constructor]].
  - exists [OAnswer (PConnAck a)]. split; [reflexivity|repeat constructor].
  - split; [reflexivity|]. exists []. split; [reflexivity|repeat constructor].
  - split; [reflexivity|]. exists [OConnectEnd None]. split; [reflexivity|repeat constructor].
  - apply Forall_app; split; [apply HT|repeat constructor].
  - apply Forall_app; split; [apply HT|repeat constructor].
  - exists [ORead p]. split; [reflexivity|repeat constructor].
  - exists [ORead p]. split; [reflexivity|repeat constructor].
  - rewrite HP. repeat constructor.
  - split; [apply HP|]. exists []. split; [reflexivity|repeat constructor].
  - split; [reflexivity|]. exists [ORunEnd (inl IncomingDisconnect)]. split; [reflexivity|repeat constructor].
  - split; [apply HP|]. exists []. split; [reflexivity|repeat constructor].
Qed.

Section Serve.
(* [log_of]: either [served] or, for C93, [attended] *)
Context {A : Type} (f : handler A) (c : config) (log_of : list out -> A -> Prop).
Context (log_other : forall l m1 o, log_of l m1 -> between o -> log_of (l ++ [o]) m1).
Context (log_handle : forall l m1 p ks m2 l2, log_of l m1 -> f m1 p = Plan ks (Return m2) -> Forall between l2 -> made ks l2 -> log_of (l ++ OHandle p :: l2 ++ [OHandled]) m2).
Lemma served_more l l' m' : log_of l m' -> Forall between l' -> log_of (l ++ l') m'.
Proof.
  intros H HB. revert l H. induction HB as [|o l' H0 HB IH]; intros l H; [now rewrite app_nil_r|].
  replace (l ++ o :: l') with ((l ++ [o]) ++ l') by now rewrite <- app_assoc. apply IH. now apply log_other.
Qed.
Definition active (h : hsys A) (p : packet) (l2 : list out) : Prop :=
  exists ks1 ks2 e, f (hs_mem h) p = Plan (ks1 ++ ks2) e /\ hs_plan h = Some (Plan ks2 e) /\
  match hs_wait h with
  | None => made ks1 l2
  | Some j => exists ks k q l3 l4, ks1 = ks ++ [k] /\ l2 = l3 ++ OBegin q :: l4 /\ made ks l3 /\ asks k q /\ nth_error (y_wait (hs_sys h)) j = Some q
  end.
Definition serving (h : hsys A) : Prop :=
  if handling (y_pc (hs_sys h)) then
    exists l p l2, trace (hs_sys h) = l ++ OHandle p :: l2 /\ log_of l (hs_mem h) /\ Forall between l2 /\
    (if hs_dead h then panicked (f (hs_mem h) p) l2 else active h p l2)
  else hs_dead h = false /\ hs_plan h = None /\ hs_wait h = None /\ log_of (trace (hs_sys h)) (hs_mem h).

Lemma panicked_more (a : plan A) l l' : panicked a l -> panicked a (l ++ l').
Proof.
  intros [[H1 H2]|(ks1 & k & ks2 & p & e & l1 & l2 & H1 & H2 & H3 & ->)]; [left; split; [exact H1|now apply made_more]|].
  right. exists ks1, k, ks2, p, e, l1, (l2 ++ l'). rewrite <- app_assoc. auto.
Qed.
Lemma client_between e s s' : of_client e = true -> step c e s = Some s' -> exists l, trace s' = trace s ++ l /\ Forall between l.
Proof. intros HO HS. destruct (client_out _ _ _ _ HO HS) as (l & H1 & H2 & _). exists l. split; [exact H1|now apply clients_between]. Qed.
(* a client's event while the handler runs: the place of the handler's call *)
Lemma client_wait e s s' j q : step c e s = Some s' -> nth_error (y_wait s) j = Some q ->
  match e with
  | ETick _ | ECall _ | EDropClients => nth_error (y_wait s') j = Some q
  | EGiveUp i => i <> j -> nth_error (y_wait s') (if Nat.ltb i j then Nat.pred j else j) = Some q
  | ESend i => if Nat.eqb i j then trace s' = trace s ++ [OAccept q] else nth_error (y_wait s') (if Nat.ltb i j then Nat.pred j else j) = Some q
  | _ => True
  end.
Proof.
  intros HS HN. destruct e; auto; cbn [step] in HS.
  - now injection HS as <-.
  - unfold begin_call in HS. destruct (pl_open _); [|discriminate HS]. destruct (client_call _ _ _) as [[p' [[pkt e]|pkt]]|]; [| |discriminate HS]; injection HS as <-; cbn [log set_wait set_state y_wait]; [exact HN|].
    rewrite nth_error_app1; [exact HN|]. apply nth_error_Some. congruence.
  - unfold send_call in HS. destruct (pick _ _) as [[p r]|] eqn:EP; [|discriminate HS]. destruct (_ <? _); [|discriminate HS]. injection HS as <-. destruct (pick_nth _ _ _ _ EP) as [H1 H2].
    destruct (Nat.eqb_spec i j) as [<-|HJ].
    + assert (p = q) as -> by congruence. unfold trace. cbn [log set_chan set_wait y_log]. rewrite map_app. reflexivity.
    + cbn [log set_chan set_wait y_wait]. rewrite H2 by congruence. exact HN.
  - unfold give_up in HS. destruct (pick _ _) as [[p r]|] eqn:EP; [|discriminate HS]. injection HS as <-. destruct (pick_nth _ _ _ _ EP) as [H1 H2]. intros HJ.
    cbn [log set_chan set_wait y_wait]. rewrite H2 by congruence. exact HN.
  - unfold drop_clients in HS. destruct (y_wait s) eqn:EW; [|discriminate HS]. destruct j; discriminate HN.
Qed.
Lemma active_client e h s h' p l2 l : of_client e = true -> step c e (hs_sys h) = Some s -> henv f c e h = Some h' -> trace s = trace (hs_sys h) ++ l -> active h p l2 -> active h' p (l2 ++ l).
Proof.
  intros HO HS HE HL (ks1 & ks2 & e0 & H1 & H2 & H3).
  destruct h as [s0 m pl w d]. cbn [hs_sys hs_mem hs_plan hs_wait hs_dead] in *. unfold henv in HE. cbn [hs_sys hs_mem hs_plan hs_wait hs_dead] in HE. rewrite HO, andb_false_r in HE.
  destruct w as [j|].
  - destruct H3 as (ks & k & q & l3 & l4 & -> & -> & H4 & H5 & H6). pose proof (client_wait _ _ _ _ _ HS H6) as HW.
    assert (forall w', nth_error (y_wait s) w' = Some q -> active (HSys s m pl (Some w') d) p ((l3 ++ OBegin q :: l4) ++ l)) as HK.
    { intros w' HN. exists (ks ++ [k]), ks2, e0. cbn [hs_sys hs_mem hs_plan hs_wait]. split; [exact H1|]. split; [exact H2|]. exists ks, k, q, l3, (l4 ++ l). rewrite <- app_assoc. auto. }
    destruct e; try discriminate HO; cbn [own shift] in HE; try rewrite HS in HE; cbn [option_map] in HE; try (injection HE as <-; now apply HK).
    + destruct (Nat.eqb i j) eqn:EQ.
      * injection HE as <-. rewrite HL in HW. apply app_inv_head in HW as ->. exists (ks ++ [k]), ks2, e0. cbn [hs_sys hs_mem hs_plan hs_wait]. split; [exact H1|]. split; [exact H2|].
        rewrite <- app_assoc. cbn [app]. now constructor.
      * injection HE as <-. now apply HK.
    + destruct (Nat.eqb_spec i j) as [E|E]; [discriminate HE|]. injection HE as <-. apply HK. now apply HW.
  - assert (h' = HSys s m pl None d) as ->.
    { destruct e; try discriminate HO; cbn [own shift] in HE; rewrite HS in HE; now injection HE as <-. }
    exists ks1, ks2, e0. cbn [hs_sys hs_mem hs_plan hs_wait]. split; [exact H1|]. split; [exact H2|]. now apply made_more.
Qed.
Lemma env_mem e h h' : henv f c e h = Some h' -> hs_mem h' = hs_mem h.
Proof. unfold henv. intros H. destruct (_ && _); [discriminate|]. destruct e; try discriminate H; try (destruct (own _ _); [discriminate H|]); (destruct (step c _ _); [|discriminate H]; now injection H as <-). Qed.
Lemma env_plan e h h' : henv f c e h = Some h' -> (forall p, e <> EPacket p) -> hs_plan h' = hs_plan h /\ (hs_wait h = None -> hs_wait h' = None).
Proof. unfold henv. intros H HN. destruct (_ && _); [discriminate|]. destruct e; try discriminate H; try (now elim (HN p)); try (destruct (own _ _); [discriminate H|]); (destruct (step c _ _); [|discriminate H]; injection H as <-; cbn; split; [reflexivity|]; try (intros ->); auto). Qed.
Lemma serve_env e h h' : buf_empty (hs_sys h) -> serving h -> henv f c e h = Some h' -> serving h'.
Proof.
  intros HR HI H. pose proof (henv_step _ _ _ _ _ H) as (HS & HE & HD & HD'). pose proof (env_mem _ _ _ H) as HM. unfold serving in *.
  destruct (handling (y_pc (hs_sys h))) eqn:EH.
  - destruct (env_stuck f c _ _ _ EH H) as (HO & HP & _). rewrite HP, EH. destruct HI as (l & p & l2 & H1 & H2 & H3 & H4).
    destruct (client_between _ _ _ HO HS) as (k & K1 & K2). exists l, p, (l2 ++ k). rewrite K1, H1, <- app_assoc. split; [reflexivity|]. rewrite HM. split; [exact H2|].
    split; [apply Forall_app; auto|]. rewrite HD. destruct (hs_dead h); [now apply panicked_more|]. eapply active_client; eassumption.
  - destruct HI as (I1 & I2 & I3 & I4). destruct (step_marks _ _ _ _ HR HS) as (l & HL & HB). rewrite HL, HM.
    destruct (handling (y_pc (hs_sys h'))) eqn:EH'.
    + destruct (pc_handles _ _ _ _ HR HS EH') as [[p ->]|[X _]]; [|congruence]. destruct HB as (l' & -> & HB). exists (trace (hs_sys h) ++ l'), p, []. split; [now rewrite <- !app_assoc|].
      split; [now apply served_more|]. split; [constructor|]. rewrite HD, I1. unfold henv in H. rewrite I1 in H. cbn [andb] in H. rewrite HS in H. cbn [option_map] in H. rewrite EH' in H. injection H as <-.
      destruct (f (hs_mem h) p) as [ks e] eqn:EF. exists [], ks, e. cbn. split; [exact EF|]. split; [reflexivity|constructor].
    + split; [congruence|]. assert (Forall between l) as HB' by (destruct e; auto; now destruct HB).
      assert (hs_plan h' = None /\ hs_wait h' = None) as [-> ->]; [|auto using served_more].
      destruct e; try (destruct (env_plan _ _ _ H) as [K1 K2]; [intros; discriminate|]; rewrite K1; now auto).
      unfold henv in H. rewrite I1 in H. cbn [andb] in H. rewrite HS in H. cbn [option_map] in H. injection H as <-. cbn. cbn in EH'. now rewrite EH'.
Qed.
Lemma call_out k s s' : step c (ECall k) s = Some s' -> exists id, y_pc s' = y_pc s /\
  ((trace s' = trace s ++ [OBegin (build k id)] /\ y_wait s' = y_wait s ++ [build k id]) \/ (exists e, trace s' = trace s ++ [OBegin (build k id); ORefuse (build k id) e] /\ y_wait s' = y_wait s)).
Proof.
  intros HS. cbn [step] in HS. unfold begin_call in HS. destruct (pl_open _); [|discriminate HS]. destruct (client_call _ _ _) as [[p' r]|] eqn:EC; [|discriminate HS].
  assert (exists id, match r with inl (q, _) => q = build k id | inr q => q = build k id end) as (id & HQ).
  { unfold client_call in EC. destruct (needs_id k); [destruct (pl_ids _) as [|i ?]; [discriminate EC|]|]; destruct (validate _ _); injection EC as <- <-; eauto. }
  exists id. destruct r as [[q e]|q]; injection HS as <-; subst q; (split; [reflexivity|]); unfold trace; cbn [log set_wait set_state y_log y_wait]; rewrite map_app; [right; eexists; split; reflexivity|left; split; reflexivity].
Qed.
Lemma serve_call h h' : serving h -> hcall c h = Some h' -> serving h'.
Proof.
  intros HI H. unfold hcall in H. destruct h as [s0 m pl w d]. unfold serving in HI. cbn [hs_sys hs_mem hs_plan hs_wait hs_dead] in *.
  destruct pl as [[[|k ks] e]|]; try discriminate H. destruct w; [discriminate H|]. destruct d; [discriminate H|]. destruct (step c (ECall k) s0) as [s|] eqn:HS; [|discriminate H]. injection H as <-.
  destruct (call_out _ _ _ HS) as (id & HP & HX). destruct (handling (y_pc s0)) eqn:EH; [|destruct HI as (_ & X & _); discriminate X].
  destruct HI as (l & p & l2 & H1 & H2 & H3 & ks1 & ks2 & e0 & H4 & H5 & H6). cbn [hs_plan hs_wait hs_mem] in *. injection H5 as <- <-.
  destruct HX as [(HT & HW)|(er & HT & HW)]; rewrite HW.
  - rewrite len_app, len_cons, len_nil. replace (len (y_wait s0) + (1 + 0) =? len (y_wait s0)) with false by lia. unfold serving. cbn [hs_sys hs_mem hs_plan hs_wait hs_dead]. rewrite HP, EH.
    exists l, p, (l2 ++ [OBegin (build k id)]). rewrite HT, H1, <- app_assoc. split; [reflexivity|]. split; [exact H2|]. split; [apply Forall_app; repeat constructor; exact H3|].
    exists (ks1 ++ [k]), ks, e. cbn [hs_sys hs_mem hs_plan hs_wait hs_dead]. split; [now rewrite <- app_assoc|]. split; [reflexivity|].
    exists ks1, k, (build k id), l2, []. repeat split; [exact H6|apply build_asks|]. rewrite HW, nth_error_app2, Nat.sub_diag by lia. reflexivity.
  - replace (len (y_wait s0) =? len (y_wait s0)) with true by lia. unfold serving. cbn [hs_sys hs_mem hs_plan hs_wait hs_dead]. rewrite HP, EH.
    exists l, p, (l2 ++ [OBegin (build k id); ORefuse (build k id) er]). rewrite HT, H1, <- app_assoc. split; [reflexivity|]. split; [exact H2|]. split; [apply Forall_app; repeat constructor; exact H3|].
    right. exists ks1, k, ks, (build k id), er, l2, []. rewrite H4. repeat split; [exact H6|apply build_asks].
Qed.
Lemma serve_return h h' : buf_empty (hs_sys h) -> serving h -> hreturn c h = Some h' -> serving h'.
Proof.
  intros HR HI H. unfold hreturn in H. destruct h as [s0 m pl w d]. unfold serving in HI. cbn [hs_sys hs_mem hs_plan hs_wait hs_dead] in *.
  destruct (handling (y_pc s0)) eqn:EH; [|destruct HI as (_ & -> & _); discriminate H].
  destruct HI as (l & p & l2 & H1 & H2 & H3 & H4). destruct pl as [[[|k ks] en]|]; try discriminate H.
  destruct w; [now destruct en|]. destruct d; [now destruct en|]. destruct H4 as (ks1 & ks2 & e & H4 & H5 & H6). cbn [hs_mem hs_plan hs_wait] in *. injection H5 as <- <-. rewrite app_nil_r in H4.
  destruct en as [m2|].
  - destruct (step c EHandled s0) as [s|] eqn:HS; [|discriminate H]. injection H as <-. destruct (step_marks _ _ _ _ HR HS) as (k & K1 & K2 & k' & -> & K3). unfold serving. cbn [hs_sys hs_mem hs_plan hs_wait hs_dead].
    rewrite K2. repeat (split; [reflexivity|]). rewrite K1, H1. replace ((l ++ OHandle p :: l2) ++ OHandled :: k') with ((l ++ OHandle p :: l2 ++ [OHandled]) ++ k') by (rewrite <- !app_assoc; cbn; now rewrite <- app_assoc).
    apply served_more; [|exact K3]. eapply log_handle; eassumption.
  - injection H as <-. unfold serving. cbn [hs_sys hs_mem hs_plan hs_wait hs_dead]. rewrite EH. exists l, p, l2. repeat split; auto. left. rewrite H4. auto.
Qed.
End Serve.

Lemma serve_all {A} (f : handler A) c m0 h : hreachable f c m0 h -> serving f (served f m0) h.
Proof.
  intros [xs H]. revert h H. induction xs as [|x xs IH] using rev_ind; intros h H.
  - injection H as <-. unfold serving. cbn. repeat split. constructor.
  - rewrite hexec_app in H. destruct (hexec f c xs (hinit c m0)) as [h1|] eqn:E1; [|discriminate H]. specialize (IH h1 eq_refl).
    assert (buf_empty (hs_sys h1)) as HR by (eapply reachable_buf, handler_refines; eexists; exact E1).
    cbn [hexec] in H. destruct (hstep f c x h1) as [h2|] eqn:E; [|discriminate H]. injection H as <-. pose proof (sv_other f m0) as X. pose proof (sv_handle f m0) as Y.
    destruct x; cbn [hstep] in E; eauto using serve_env, serve_call, serve_return.
Qed.
Lemma served_idle {A} (f : handler A) c m h : hreachable f c m h -> handling (y_pc (hs_sys h)) = false -> served f m (trace (hs_sys h)) (hs_mem h) /\ hs_dead h = false.
Proof. intros H HH. pose proof (serve_all _ _ _ _ H) as HI. unfold serving in HI. rewrite HH in HI. tauto. Qed.
Lemma served_running {A} (f : handler A) c m h : hreachable f c m h -> handling (y_pc (hs_sys h)) = true ->
  exists l p l2, trace (hs_sys h) = l ++ OHandle p :: l2 /\ served f m l (hs_mem h) /\ Forall between l2 /\
  if hs_dead h then panicked (f (hs_mem h) p) l2 else made_up_to (pn_calls (f (hs_mem h) p)) l2.
Proof.
  intros H HH. pose proof (serve_all _ _ _ _ H) as HI. unfold serving in HI. rewrite HH in HI. destruct HI as (l & p & l2 & H1 & H2 & H3 & H4). exists l, p, l2. do 3 (split; [assumption|]).
  destruct (hs_dead h); [exact H4|]. destruct H4 as (ks1 & ks2 & e & H4 & H5 & H6). rewrite H4. cbn [pn_calls]. destruct (hs_wait h).
  - destruct H6 as (ks & k & q & l3 & l4 & -> & -> & H6 & H7 & _). exists ks, (k :: ks2). split; [now rewrite <- app_assoc|]. right. exists k, ks2, q, l3, l4. auto.
  - exists ks1, ks2. auto.
Qed.
