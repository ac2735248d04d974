(* C93: lemmas. *)
From Verif Require Import Base BaseFacts VarInt Prims Props Codes Packets Options Session Client System SpecSession SpecTrace SpecTime SystemFacts Cases Handlers HandlerFacts SpecHandler HandlerServe Cancel SpecCancel CancelMore HandlerDrop SpecAttend.

Lemma dexec_app {A} (f : handler A) c xs ys h : dexec f c (xs ++ ys) h = match dexec f c xs h with Some h' => dexec f c ys h' | None => None end.
Proof. revert h. induction xs as [|x xs IH]; intros h; cbn; [reflexivity|]. destruct (dstep f c x h); [apply IH|reflexivity]. Qed.
Lemma cexec_more c xs ys s : cexec c (xs ++ ys) s = match cexec c xs s with Some s' => cexec c ys s' | None => None end.
Proof. revert s. induction xs as [|x xs IH]; intros s; cbn; [reflexivity|]. destruct (cstep c x s); [apply IH|reflexivity]. Qed.
Lemma dreach_ind {A} (f : handler A) c m (P : hsys A -> Prop) : P (hinit c m) -> (forall x h h', dreachable f c m h -> P h -> dstep f c x h = Some h' -> P h') ->
  forall h, dreachable f c m h -> P h.
Proof.
  intros H0 HS h [xs H]. revert h H. induction xs as [|x xs IH] using rev_ind; intros h H; [now injection H as <-|].
  rewrite dexec_app in H. destruct (dexec f c xs (hinit c m)) as [h1|] eqn:E1; [|discriminate H]. cbn [dexec] in H. destruct (dstep f c x h1) as [h2|] eqn:E; [|discriminate H].
  injection H as <-. apply (HS x h1 h2); [now exists xs|now apply IH|exact E].
Qed.
Lemma hdrop_steps {A} c (m : A) h h' : hdrop c m h = Some h' -> exists xs, cexec c xs (hs_sys h) = Some (hs_sys h').
Proof.
  unfold hdrop. intros H. destruct (hs_dead h); [discriminate H|]. destruct (hs_wait h) as [j|].
  - destruct (step c (EGiveUp j) (hs_sys h)) as [s|] eqn:E; [|discriminate H]. destruct (drop_task s) as [s'|] eqn:ED; [|discriminate H]. injection H as <-.
    exists [CStep (EGiveUp j); CDrop]. cbn [cexec cstep]. now rewrite E, ED.
  - destruct (drop_task (hs_sys h)) as [s'|] eqn:ED; [|discriminate H]. injection H as <-. exists [CDrop]. cbn [cexec cstep]. now rewrite ED.
Qed.
Lemma drop_refines {A} (f : handler A) c m h : dreachable f c m h -> exists xs, cexec c xs (init c) = Some (hs_sys h).
Proof.
  revert h. apply dreach_ind; [now exists []|]. intros x h h' _ (xs & IH) HS.
  assert (exists ys, cexec c ys (hs_sys h) = Some (hs_sys h')) as (ys & HY).
  { destruct x as [x|m']; cbn [dstep] in HS; [|eapply hdrop_steps; exact HS]. apply hstep_refines in HS as [-> |(e & HS)]; [now exists []|]. exists [CStep e]. cbn [cexec cstep]. now rewrite HS. }
  exists (xs ++ ys). now rewrite cexec_more, IH.
Qed.

(* a run has a connection, and smol's buffer is empty *)
Definition on_line (s : sys) : Prop := match y_pc s with PSelect _ | PHandle _ | PReply _ | PFlush _ | PRequest _ | PPing | PBye => nt_connected (y_net s) = true | _ => True end.
Lemma on_line_step c e s s' : buf_empty s -> on_line s -> step c e s = Some s' -> on_line s'.
Proof.
  intros HB HO HS. destruct (step_cases _ _ _ _ HB HS) as (l & st & w & ch & n & q & t & HC & ->). unfold on_line in *. cbn [next y_pc y_net].
  inversion HC; subst; try exact HO; try exact I; repeat match goal with H : y_pc s = _ |- _ => rewrite H in HO; clear H end; try exact HO; try assumption; try exact I; try reflexivity.
  all: unfold reply_pc; repeat match goal with |- context[match ?x with _ => _ end] => destruct x end; cbn; try exact I; try assumption; try exact HO; try reflexivity.
Qed.
Lemma buf_step c e s s' : buf_empty s -> step c e s = Some s' -> buf_empty s'.
Proof. intros HB HS. destruct (step_cases _ _ _ _ HB HS) as (l & st & w & ch & n & q & t & HT & ->). exact (tcase_buf _ _ _ _ _ _ _ _ _ _ HB HT). Qed.
Lemma cexec_kept c xs s s' : cexec c xs s = Some s' -> buf_empty s /\ on_line s -> buf_empty s' /\ on_line s'.
Proof.
  revert s. induction xs as [|[e|] xs IH]; intros s H HI; cbn [cexec cstep] in H; [now injection H as <-| |].
  - destruct (step c e s) as [s1|] eqn:E; [|discriminate H]. apply (IH s1 H). destruct HI as [H1 H2]. eauto using buf_step, on_line_step.
  - destruct (drop_task s) as [s1|] eqn:E; [|discriminate H]. apply (IH s1 H). destruct HI as [H1 H2]. unfold drop_task in E. destruct (y_pc s); try discriminate E; injection E as <-; (split; [exact H1|exact I]).
Qed.
Lemma drop_kept {A} (f : handler A) c m h : dreachable f c m h -> buf_empty (hs_sys h) /\ on_line (hs_sys h).
Proof. intros H. destruct (drop_refines _ _ _ _ H) as (xs & HX). eapply cexec_kept; [exact HX|]. split; [reflexivity|exact I]. Qed.

(* --- the handler's log --- *)
Lemma up_to_more ks l l' : made_up_to ks l -> made_up_to ks (l ++ l').
Proof.
  intros (ks1 & ks2 & H1 & [H2|(k & ks3 & p & l1 & l2 & H2 & H3 & H4 & ->)]); exists ks1, ks2; (split; [exact H1|]); [left; now apply made_more|].
  right. exists k, ks3, p, l1, (l2 ++ l'). rewrite <- app_assoc. auto.
Qed.
Lemma active_up_to {A} (f : handler A) h p l2 : active f h p l2 -> made_up_to (pn_calls (f (hs_mem h) p)) l2.
Proof.
  intros (ks1 & ks2 & e & H4 & H5 & H6). rewrite H4. cbn [pn_calls]. destruct (hs_wait h).
  - destruct H6 as (ks & k & q & l3 & l4 & -> & -> & H6 & H7 & _). exists ks, (k :: ks2). split; [now rewrite <- app_assoc|]. right. exists k, ks2, q, l3, l4. auto.
  - exists ks1, ks2. auto.
Qed.
Lemma pick_at {A} (l : list A) i x : nth_error l i = Some x -> exists r, pick i l = Some (x, r) /\ l = firstn i l ++ x :: skipn (S i) l /\ r = firstn i l ++ skipn (S i) l.
Proof.
  revert i. induction l as [|y l IH]; intros [|i] H; try discriminate H.
  - injection H as ->. exists l. auto.
  - destruct (IH i H) as (r & H1 & H2 & H3). exists (y :: r). cbn [pick]. rewrite H1. split; [reflexivity|]. cbn [firstn skipn app]. split; [f_equal; exact H2|now f_equal].
Qed.
(* what a drop does to a handler that is running *)
Lemma cut_off {A} (f : handler A) c (m : A) m0 h : serving f (attended f m0) h -> handling (y_pc (hs_sys h)) = true -> hs_dead h = false ->
  exists h' l, hdrop c m h = Some h' /\ hs_mem h' = m /\ hs_plan h' = None /\ hs_wait h' = None /\ hs_dead h' = false /\ y_pc (hs_sys h') = PIdle /\
  y_chan (hs_sys h') = y_chan (hs_sys h) /\ y_state (hs_sys h') = y_state (hs_sys h) /\ y_net (hs_sys h') = y_net (hs_sys h) /\
  trace (hs_sys h') = trace (hs_sys h) ++ l /\ attended f m0 (trace (hs_sys h')) m /\
  match hs_wait h with
  | None => l = [] /\ y_wait (hs_sys h') = y_wait (hs_sys h)
  | Some j => exists q, nth_error (y_wait (hs_sys h)) j = Some q /\ l = [OGiveUp q] /\ y_wait (hs_sys h') = firstn j (y_wait (hs_sys h)) ++ skipn (S j) (y_wait (hs_sys h))
  end.
Proof.
  intros HI HH HD. unfold serving in HI. rewrite HH, HD in HI. destruct HI as (l & p & l2 & H1 & H2 & H3 & H4). pose proof (active_up_to _ _ _ _ H4) as HU.
  destruct H4 as (ks1 & ks2 & e & H4 & H5 & H6). unfold hdrop. rewrite HD, HH. destruct (hs_wait h) as [j|].
  - destruct H6 as (ks & k & q & l3 & l4 & _ & _ & _ & _ & HN). destruct (pick_at _ _ _ HN) as (r & HP & _ & HR). cbn [step]. unfold give_up. rewrite HP.
    unfold drop_task. cbn [log set_wait y_pc]. destruct (y_pc (hs_sys h)) eqn:EP; try discriminate HH; cbn [option_map];
      (eexists _, [OGiveUp q]; split; [reflexivity|]; cbn [hs_mem hs_plan hs_wait hs_dead hs_sys set_pc log set_wait y_pc y_chan y_state y_net y_wait]; do 8 (split; [reflexivity|]);
       unfold trace at 1 3; cbn [set_pc log set_wait y_log]; rewrite map_app; fold (trace (hs_sys h)); cbn [map snd]; split; [reflexivity|]; split; [|exists q; auto];
       rewrite H1, <- app_assoc; cbn [app]; eapply at_cut; [exact H2|apply Forall_app; repeat constructor; exact H3|now apply up_to_more]).
  - unfold drop_task. destruct (y_pc (hs_sys h)) eqn:EP; try discriminate HH; cbn [option_map];
      (eexists _, []; split; [reflexivity|]; cbn [hs_mem hs_plan hs_wait hs_dead hs_sys set_pc y_pc y_chan y_state y_net y_wait]; do 8 (split; [reflexivity|]);
       change (trace (set_pc PIdle (hs_sys h))) with (trace (hs_sys h)); rewrite app_nil_r; split; [reflexivity|]; split; [|auto]; rewrite H1; eapply at_cut; eassumption).
Qed.
Lemma attend_all {A} (f : handler A) c m0 h : dreachable f c m0 h -> serving f (attended f m0) h.
Proof.
  revert h. apply dreach_ind; [unfold serving; cbn; repeat split; constructor|]. intros x h h' HR IH HS. destruct (drop_kept _ _ _ _ HR) as [HB _].
  pose proof (at_other f m0) as X. pose proof (at_handle f m0) as Y. destruct x as [x|m]; cbn [dstep] in HS.
  - destruct x; cbn [hstep] in HS; eauto using serve_env, serve_call, serve_return.
  - destruct (hs_dead h) eqn:ED; [unfold hdrop in HS; rewrite ED in HS; discriminate HS|]. destruct (handling (y_pc (hs_sys h))) eqn:EH.
    + destruct (cut_off f c m m0 h IH EH ED) as (h1 & l & K & K1 & K2 & K3 & K4 & K5 & _ & _ & _ & _ & K6 & _). assert (h1 = h') as -> by congruence.
      unfold serving. rewrite K5. cbn [handling]. rewrite K1. auto.
    + unfold serving in IH. rewrite EH in IH. destruct IH as (I1 & I2 & I3 & I4). unfold hdrop in HS. rewrite ED, EH, I3 in HS. unfold drop_task in HS.
      destruct (y_pc (hs_sys h)); try discriminate HS; injection HS as <-; unfold serving; cbn [hs_sys hs_mem hs_plan hs_wait hs_dead set_pc y_pc handling]; auto.
Qed.
Lemma attended_idle {A} (f : handler A) c m h : dreachable f c m h -> handling (y_pc (hs_sys h)) = false -> attended f m (trace (hs_sys h)) (hs_mem h) /\ hs_dead h = false.
Proof. intros H HH. pose proof (attend_all _ _ _ _ H) as HI. unfold serving in HI. rewrite HH in HI. tauto. Qed.
Lemma attended_running {A} (f : handler A) c m h : dreachable f c m h -> handling (y_pc (hs_sys h)) = true ->
  exists l p l2, trace (hs_sys h) = l ++ OHandle p :: l2 /\ attended f m l (hs_mem h) /\ Forall between l2 /\
  if hs_dead h then panicked (f (hs_mem h) p) l2 else made_up_to (pn_calls (f (hs_mem h) p)) l2.
Proof.
  intros H HH. pose proof (attend_all _ _ _ _ H) as HI. unfold serving in HI. rewrite HH in HI. destruct HI as (l & p & l2 & H1 & H2 & H3 & H4). exists l, p, l2. do 3 (split; [assumption|]).
  destruct (hs_dead h); [exact H4|now apply active_up_to].
Qed.

(* --- a run that is dropped and begun again takes requests, whatever the handler waited for --- *)
Definition in_run (q : pc) : bool := match q with PHandle _ => true | _ => false end.
Lemma freed {A} (f : handler A) c m0 h (m : A) : dreachable f c m0 h -> in_run (y_pc (hs_sys h)) = true -> hs_dead h = false ->
  exists h', dexec f c [DDrop m; DStep (HEnv ERun)] h = Some h' /\ selecting (hs_sys h') = true /\ hs_mem h' = m /\ hs_dead h' = false /\
  y_chan (hs_sys h') = y_chan (hs_sys h) /\ st_pool (y_state (hs_sys h')) = st_pool (y_state (hs_sys h)) /\
  (exists l, trace (hs_sys h') = trace (hs_sys h) ++ l ++ [ORun] /\ match hs_wait h with None => l = [] | Some j => exists q, nth_error (y_wait (hs_sys h)) j = Some q /\ l = [OGiveUp q] end) /\
  forall p rest, y_chan (hs_sys h) = p :: rest -> exists h2, dexec f c [DStep (HEnv EOutgoing)] h' = Some h2 /\ y_pc (hs_sys h2) = PRequest p /\ y_chan (hs_sys h2) = rest.
Proof.
  intros HR HI HD. assert (handling (y_pc (hs_sys h)) = true) as HH by (destruct (y_pc (hs_sys h)); try discriminate HI; reflexivity).
  destruct (drop_kept _ _ _ _ HR) as [HB HO]. assert (nt_connected (y_net (hs_sys h)) = true) as HN by (unfold on_line in HO; destruct (y_pc (hs_sys h)); try discriminate HI; exact HO).
  destruct (cut_off f c m m0 h (attend_all _ _ _ _ HR) HH HD) as (h1 & l & K & K1 & K2 & K3 & K4 & K5 & K6 & K7 & K8 & K9 & _ & K10).
  cbn [dexec dstep hstep]. rewrite K. unfold henv. rewrite K4. cbn [andb]. cbn [step]. rewrite K5. unfold start_run. rewrite K8, HN. cbn [option_map].
  eexists. split; [reflexivity|]. cbn [hs_sys hs_mem hs_dead again log set_net set_pc y_chan y_state selecting y_pc].
  split; [reflexivity|]. split; [exact K1|]. split; [reflexivity|]. split; [exact K6|]. split; [now rewrite K7|]. split.
  - exists l. split.
    + unfold trace at 1. cbn [again log set_net set_pc y_log]. rewrite map_app. fold (trace (hs_sys h1)). rewrite K9, <- app_assoc. reflexivity.
    + destruct (hs_wait h); [|tauto]. destruct K10 as (q & Q1 & Q2 & _). eauto.
  - intros p rest HP. cbn [andb hs_dead hs_sys of_client step again log set_net set_pc y_pc]. unfold outgoing. cbn [again log set_net set_pc y_chan]. rewrite K6, HP. cbn [option_map].
    eexists. split; [reflexivity|]. split; reflexivity.
Qed.
Lemma freed_connect {A} (f : handler A) c m0 h (m : A) : dreachable f c m0 h -> handling (y_pc (hs_sys h)) = true -> in_run (y_pc (hs_sys h)) = false -> hs_dead h = false ->
  exists h', dexec f c [DDrop m; DStep (HEnv EConnect)] h = Some h' /\ y_pc (hs_sys h') = PConnWrite /\ hs_mem h' = m /\ hs_dead h' = false /\
  y_chan (hs_sys h') = y_chan (hs_sys h) /\ y_state (hs_sys h') = y_state (hs_sys h).
Proof.
  intros HR HH HI HD. destruct (cut_off f c m m0 h (attend_all _ _ _ _ HR) HH HD) as (h1 & l & K & K1 & K2 & K3 & K4 & K5 & K6 & K7 & _).
  cbn [dexec dstep hstep]. rewrite K. unfold henv. rewrite K4. cbn [andb]. cbn [step]. rewrite K5. cbn [option_map].
  eexists. split; [reflexivity|]. cbn [hs_sys hs_mem hs_dead log set_pc y_chan y_state y_pc]. auto.
Qed.

(* --- with a new connection after every drop --- *)
Lemma opened_same s : opened s s = false.
Proof. unfold opened. now rewrite skipn_all. Qed.
Lemma prudent_careful {A} (f : handler A) c m h stale : prudent f c m h stale -> careful c (hs_sys h) stale.
Proof.
  induction 1 as [|h stale x h' H IH HS HR|h stale m' h' H IH HS HA]; [constructor| |].
  - assert (hs_sys h' = hs_sys h \/ exists e, step c e (hs_sys h) = Some (hs_sys h') /\ (stale = true -> e <> ERun)) as [-> |(e & HE & HN)].
    { destruct x as [e| |]; cbn [hstep] in HS.
      - apply henv_step in HS as (HS & _). right. exists e. split; [exact HS|]. intros E ->. now apply (HR E).
      - apply hcall_step in HS as [k HS]. right. exists (ECall k). split; [exact HS|discriminate].
      - apply hreturn_step in HS as [HS|HS]; [now left|]. right. exists EHandled. split; [exact HS|discriminate]. }
    + rewrite opened_same. now rewrite andb_true_r.
    + eapply careful_step; eassumption.
  - unfold hdrop in HS. destruct (hs_dead h); [discriminate HS|]. destruct (hs_wait h) as [j|].
    + destruct (step c (EGiveUp j) (hs_sys h)) as [s|] eqn:E; [|discriminate HS]. destruct (drop_task s) as [s'|] eqn:ED; [|discriminate HS]. injection HS as <-. cbn [hs_sys].
      eapply careful_drop; [eapply careful_step; [exact IH|exact E|discriminate]|exact ED|].
      cbn [step] in E. unfold give_up in E. destruct (pick _ _) as [[p r]|]; [|discriminate E]. injection E as <-. exact HA.
    + destruct (drop_task (hs_sys h)) as [s'|] eqn:ED; [|discriminate HS]. injection HS as <-. cbn [hs_sys]. eapply careful_drop; eassumption.
Qed.
Lemma prudent_dreachable {A} (f : handler A) c m h stale : prudent f c m h stale -> dreachable f c m h.
Proof.
  induction 1 as [|h stale x h' H [xs IH] HS HR|h stale m' h' H [xs IH] HS HA]; [now exists []| |].
  - exists (xs ++ [DStep x]). rewrite dexec_app, IH. cbn [dexec dstep]. now rewrite HS.
  - exists (xs ++ [DDrop m']). rewrite dexec_app, IH. cbn [dexec dstep]. now rewrite HS.
Qed.
Lemma prudent_once {A} (f : handler A) c m h stale i p1 p2 l1 k l2 : config_ok c -> prudent f c m h stale ->
  trace (hs_sys h) = l1 ++ OHandle p1 :: k ++ OHandle p2 :: l2 -> q2 i p1 -> q2 i p2 -> exists o, In o k /\ releases i o = true.
Proof. intros HC HP. exact (careful_once c (hs_sys h) stale i p1 p2 l1 k l2 HC (prudent_careful _ _ _ _ _ HP)). Qed.
Lemma prudent_ids {A} (f : handler A) c m h stale : config_ok c -> prudent f c m h stale -> let s := hs_sys h in
  NoDup (req_ids (y_wait s ++ y_chan s) ++ req_ids (lg_sent (now_ledger c s)) ++ lg_rel (now_ledger c s) ++ pool_of s).
Proof. intros HC HP. exact (careful_ids _ _ _ HC (prudent_careful _ _ _ _ _ HP)). Qed.
