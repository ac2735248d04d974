(* What the automaton says about the log of every execution. *)
From Coq Require Import Permutation.
From Verif Require Import Base VarInt Prims Props Codes Packets BaseFacts Options Session Client System SpecSession SpecNet SpecTrace SessionFacts SystemFacts AckFacts IdFacts Cases NetFacts NetMore.

(* --- what precedes --- *)
Lemma act_handle c q p q' : nstep c q (OHandle p) q' -> exists rest, n_todo q = IHandle p :: rest.
Proof. intros H. inversion H as [HB|b f its inn HB HA]; subst; [discriminate HB|]. inversion HA; subst; eauto. Qed.
Lemma act_reply c q p q' : nstep c q (OWrite FromReply p) q' \/ nstep c q (OWriteFail FromReply p) q' -> exists rest, n_todo q = IReply p :: rest.
Proof. intros [H|H]; inversion H as [HB|b f its inn HB HA]; subst; try discriminate HB; inversion HA; subst; eauto. Qed.
Lemma act_resend c q p q' : nstep c q (OWrite FromResend p) q' \/ nstep c q (OWriteFail FromResend p) q' -> exists rest, n_todo q = IResend p :: rest.
Proof. intros [H|H]; inversion H as [HB|b f its inn HB HA]; subst; try discriminate HB; inversion HA; subst; eauto. Qed.

Lemma mem_spec i l : mem i l = true <-> In i l.
Proof.
  unfold mem. rewrite existsb_exists. split.
  - intros (x & H & E). apply N.eqb_eq in E. now subst.
  - intros H. exists i. split; [exact H|apply N.eqb_refl].
Qed.

Lemma read_act c g b f t inn p b' f' its inn' : nact c g b f t inn (ORead p) b' f' its inn' ->
  its = on_read (receive_max (cf_opts c)) g inn p /\ inn' = in_after inn p /\ t = [] /\ f = FLoop /\ f' = FLoop.
Proof. intros H. inversion H; subst; auto. Qed.
Lemma handle_before c l1 p l2 q : nrun c (l1 ++ OHandle p :: l2) q ->
  exists l0 m, net_of m = [] /\
    (l1 = l0 ++ ORead p :: m /\ (forall i x, p = PPublish x -> pb_qos x = ExactlyOnce -> pb_pkid x = Some i -> ~ In i (received l0) /\ pb_dup x = false) \/
     l1 = l0 ++ OAnswer p :: m /\ exists a, p = PConnAck a /\ ca_rc a = RSuccess).
Proof.
  intros H. apply nrun_split in H as (q0 & q1 & H0 & HS & _). apply act_handle in HS as [rest ET].
  destruct (history _ _ _ H0) as (l0 & o & m & qs & its & -> & HN & HT & HB & HA & HV); [rewrite ET; discriminate|]. rewrite ET in HV.
  destruct (script_handle _ _ _ _ _ _ _ _ _ _ _ _ _ HA HV) as (EM & -> & HO). exists l0, m. split; [exact EM|].
  destruct HO as [-> | ->].
  - left. split; [reflexivity|]. intros i x -> EQ EI. apply read_act in HA as (E & _). cbn [on_read] in E. rewrite EQ, EI in E. destruct (mem i (n_in qs) || pb_dup x) eqn:EM2; [discriminate E|].
    apply orb_false_iff in EM2 as [EM2 ED]. split; [|exact ED]. rewrite <- (nrun_in _ _ _ HN), <- mem_spec. congruence.
  - right. split; [reflexivity|]. inversion HA; subst. match goal with O : on_answer _ _ _ _ _ _ |- _ => inversion O; subst end. eauto.
Qed.

Lemma reply_before c l1 p l2 o q : nrun c (l1 ++ o :: l2) q -> o = OWrite FromReply p \/ o = OWriteFail FromReply p ->
  exists l0 r m, l1 = l0 ++ ORead r :: m /\ answer r = Some p /\ (forall a, r = PPubRec a -> awaited (ledger_of (cleans c) l0) r = true) /\
    (net_of m = [OHandle r; OHandled] \/
     net_of m = [] /\ exists x i, r = PPublish x /\ pb_qos x = ExactlyOnce /\ pb_pkid x = Some i /\ (In i (received l0) \/ pb_dup x = true)).
Proof.
  intros H HO. apply nrun_split in H as (q0 & q1 & H0 & HS & _). destruct (act_reply c q0 p q1) as [rest ET]; [destruct HO as [-> | ->]; auto|].
  destruct (history _ _ _ H0) as (l0 & o1 & m & qs & its & -> & HN & HT & HB & HA & HV); [rewrite ET; discriminate|]. rewrite ET in HV.
  destruct (serves_incl _ _ _ _ (IReply p) HV (or_introl eq_refl)) as [HI|[HI|HI]]; try discriminate HI.
  pose proof (script_kinds _ _ _ _ _ _ _ _ _ _ _ HA HI) as [r ->]. apply read_act in HA as (E & _). subst its.
  destruct (reply_from _ _ _ _ _ HV r (n_in qs) _ _ eq_refl) as (-> & EA & EW & HX). exists l0, r, m. split; [reflexivity|]. split; [exact EA|].
  split; [intros a E; rewrite <- (nrun_led _ _ _ HN); now apply (EW a)|].
  destruct HX as [[-> _]|(-> & x & i & -> & E1 & E2 & E3)]; [now left|]. right. split; [reflexivity|]. exists x, i. repeat split; auto.
  apply orb_prop in E3 as [E3|E3]; [left|now right]. rewrite <- (nrun_in _ _ _ HN). now apply mem_spec.
Qed.

(* no return of connect inside the script *)
Lemma serves_no_end c its l its' : serves c its l its' -> its' <> [] -> existsb is_connect_end l = false.
Proof.
  induction 1 as [its|it rest o its1 l its2 g b f inn b' f' inn' HB HA HS IH]; [reflexivity|]. intros HN. cbn [existsb]. rewrite (IH HN).
  inversion HA; subst; try reflexivity; exfalso; inversion HS; subst; congruence.
Qed.
Lemma no_end_net m : existsb is_connect_end (net_of m) = existsb is_connect_end m.
Proof.
  induction m as [|o m IH]; [reflexivity|]. destruct (by_client o) eqn:E.
  - rewrite net_cons_client by exact E. cbn [existsb]. rewrite IH. destruct o; try discriminate E; reflexivity.
  - rewrite net_cons by exact E. cbn [existsb]. now rewrite IH.
Qed.
Lemma serves_quiet c its l its' o : serves c its l its' -> In o l ->
  match o with ORead _ | OAnswer _ | OWrite FromClient _ | OWriteFail FromClient _ | OConnect | ORun => False | _ => True end.
Proof. induction 1; [intros []|]. intros [<-|HI]; [|exact (IHserves HI)]. inversion H0; subst; exact I. Qed.
Lemma resend_before c l1 p l2 o q : nrun c (l1 ++ o :: l2) q -> o = OWrite FromResend p \/ o = OWriteFail FromResend p ->
  exists l0 a m, l1 = l0 ++ OAnswer (PConnAck a) :: m /\ ca_rc a = RSuccess /\ existsb is_connect_end m = false /\
    (forall x, In x (net_of m) -> match x with ORead _ | OAnswer _ | OWrite FromClient _ | OWriteFail FromClient _ | OConnect | ORun => False | _ => True end) /\
    (In p (lg_expect (ledger_of (cleans c) (l0 ++ [OAnswer (PConnAck a)]))) \/
     exists i, p = PPubRel (okay i) /\ In i (lg_expect_rel (ledger_of (cleans c) (l0 ++ [OAnswer (PConnAck a)])))).
Proof.
  intros H HO. apply nrun_split in H as (q0 & q1 & H0 & HS & _). destruct (act_resend c q0 p q1) as [rest ET]; [destruct HO as [-> | ->]; auto|].
  destruct (history _ _ _ H0) as (l0 & o1 & m & qs & its & -> & HN & HT & HB & HA & HV); [rewrite ET; discriminate|]. rewrite ET in HV.
  pose proof (serves_no_end _ _ _ _ HV ltac:(discriminate)) as HE. rewrite no_end_net in HE.
  destruct (serves_incl _ _ _ _ (IResend p) HV (or_introl eq_refl)) as [HI|[HI|HI]]; try discriminate HI.
  pose proof (script_kinds _ _ _ _ _ _ _ _ _ _ _ HA HI) as (a & -> & EC). exists l0, a, m. split; [reflexivity|]. split; [exact EC|]. split; [exact HE|]. split; [intros x; apply (serves_quiet _ _ _ _ _ HV)|].
  inversion HA; subst. match goal with O : on_answer _ _ _ _ _ _ |- _ => inversion O; subst end; try (destruct HI as [HI|[]]; discriminate HI).
  rewrite ledger_of_snoc, <- (nrun_led _ _ _ HN). match goal with P : Permutation _ _ |- _ => rename P into HP end.
  apply in_app_or in HI as [[HI|[HI|[]]]|HI]; try discriminate HI. apply in_app_or in HI as [HI|[HI|[]]]; [|discriminate HI].
  unfold resend_items in HI. apply in_map_iff in HI as (y & E & Hy). injection E as ->. apply in_app_or in Hy as [Hy|Hy]; [now left|right].
  apply in_map_iff in Hy as (i & <- & Hi). exists i. split; [reflexivity|]. exact (Permutation_in _ HP Hi).
Qed.

(* --- what follows --- *)
Lemma next_net c q m e l2 q' : nfrom c q (m ++ e :: l2) q' -> by_client e = false ->
  (net_of m = [] /\ exists q1 g, nact c g (n_open q) (n_phase q) (n_todo q) (n_in q) e (n_open q1) (n_phase q1) (n_todo q1) (n_in q1) /\ nfrom c q1 l2 q') \/
  exists m1 o m2 q1 g, m = m1 ++ o :: m2 /\ net_of m1 = [] /\ by_client o = false /\
    nact c g (n_open q) (n_phase q) (n_todo q) (n_in q) o (n_open q1) (n_phase q1) (n_todo q1) (n_in q1) /\ nfrom c q1 (m2 ++ e :: l2) q'.
Proof.
  revert q. induction m as [|o m IH]; intros q H HE; cbn [app] in H; inversion H as [|? ? q1 ? ? HS HF]; subst.
  - left. split; [reflexivity|]. destruct HS as [HB|b f its inn HB HA]; [congruence|]. eexists (NState _ _ _ _ _), _. split; [exact HA|exact HF].
  - destruct HS as [HB|b f its inn HB HA].
    + destruct (IH _ HF HE) as [(E1 & q1 & g & H1 & H2)|(m1 & o1 & m2 & q1 & g & -> & E1 & E2 & H1 & H2)].
      * left. rewrite net_cons_client by exact HB. eauto.
      * right. exists (o :: m1), o1, m2, q1, g. rewrite net_cons_client by exact HB. auto.
    + right. exists [], o, m. eexists (NState _ _ _ _ _), _. split; [reflexivity|]. split; [reflexivity|]. split; [exact HB|]. split; [exact HA|exact HF].
Qed.

Lemma goes_nil e : goes [] e.
Proof. left. now exists e. Qed.
Lemma goes_cons o l e : goes l e -> goes (o :: l) (o :: e).
Proof. intros [[t ->]|[t ->]]; [left|right]; now exists t. Qed.
Lemma goes_done l : goes l [].
Proof. right. now exists l. Qed.

Lemma act_cons c g b f it rest inn o b' f' its inn' : nact c g b f (it :: rest) inn o b' f' its inn' ->
  inn' = inn /\
  match it with
  | IHandle p => o = OHandle p /\ its = rest /\ b' = b /\ f' = f
  | IHandled => o = OHandled /\ its = rest /\ b' = b /\ f' = f
  | IReply p => (o = OWrite FromReply p /\ its = rest \/ o = OWriteFail FromReply p /\ its = [IFail]) /\ b' = b /\ f' = f
  | IResend p => (o = OWrite FromResend p /\ its = rest \/
      o = OWriteFail FromResend p /\ its = match cf_rt c with Tokio => rest | Smol => spoil rest end) /\ b' = b /\ f' = f
  | IOpen => rest = [] /\ its = [] /\ f' = FIdle /\ (o = OConnectEnd None /\ b' = true \/ (exists e, o = OConnectEnd (Some e)) /\ b' = b)
  | INoConnect => rest = [] /\ its = [] /\ f' = FIdle /\ (exists e, o = OConnectEnd (Some e)) /\ b' = b
  | IRefused e => rest = [] /\ its = [] /\ f' = FIdle /\ o = OConnectEnd (Some e) /\ b' = b
  | IEnd r => rest = [] /\ its = [] /\ f' = FIdle /\ o = ORunEnd r /\ b' = false
  | IFail => rest = [] /\ its = [] /\ f' = FIdle /\ (exists e, o = ORunEnd (inr e)) /\ b' = false
  | IPanic => rest = [] /\ its = [] /\ f' = FDead /\ o = OPanic /\ b' = b
  end.
Proof. intros H. inversion H; subst; repeat split; eauto 6. Qed.
(* the same, for the first observation of a run *)
Lemma follow c q l q' it rest : nfrom c q l q' -> n_todo q = it :: rest ->
  net_of l = [] \/ exists o l2 q1, net_of l = o :: net_of l2 /\ nfrom c q1 l2 q' /\ exists g,
    nact c g (n_open q) (n_phase q) (it :: rest) (n_in q) o (n_open q1) (n_phase q1) (n_todo q1) (n_in q1).
Proof.
  intros H ET. destruct (first_net _ _ _ _ H) as [(E & _)|(l1 & o & l2 & q1 & -> & E1 & HB & HF & g & HA)]; [now left|right].
  rewrite ET in HA. exists o, l2, q1. rewrite (net_split _ _ _ E1 HB). eauto.
Qed.
Lemma follow_reply c q l q' r : nfrom c q l q' -> n_todo q = reply r ->
  goes (net_of l) [OWrite FromReply r] \/ exists e, goes (net_of l) [OWriteFail FromReply r; ORunEnd (inr e)].
Proof.
  intros H ET. destruct (follow _ _ _ _ _ _ H ET) as [->|(o & l2 & q1 & -> & HF & g & HA)]; [left; apply goes_nil|].
  apply act_cons in HA as (_ & [[-> HT]|[-> HT]] & _); [left; apply goes_cons, goes_done|right].
  destruct (follow _ _ _ _ _ _ HF HT) as [->|(o & l3 & q2 & -> & HF2 & g2 & HA)]; [exists Io; apply goes_cons, goes_nil|].
  apply act_cons in HA as (_ & _ & _ & _ & [e ->] & _). exists e. do 2 apply goes_cons. apply goes_done.
Qed.
Lemma follow_deliver c q l q' p tl : nfrom c q l q' -> n_todo q = deliver p ++ tl ->
  (exists t, [OHandle p; OHandled] = net_of l ++ t) \/
  exists q1 l1, net_of l = OHandle p :: OHandled :: net_of l1 /\ nfrom c q1 l1 q' /\ n_todo q1 = tl /\ n_in q1 = n_in q /\ n_phase q1 = n_phase q /\ n_open q1 = n_open q.
Proof.
  intros H ET. cbn [deliver app] in ET.
  destruct (follow _ _ _ _ _ _ H ET) as [->|(o & l2 & q1 & -> & HF & g & HA)]; [left; eexists; reflexivity|].
  apply act_cons in HA as (EI & -> & HT & EO & EF). destruct (follow _ _ _ _ _ _ HF HT) as [->|(o & l3 & q2 & -> & HF2 & g2 & HA)]; [left; eexists; reflexivity|].
  apply act_cons in HA as (EI2 & -> & HT2 & EO2 & EF2). right. exists q2, l3. repeat split; try assumption; congruence.
Qed.
Lemma follow_deliver_reply c q l q' p r : nfrom c q l q' -> n_todo q = deliver p ++ reply r ->
  goes (net_of l) [OHandle p; OHandled; OWrite FromReply r] \/ exists e, goes (net_of l) [OHandle p; OHandled; OWriteFail FromReply r; ORunEnd (inr e)].
Proof.
  intros H ET. destruct (follow_deliver _ _ _ _ _ _ H ET) as [[t E]|(q1 & l1 & E & HF & HT & _)].
  - left. left. exists (t ++ [OWrite FromReply r]). rewrite app_assoc, <- E. reflexivity.
  - rewrite E. destruct (follow_reply _ _ _ _ _ HF HT) as [HG|[e HG]]; [left|right; exists e]; now do 2 apply goes_cons.
Qed.
Lemma read_step c q p q' : nstep c q (ORead p) q' -> n_todo q' = on_read (receive_max (cf_opts c)) (n_led q) (n_in q) p.
Proof. intros H. inversion H as [HB|b f its inn HB HA]; subst; [discriminate HB|]. now apply read_act in HA as (-> & _). Qed.

(* --- received QoS 2 messages --- *)
Lemma releases_in i inn o : In i inn -> releases i o = false -> In i (in_step inn o).
Proof.
  intros HI HR. destruct o; try exact HI; cbn [in_step releases] in *.
  - destruct p; try exact HI. destruct (ca_rc c); try exact HI. discriminate.
  - destruct p; try exact HI; cbn [in_after].
    + destruct (pb_qos p), (pb_pkid p); try exact HI. now right.
    + apply filter_In. split; [exact HI|]. now rewrite HR.
Qed.
Lemma received_app a b : received (a ++ b) = fold_left in_step b (received a).
Proof. unfold received. apply fold_left_app. Qed.
Lemma received_kept i l m : In i (received l) -> unreleased i m -> In i (received (l ++ m)).
Proof.
  rewrite received_app. generalize (received l). induction m as [|o m IH]; intros inn HI HU; [exact HI|]. cbn [fold_left]. apply IH.
  - apply releases_in; [exact HI|apply HU; now left].
  - intros x Hx. apply HU. now right.
Qed.
Lemma received_read i p l : q2 i p -> In i (received (l ++ [ORead p])).
Proof. intros (x & -> & EQ & EI). rewrite received_snoc. cbn [in_step in_after]. rewrite EQ, EI. now left. Qed.
Lemma in_step_from i inn o : In i (in_step inn o) -> releases i o = false /\ In i inn \/ exists p, o = ORead p /\ q2 i p.
Proof.
  intros HI. destruct o; try (left; split; [reflexivity|exact HI]); cbn [in_step releases] in *.
  - destruct p; try (left; split; [reflexivity|exact HI]). destruct (ca_rc c); try (left; split; [reflexivity|exact HI]). destruct HI.
  - destruct p; try (left; split; [reflexivity|exact HI]); cbn [in_after] in HI.
    + destruct (pb_qos p) eqn:EQ, (pb_pkid p) eqn:EI; try (left; split; [reflexivity|exact HI]). destruct HI as [->|HI]; [|left; auto]. right. exists (PPublish p). split; [reflexivity|]. exists p. auto.
    + apply filter_In in HI as [HI E]. left. split; [|exact HI]. now destruct (ak_id a =? i).
Qed.
(* the first copy of the message in this exchange *)
Lemma received_has i l : In i (received l) -> exists l0 p m, l = l0 ++ ORead p :: m /\ q2 i p /\ ~ In i (received l0) /\ unreleased i m.
Proof.
  induction l as [|o l IH] using rev_ind; [intros []|]. rewrite received_snoc. intros HI.
  destruct (in_dec N.eq_dec i (received l)) as [HR|HR].
  - destruct (IH HR) as (l0 & p & m & -> & HQ & HN & HU). destruct (in_step_from _ _ _ HI) as [[HF _]|(p' & -> & HQ')].
    + exists l0, p, (m ++ [o]). split; [now rewrite <- app_assoc|]. repeat split; auto. intros x Hx. apply in_app_or in Hx as [Hx|[<-|[]]]; auto.
    + exists l0, p, (m ++ [ORead p']). split; [now rewrite <- app_assoc|]. repeat split; auto. intros x Hx. apply in_app_or in Hx as [Hx|[<-|[]]]; auto.
      destruct HQ' as (x & -> & _). reflexivity.
  - destruct (in_step_from _ _ _ HI) as [[_ HX]|(p' & -> & HQ')]; [contradiction|]. exists l, p', []. repeat split; auto. intros x [].
Qed.
Lemma unreleased_net i m : net_of m = [] -> unreleased i m.
Proof.
  intros HN o HI. destruct (by_client o) eqn:E; [destruct o; try discriminate E; reflexivity|]. exfalso.
  assert (In o (net_of m)) as H by (apply filter_In; split; [exact HI|now rewrite E]). rewrite HN in H. destruct H.
Qed.
