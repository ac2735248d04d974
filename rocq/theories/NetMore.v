(* Consequences of the automaton, in terms of the log. *)
From Coq Require Import Permutation.
From Verif Require Import Base VarInt Prims Props Codes Packets BaseFacts Options Session Client System SpecSession SpecNet SpecTrace SessionFacts SystemFacts AckFacts IdFacts Cases NetFacts.

Inductive nfrom (c : config) : nstate -> list out -> nstate -> Prop :=
| nf_nil q : nfrom c q [] q
| nf_cons q o q1 l q' : nstep c q o q1 -> nfrom c q1 l q' -> nfrom c q (o :: l) q'.

Lemma nfrom_snoc c q l q1 o q' : nfrom c q l q1 -> nstep c q1 o q' -> nfrom c q (l ++ [o]) q'.
Proof. induction 1; intros HS; cbn [app]; econstructor; eauto. constructor. Qed.
Lemma nrun_from c l q : nrun c l q <-> nfrom c nstate0 l q.
Proof.
  split.
  - induction 1; [constructor|eapply nfrom_snoc; eassumption].
  - assert (forall q0 l0, nrun c l0 q0 -> nfrom c q0 l q -> nrun c (l0 ++ l) q) as HG.
    { intros q0 l0 HN HF. revert l0 HN. induction HF; intros l0 HN; [now rewrite app_nil_r|].
      replace (l0 ++ o :: l) with ((l0 ++ [o]) ++ l) by now rewrite <- app_assoc. apply IHHF. eapply nrun_snoc; eassumption. }
    intros H. apply (HG nstate0 []); [constructor|exact H].
Qed.
Lemma nfrom_app c q a b q' : nfrom c q (a ++ b) q' <-> exists q1, nfrom c q a q1 /\ nfrom c q1 b q'.
Proof.
  revert q. induction a as [|o a IH]; intros q; cbn [app].
  - split; [intros H; exists q; split; [constructor|exact H]|intros (q1 & H1 & H2); inversion H1; subst; exact H2].
  - split.
    + intros H. inversion H as [|? ? qx ? ? HS HF]; subst. apply IH in HF as (qy & H5 & H6). exists qy. split; [econstructor; eassumption|exact H6].
    + intros (q1 & H1 & H2). inversion H1; subst. econstructor; [eassumption|]. apply IH. eauto.
Qed.
Lemma nrun_split c l1 o l2 q : nrun c (l1 ++ o :: l2) q -> exists q0 q1, nrun c l1 q0 /\ nstep c q0 o q1 /\ nfrom c q1 l2 q.
Proof.
  intros H. apply nrun_from, nfrom_app in H as (q0 & H1 & H2). inversion H2 as [|? ? q1 ? ? HS HF]; subst. exists q0, q1. split; [now apply nrun_from|auto].
Qed.
Lemma nrun_led c l q : nrun c l q -> n_led q = ledger_of (cleans c) l.
Proof. induction 1; [reflexivity|]. rewrite ledger_of_snoc, <- IHnrun. destruct H0; reflexivity. Qed.
Lemma received_snoc l o : received (l ++ [o]) = in_step (received l) o.
Proof. unfold received. now rewrite fold_left_app. Qed.
Lemma nrun_in c l q : nrun c l q -> n_in q = received l.
Proof.
  induction 1; [reflexivity|]. rewrite received_snoc, <- IHnrun. destruct H0 as [HB|b f its inn HB HA].
  - cbn [n_in]. destruct o; try discriminate HB; reflexivity.
  - cbn [n_in]. destruct HA; try reflexivity. inversion H0; subst; cbn [in_step]; try reflexivity.
    + destruct p; try reflexivity. now destruct (H1 c0).
    + destruct (ca_rc a); try reflexivity. congruence.
    + now rewrite H2. + now rewrite H2.
Qed.
Lemma net_app a b : net_of (a ++ b) = net_of a ++ net_of b.
Proof. apply filter_app. Qed.
Lemma net_cons_client o l : by_client o = true -> net_of (o :: l) = net_of l.
Proof. intros H. unfold net_of. cbn [filter]. now rewrite H. Qed.
Lemma net_cons o l : by_client o = false -> net_of (o :: l) = o :: net_of l.
Proof. intros H. unfold net_of. cbn [filter]. now rewrite H. Qed.

(* the first observation of the network task in a run *)
Lemma first_net c q l q' : nfrom c q l q' ->
  (net_of l = [] /\ n_open q' = n_open q /\ n_phase q' = n_phase q /\ n_todo q' = n_todo q /\ n_in q' = n_in q) \/
  exists l1 o l2 q1, l = l1 ++ o :: l2 /\ net_of l1 = [] /\ by_client o = false /\ nfrom c q1 l2 q' /\
    exists g, nact c g (n_open q) (n_phase q) (n_todo q) (n_in q) o (n_open q1) (n_phase q1) (n_todo q1) (n_in q1).
Proof.
  induction 1 as [q|q o q1 l q' HS HF IH]; [left; auto|]. destruct HS as [HB|b f its inn HB HA].
  - destruct IH as [(E1 & E2)|(l1 & o1 & l2 & q1 & -> & E1 & E2 & E3 & g & E4)].
    + left. rewrite net_cons_client by exact HB. auto.
    + right. exists (o :: l1), o1, l2, q1. split; [reflexivity|]. rewrite net_cons_client by exact HB. eauto 10.
  - right. exists [], o, l, (NState b f its inn (ledger_step (op_clean_start (cf_opts c)) (n_led q) o)). eauto 10.
Qed.
Lemma net_split l1 o l2 : net_of l1 = [] -> by_client o = false -> net_of (l1 ++ o :: l2) = o :: net_of l2.
Proof. intros H1 H2. rewrite net_app, H1. now apply net_cons. Qed.

(* doing what must come next *)
Inductive serves (c : config) : list item -> list out -> list item -> Prop :=
| sv_nil its : serves c its [] its
| sv_cons it rest o its1 l its2 g b f inn b' f' inn' : by_client o = false ->
    nact c g b f (it :: rest) inn o b' f' its1 inn' -> serves c its1 l its2 -> serves c (it :: rest) (o :: l) its2.

(* where the pending items come from *)
Lemma serves_snoc c its l it rest o its' g b f inn b' f' inn' : serves c its l (it :: rest) -> by_client o = false ->
  nact c g b f (it :: rest) inn o b' f' its' inn' -> serves c its (l ++ [o]) its'.
Proof. intros H. remember (it :: rest) as x. induction H; intros HB HA; cbn [app]; [subst; econstructor; [exact HB|exact HA|constructor]|]. econstructor; eauto. Qed.
Lemma nact_keeps c g b f it rest inn o b' f' its' inn' : nact c g b f (it :: rest) inn o b' f' its' inn' -> its' <> [] -> b' = b /\ f' = f /\ inn' = inn.
Proof. intros H. inversion H; subst; intros HN; auto; congruence. Qed.
Lemma history c l q : nrun c l q -> n_todo q <> [] ->
  exists l0 o m q0 its, l = l0 ++ o :: m /\ nrun c l0 q0 /\ n_todo q0 = [] /\ by_client o = false /\
    nact c (n_led q0) (n_open q0) (n_phase q0) [] (n_in q0) o (n_open q) (n_phase q) its (n_in q) /\
    serves c its (net_of m) (n_todo q).
Proof.
  induction 1 as [|l q o q' HN IH HS]; [cbn; congruence|]. intros HT. destruct HS as [HB|b f its inn HB HA]; cbn [n_todo n_open n_phase n_in] in *.
  - destruct (IH HT) as (l0 & o1 & m & q0 & its & -> & H1 & H2 & H3 & H4 & H5). exists l0, o1, (m ++ [o]), q0, its.
    split; [now rewrite <- app_assoc|]. split; [exact H1|]. split; [exact H2|]. split; [exact H3|]. split; [exact H4|].
    rewrite net_app, net_cons_client by exact HB. cbn. now rewrite app_nil_r.
  - destruct (n_todo q) as [|it rest] eqn:ET.
    + exists l, o, [], q, its. rewrite ET. split; [reflexivity|]. split; [exact HN|]. split; [reflexivity|]. split; [exact HB|]. split; [exact HA|constructor].
    + destruct IH as (l0 & o1 & m & q0 & its0 & -> & H1 & H2 & H3 & H4 & H5); [discriminate|].
      destruct (nact_keeps _ _ _ _ _ _ _ _ _ _ _ _ HA HT) as (-> & -> & ->).
      exists l0, o1, (m ++ [o]), q0, its0. split; [now rewrite <- app_assoc|]. split; [exact H1|]. split; [exact H2|]. split; [exact H3|]. split; [exact H4|].
      rewrite net_app, net_cons by exact HB. eapply serves_snoc; eassumption.
Qed.

Ltac inv_serves H := inversion H; subst; clear H.
Ltac inv_act := match goal with H : nact _ _ _ _ (_ :: _) _ _ _ _ _ _ |- _ => inversion H; subst; clear H end.

Lemma serves_nil c l its : serves c [] l its -> l = [] /\ its = [].
Proof. intros H. inversion H; subst; auto. Qed.
Lemma serves_end c it l its : (match it with IEnd _ | IFail | IOpen | INoConnect | IRefused _ | IPanic => True | _ => False end) ->
  serves c [it] l its -> its = [it] /\ l = [] \/ its = [].
Proof.
  intros HI H. inversion H; subst; [auto|]. right. match goal with A : nact _ _ _ _ [it] _ _ _ _ _ _ |- _ => inversion A; subst; try contradiction end;
  match goal with S : serves _ [] _ _ |- _ => apply serves_nil in S as [_ ->]; reflexivity end.
Qed.

(* where a reply comes from *)
Lemma reply_from c its l p rest : serves c its l (IReply p :: rest) -> forall r inn rmax g, its = on_read rmax g inn r ->
  rest = [] /\ answer r = Some p /\ (forall a, r = PPubRec a -> awaited g r = true) /\
  (l = [OHandle r; OHandled] /\ its = deliver r ++ reply p \/
   l = [] /\ exists x i, r = PPublish x /\ pb_qos x = ExactlyOnce /\ pb_pkid x = Some i /\ mem i inn || pb_dup x = true).
Proof.
  assert (forall e, serves c (refuse e) l (IReply p :: rest) -> False) as HR.
  { intros e H. apply serves_end in H; [destruct H as [[H _]|H]; discriminate|exact I]. }
  assert (serves c [IPanic] l (IReply p :: rest) -> False) as HP.
  { intros H. apply serves_end in H; [destruct H as [[H _]|H]; discriminate|exact I]. }
  assert (forall r tl, (forall l', serves c tl l' (IReply p :: rest) -> l' = [] /\ tl = IReply p :: rest) -> serves c (deliver r ++ tl) l (IReply p :: rest) ->
     l = [OHandle r; OHandled] /\ tl = IReply p :: rest) as HD.
  { intros r tl HTL H. cbn [deliver app] in H. inversion H; subst; clear H. inv_act. match goal with H : serves _ (IHandled :: _) _ _ |- _ => inversion H; subst; clear H end. inv_act.
    match goal with H : serves _ _ _ _ |- _ => destruct (HTL _ H) as [-> E]; auto end. }
  assert (forall x l', serves c (reply x) l' (IReply p :: rest) -> l' = [] /\ reply x = IReply p :: rest) as H1.
  { intros x l' H. unfold reply in H. inversion H; subst; [auto|]. inv_act.
    - match goal with S : serves _ [] _ _ |- _ => apply serves_nil in S as [_ S]; discriminate end.
    - match goal with S : serves _ [IFail] _ _ |- _ => apply serves_end in S; [destruct S as [[S _]|S]; discriminate|exact I] end. }
  assert (forall l', serves c [] l' (IReply p :: rest) -> l' = [] /\ [] = IReply p :: rest) as H0.
  { intros l' H. apply serves_nil in H as [_ H]. discriminate. }
  assert (forall l', serves c [IEnd (inl IncomingDisconnect)] l' (IReply p :: rest) -> l' = [] /\ [IEnd (inl IncomingDisconnect)] = IReply p :: rest) as H2.
  { intros l' H. apply serves_end in H; [destruct H as [[H _]|H]; discriminate|exact I]. }
  intros HS r inn rmax g E. subst its.
  assert (forall i, serves c (on_ack rmax g r i) l (IReply p :: rest) -> False) as HK.
  { intros i H. unfold on_ack in H. destruct (awaited g r); [destruct (lg_clients g)|]; [|eapply HR; exact H|eapply HR; exact H].
    rewrite <- (app_nil_r (deliver r)) in H. destruct (HD r [] H0 H) as [_ X]. discriminate. }
  destruct r; cbn [on_read] in HS; try (exfalso; eapply HR; exact HS); try (exfalso; eapply HK; exact HS).
  - destruct (pb_qos p0) eqn:EQ.
    + rewrite <- (app_nil_r (deliver _)) in HS. destruct (HD _ [] H0 HS) as [_ X]. discriminate.
    + destruct (pb_pkid p0) as [i|] eqn:EI; [|exfalso; eapply HR; exact HS]. destruct (HD _ _ (H1 _) HS) as [-> X]. injection X as <- <-.
      split; [reflexivity|]. split; [cbn [answer]; now rewrite EQ, EI|]. split; [discriminate|]. left. split; [reflexivity|]. cbn [on_read]. now rewrite EQ, EI.
    + destruct (pb_pkid p0) as [i|] eqn:EI; [|exfalso; eapply HR; exact HS]. destruct (mem i inn || pb_dup p0) eqn:EM.
      * destruct (H1 _ _ HS) as [-> X]. injection X as <- <-. split; [reflexivity|]. split; [cbn [answer]; now rewrite EQ, EI|]. split; [discriminate|]. right. split; [reflexivity|]. eauto 10.
      * destruct (HD _ _ (H1 _) HS) as [-> X]. injection X as <- <-.
        split; [reflexivity|]. split; [cbn [answer]; now rewrite EQ, EI|]. split; [discriminate|]. left. split; [reflexivity|]. cbn [on_read]. now rewrite EQ, EI, EM.
  - destruct (off_table _ _); exfalso; [apply (HP HS)|eapply HK; exact HS].
  - destruct (off_table _ _) eqn:EO; [exfalso; apply (HP HS)|]. destruct (awaited g _) eqn:EA; [|exfalso; eapply HR; exact HS].
    destruct (rec_accepts (ak_rc a)) eqn:EC.
    + destruct (HD _ _ (H1 _) HS) as [-> X]. injection X as <- <-. split; [reflexivity|]. split; [cbn [answer]; now rewrite EC|]. split; [reflexivity|]. left. split; [reflexivity|]. cbn [on_read]. now rewrite EO, EA, EC.
    + destruct (HD _ _ H0 HS) as [_ X]. discriminate.
  - destruct (HD _ _ (H1 _) HS) as [-> X]. injection X as <- <-. split; [reflexivity|]. split; [reflexivity|]. split; [discriminate|]. left. split; reflexivity.
  - rewrite <- (app_nil_r (deliver _)) in HS. destruct (HD _ [] H0 HS) as [_ X]. discriminate.
  - destruct (HD _ _ H2 HS) as [_ X]. discriminate.
Qed.

(* no item of kind k ever gets into the pending items unless it was there *)
Lemma serves_incl c its l its' it : serves c its l its' -> In it its' -> In it its \/ it = IFail \/ it = INoConnect.
Proof.
  induction 1; intros HI; [auto|]. destruct (IHserves HI) as [HX|HX]; [|auto]. inversion H0; subst; try (left; now right); try contradiction.
  - destruct HX as [<-|[]]. auto.
  - destruct (cf_rt c); [left; now right|]. unfold spoil in HX. apply in_map_iff in HX as (y & E & Hy). destruct y; subst it; auto; left; now right.
Qed.
Lemma script_kinds c g b f inn o b' f' its inn' it : nact c g b f [] inn o b' f' its inn' -> In it its ->
  match it with
  | IHandle p => (o = ORead p \/ o = OAnswer p)
  | IReply _ => exists r, o = ORead r
  | IResend _ | IOpen => exists a, o = OAnswer (PConnAck a) /\ ca_rc a = RSuccess
  | _ => True
  end.
Proof.
  intros H HI. inversion H; subst; try contradiction; try (destruct HI as [<-|[]]; exact I).
  - inversion H0; subst; try (destruct HI as [<-|[]]; exact I).
    apply in_app_or in HI as [HI|HI]; [destruct HI as [<-|[<-|[]]]; auto|]. apply in_app_or in HI as [HI|[<-|[]]]; [|eauto].
    unfold resend_items in HI. apply in_map_iff in HI as (y & <- & _). eauto.
  - assert (forall r, In it (deliver r) -> match it with IHandle p => p = r | IHandled => True | _ => False end) as HD.
    { intros r [<-|[<-|[]]]; auto. }
    assert (forall q tl, In it (deliver q ++ tl) -> (In it tl -> match it with IHandle p => False | IReply _ | IEnd _ => True | _ => False end) -> q = p ->
      match it with IHandle r => (ORead p = ORead r \/ ORead p = OAnswer r) | IReply _ => exists r, ORead p = ORead r | IResend _ | IOpen => exists a, ORead p = OAnswer (PConnAck a) /\ ca_rc a = RSuccess | _ => True end) as HA.
    { intros q tl HX HT ->. apply in_app_or in HX as [HX|HX]; [apply HD in HX|apply HT in HX]; destruct it; auto; try contradiction; [subst; auto|eauto]. }
    assert (forall e, In it (refuse e) -> exists r, it = IEnd r) as HR by (intros e [<-|[]]; eauto).
    assert (forall i, In it (on_ack (receive_max (cf_opts c)) g p i) -> match it with IHandle r => (ORead p = ORead r \/ ORead p = OAnswer r) | IReply _ => exists r, ORead p = ORead r | IResend _ | IOpen => exists a, ORead p = OAnswer (PConnAck a) /\ ca_rc a = RSuccess | _ => True end) as HK.
    { intros i HX. unfold on_ack in HX. destruct (awaited g p); [destruct (lg_clients g)|]; try (destruct (HR _ HX) as [r ->]; exact I). apply (HA p []); [now rewrite app_nil_r|contradiction|reflexivity]. }
    assert (forall x, In it (reply x) -> it = IReply x) as HY by (intros x [<-|[]]; reflexivity).
    destruct p; cbn [on_read] in HI; try (destruct (HR _ HI) as [r ->]; exact I); try (eapply HK; exact HI).
    + destruct (pb_qos p) eqn:EQ; [apply (HA (PPublish p) []); [now rewrite app_nil_r|contradiction|reflexivity]|..]; (destruct (pb_pkid p); [|destruct (HR _ HI) as [r ->]; exact I]).
      * eapply HA; [exact HI| |reflexivity]. intros HX. rewrite (HY _ HX). exact I.
      * destruct (_ || _); [rewrite (HY _ HI); eauto|]. eapply HA; [exact HI| |reflexivity]. intros HX. rewrite (HY _ HX). exact I.
    + destruct (off_table _ _); [destruct HI as [<-|[]]; exact I|]. eapply HK; exact HI.
    + destruct (off_table _ _); [destruct HI as [<-|[]]; exact I|]. destruct (awaited _ _); [|destruct (HR _ HI) as [r ->]; exact I].
      eapply HA; [exact HI| |reflexivity]. intros HX. destruct (rec_accepts _); [rewrite (HY _ HX); exact I|contradiction].
    + eapply HA; [exact HI| |reflexivity]. intros HX. rewrite (HY _ HX). exact I.
    + apply (HA PPingResp []); [now rewrite app_nil_r|contradiction|reflexivity].
    + eapply HA; [exact HI| |reflexivity]. intros [<-|[]]. exact I.
  - unfold on_request in HI. destruct p; try contradiction; [destruct (pb_pkid p); [destruct (_ <? _)|]|]; try contradiction; destruct HI as [<-|[]]; exact I.
Qed.
Definition no_handle (its : list item) : Prop := forall p, ~ In (IHandle p) its.
Lemma script_shape c g b f inn o b' f' its inn' : nact c g b f [] inn o b' f' its inn' ->
  no_handle its \/ exists p tl, its = deliver p ++ tl /\ no_handle tl /\ (o = ORead p \/ o = OAnswer p).
Proof.
  assert (forall x y, no_handle x -> no_handle y -> no_handle (x ++ y)) as HAPP.
  { intros x y HX HY p HI. apply in_app_or in HI as [HI|HI]; [eapply HX|eapply HY]; exact HI. }
  assert (forall it, (forall p, it <> IHandle p) -> no_handle [it]) as HONE by (intros it HN p [->|[]]; now apply (HN p)).
  assert (no_handle []) as HNIL by (intros p []).
  intros H. inversion H; subst; try (left; first [exact HNIL|apply HONE; discriminate]).
  - inversion H0; subst; try (left; apply HONE; discriminate). right. exists (PConnAck a). eexists. split; [reflexivity|]. split; [|now right].
    apply HAPP; [|apply HONE; discriminate]. intros p HI. unfold resend_items in HI. apply in_map_iff in HI as (y & X & _). discriminate.
  - assert (forall tl, no_handle tl -> no_handle (deliver p ++ tl) \/ exists q tl0, deliver p ++ tl = deliver q ++ tl0 /\ no_handle tl0 /\ (ORead p = ORead q \/ ORead p = OAnswer q)) as HD.
    { intros tl HT. right. exists p, tl. auto. }
    assert (deliver p = deliver p ++ []) as ED by now rewrite app_nil_r.
    assert (forall e, no_handle (refuse e)) as HR by (intros; apply HONE; discriminate).
    assert (forall e, no_handle (reply e)) as HP by (intros; apply HONE; discriminate).
    assert (no_handle [IPanic]) as HC by (intros; apply HONE; discriminate).
    assert (no_handle [IEnd (inl IncomingDisconnect)]) as HE by (intros; apply HONE; discriminate).
    destruct p; cbn [on_read]; unfold on_ack; repeat match goal with
      | |- context [if ?x then _ else _] => destruct x
      | |- context [match ?x with _ => _ end] => destruct x
      end; try (left; first [apply HR|apply HP|exact HC|exact HE]); try (rewrite ED; apply HD; exact HNIL); apply HD; first [apply HP|exact HE|exact HNIL].
  - left. unfold on_request. destruct p; try exact HNIL; [destruct (pb_pkid p); [destruct (_ <? _)|]|]; try exact HNIL; apply HONE; discriminate.
Qed.
Lemma script_handle c g b f inn o b' f' its inn' p rest l : nact c g b f [] inn o b' f' its inn' -> serves c its l (IHandle p :: rest) ->
  l = [] /\ its = IHandle p :: rest /\ (o = ORead p \/ o = OAnswer p).
Proof.
  intros H HS. assert (In (IHandle p) its) as HI.
  { destruct (serves_incl _ _ _ _ (IHandle p) HS (or_introl eq_refl)) as [X|[X|X]]; [exact X|discriminate|discriminate]. }
  destruct (script_shape _ _ _ _ _ _ _ _ _ _ H) as [HN|(r & tl & -> & HN & HO)]; [now apply HN in HI|].
  inversion HS; subst.
  - split; [reflexivity|]. split; [reflexivity|exact HO].
  - exfalso. inv_act. match goal with S : serves c _ _ (IHandle p :: rest) |- _ => destruct (serves_incl _ _ _ _ (IHandle p) S (or_introl eq_refl)) as [X|[X|X]] end; try discriminate.
    destruct X as [X|X]; [discriminate|now apply HN in X].
Qed.

