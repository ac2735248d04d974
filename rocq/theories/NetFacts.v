(* Every execution is accepted by the automaton of SpecNet.v. *)
From Coq Require Import Permutation Sorted.
From Verif Require Import Base VarInt Prims Props Codes Packets BaseFacts Options Session Client System SpecSession SpecNet SessionFacts SystemFacts AckFacts IdFacts Cases.

Lemma filter_ext_mem (f : N -> bool) l i : In i (filter f l) <-> In i l /\ f i = true.
Proof. apply filter_In. Qed.

Lemma pub_in i st st' r : remove_outgoing_pub i st = (st', r) -> st_in st' = st_in st.
Proof. unfold remove_outgoing_pub. destruct (i =? 0); [intros H; now injection H as <- <-|]. destruct (vec_at _ _ _) as [[old v]|]; intros H; now injection H as <- <-. Qed.
Lemma mark_in i st st' r : make_pkid_available i st = (st', r) -> st_in st' = st_in st.
Proof. unfold make_pkid_available, mark_available. destruct (negb _); [intros H; now injection H as <- <-|]. destruct (_ <=? _); intros H; now injection H as <- <-. Qed.

Ltac use_mark H := match type of H with context [make_pkid_available ?i ?st] =>
  let st1 := fresh "st1" in let r1 := fresh "r1" in let E := fresh "E" in
  destruct (make_pkid_available i st) as [st1 r1] eqn:E; apply mark_in in E; cbn [st_in] in E; destruct r1; injection H as <- <-; exact E end.

Lemma incoming_in p st st' r : sorted (st_in st) -> handle_incoming_packet p st = (st', r) ->
  sorted (st_in st') /\ forall i, In i (st_in st') <-> In i (in_after (st_in st) p).
Proof.
  intros HS H.
  assert (st_in st' = st_in st /\ in_after (st_in st) p = st_in st -> sorted (st_in st') /\ forall i, In i (st_in st') <-> In i (in_after (st_in st) p)) as HG.
  { intros [-> ->]. split; [exact HS|tauto]. }
  destruct p; cbn [handle_incoming_packet] in H; try (injection H as <- <-; apply HG; auto; fail); cbn [in_after] in *.
  - unfold handle_incoming_publish in H. destruct (pb_qos p); [injection H as <- <-; apply HG; auto|destruct (pb_pkid p); injection H as <- <-; apply HG; auto|].
    destruct (pb_pkid p) as [i|]; [|injection H as <- <-; apply HG; auto]. unfold mbind, add_incoming_pub in H. pose proof (insert_sorted i _ HS) as H1. pose proof (fun j => insert_in i (st_in st) j) as H2.
    destruct (set_insert i (st_in st)) as [l b]. injection H as <- <-. cbn [st_in fst] in *. split; [exact H1|]. intros j. rewrite H2. cbn. intuition.
  - apply HG. split; [|reflexivity]. unfold mbind at 1, handle_incoming_puback, mbind at 1 in H. destruct (remove_outgoing_pub _ st) as [st1 [old|e|]] eqn:E; apply pub_in in E;
      [|injection H as <- <-; exact E|injection H as <- <-; exact E]. rewrite <- E. destruct old; cbn [is_some] in H; [|injection H as <- <-; reflexivity]. unfold mbind in H. use_mark H.
  - apply HG. split; [|reflexivity]. unfold mbind at 1, handle_incoming_pubrec, mbind at 1 in H. destruct (remove_outgoing_pub _ st) as [st1 [old|e|]] eqn:E; apply pub_in in E;
      [|injection H as <- <-; exact E|injection H as <- <-; exact E]. rewrite <- E. destruct old; [|injection H as <- <-; reflexivity].
    destruct (ak_rc a); unfold mbind, add_outgoing_rel, ret in H; try (injection H as <- <-; reflexivity);
      destruct (set_insert (ak_id a) (st_rel st1)); injection H as <- <-; reflexivity.
  - unfold mbind at 1, handle_incoming_pubrel, mbind at 1, remove_incoming_pub in H. pose proof (remove_nodup (ak_id a) _ (sorted_nodup _ HS)) as H1.
    destruct (set_remove (ak_id a) (st_in st)) as [l b] eqn:E. cbn [fst] in H1. injection H as <- <-. cbn [st_in]. rewrite H1. split; [|tauto].
    clear - HS. unfold sorted in *. induction HS as [|x l HL IH HF]; cbn [filter]; [constructor|]. destruct (negb _); [|exact IH]. constructor; [exact IH|].
    apply Forall_forall. intros y Hy. apply filter_In in Hy as [Hy _]. rewrite Forall_forall in HF. auto.
  - apply HG. split; [|reflexivity]. unfold mbind at 1, handle_incoming_pubcomp, mbind at 1, remove_outgoing_rel in H. destruct (set_remove _ _) as [l b]. destruct b; [|injection H as <- <-; reflexivity]. unfold mbind in H. use_mark H.
  - apply HG. split; [|reflexivity]. unfold mbind at 1, handle_incoming_suback, mbind at 1, remove_outgoing_sub in H. destruct (set_remove _ _) as [l b]. destruct b; [|injection H as <- <-; reflexivity]. unfold mbind in H. use_mark H.
  - apply HG. split; [|reflexivity]. unfold mbind at 1, handle_incoming_unsuback, mbind at 1, remove_outgoing_unsub in H. destruct (set_remove _ _) as [l b]. destruct b; [|injection H as <- <-; reflexivity]. unfold mbind in H. use_mark H.
Qed.

Definition items_of (p : packet) (r : hres (option packet * bool)) : list item :=
  match r with
  | HOk (rep, true) => deliver p ++ map IReply (opt_list rep)
  | HOk (rep, false) => map IReply (opt_list rep)
  | HErr e => refuse e
  | HPanic => [IPanic]
  end.

Lemma incoming_items c st pend g p st' r : Inv c st pend g true -> sorted (st_in st) -> handle_incoming_packet p st = (st', r) -> loop_packet p = None ->
  on_read (receive_max (cf_opts c)) g (st_in st) p = items_of p r.
Proof.
  intros HI HS H HL. destruct (is_ack p) eqn:EA.
  - destruct (bad_ack (receive_max (cf_opts c)) p) eqn:EB.
    + pose proof (inv_read _ _ _ _ _ _ _ HI H) as X. rewrite EB in X. destruct X as (-> & _). rewrite bad_ack_off in EB.
      destruct p; try discriminate EB; cbn [on_read]; rewrite EB; reflexivity.
    + pose proof (ack_result _ _ _ _ _ _ (i_R _ _ _ _ _ HI eq_refl) (Inv_fine _ _ _ _ _ HI) (i_open _ _ _ _ _ HI) (Inv_room _ _ _ _ _ HI) H EA EB) as HX.
      rewrite bad_ack_off in EB. destruct p; try discriminate EA; cbn [on_read ack_id type_of is_rec reply_to] in *; try rewrite EB; unfold on_ack.
      * destruct (awaited g _); [|destruct HX as [_ ->]; reflexivity]. rewrite HX. now destruct (lg_clients g).
      * destruct (awaited g _); [|destruct HX as [_ ->]; reflexivity]. rewrite HX, orb_true_r. now destruct (rec_accepts (ak_rc a)).
      * destruct (awaited g _); [|destruct HX as [_ ->]; reflexivity]. rewrite HX. now destruct (lg_clients g).
      * destruct (awaited g _); [|destruct HX as [_ ->]; reflexivity]. rewrite HX. now destruct (lg_clients g).
      * destruct (awaited g _); [|destruct HX as [_ ->]; reflexivity]. rewrite HX. now destruct (lg_clients g).
  - destruct p; try discriminate EA; try discriminate HL; cbn [handle_incoming_packet on_read] in *; try (injection H as <- <-; reflexivity).
    + unfold handle_incoming_publish in H. destruct (pb_qos p); [injection H as <- <-; reflexivity|destruct (pb_pkid p); injection H as <- <-; reflexivity|].
      destruct (pb_pkid p) as [i|]; [|injection H as <- <-; reflexivity]. unfold mbind, add_incoming_pub in H. pose proof (insert_flag i _ HS) as HF.
      destruct (set_insert i (st_in st)) as [l b]. cbn [snd] in HF. injection H as <- <-. subst b. unfold mem. cbn [items_of].
      destruct (existsb (N.eqb i) (st_in st)), (pb_dup p); reflexivity.
    + unfold mbind at 1, handle_incoming_pubrel, mbind at 1, remove_incoming_pub in H. destruct (set_remove _ _) as [l b]. injection H as <- <-. reflexivity.
Qed.

Lemma on_read_ext rmax g inn inn' p : (forall i, In i inn <-> In i inn') -> on_read rmax g inn p = on_read rmax g inn' p.
Proof.
  intros H. destruct p; try reflexivity. cbn [on_read]. destruct (pb_qos p); try reflexivity. destruct (pb_pkid p) as [i|]; try reflexivity.
  assert (mem i inn = mem i inn') as ->; [|reflexivity]. unfold mem. destruct (existsb (N.eqb i) inn') eqn:E.
  - apply existsb_in. apply H. now apply existsb_in.
  - apply existsb_not_in in E. apply existsb_not_in. now rewrite H.
Qed.
Lemma in_after_ext inn inn' p i : (forall i, In i inn <-> In i inn') -> (In i (in_after inn p) <-> In i (in_after inn' p)).
Proof.
  intros H. destruct p; cbn [in_after]; auto.
  - destruct (pb_qos p), (pb_pkid p); auto. cbn [In]. now rewrite H.
  - rewrite !filter_In, H. tauto.
Qed.
Lemma connack_err clean a st st' e : handle_incoming_connack clean a st = (st', HErr e) -> exists i, e = PacketIdChannelError i.
Proof.
  unfold handle_incoming_connack. destruct (ca_rc a); try discriminate. unfold mbind at 1. destruct (reset _ st) as [st1 [[ids re]|e1|]] eqn:ER; try discriminate.
  - unfold mbind at 1. destruct (make_all_available ids st1) as [st2 [u|e2|]] eqn:EM; try discriminate. intros H. injection H as <- <-.
    clear ER. revert st1 EM. induction ids as [|i ids IH]; intros st1 EM; cbn [make_all_available] in EM; [discriminate|].
    unfold mbind, make_pkid_available, mark_available in EM. destruct (negb _); [injection EM as _ <-; eauto|]. destruct (_ <=? _); [discriminate|]. eapply IH; exact EM.
  - intros H. exfalso. unfold reset in ER. destruct (_ && _); [destruct (resend _ _)|]; discriminate.
Qed.

Definition todo_ok (q : pc) (f : phase) (its : list item) : Prop :=
  match q with
  | PIdle => f = FIdle /\ its = []
  | PConnWrite => f = FOpening /\ its = []
  | PConnRead => f = FAnswer /\ its = []
  | PConnHandle re => f = FIdle /\ exists ps, re = Some ps /\ its = IHandled :: map IResend ps ++ [IOpen]
  | PConnResend ps => f = FIdle /\ its = map IResend ps ++ [IOpen]
  | PSelect _ | PRequest _ | PPing | PBye => f = FLoop /\ its = []
  | PHandle AfterPing => f = FLoop /\ its = [IHandled]
  | PHandle AfterDisconnect => f = FLoop /\ its = [IHandled; IEnd (inl IncomingDisconnect)]
  | PHandle (AfterPacket r) => f = FLoop /\ its = IHandled :: map IReply (opt_list r)
  | PReply p => f = FLoop /\ its = [IReply p]
  | PFlush ps => f = FLoop /\ exists r, ps = opt_list r /\ its = map IReply ps
  | PCrash => f = FDead /\ its = []
  end.

Record conf (c : config) (s : sys) (q : nstate) : Prop := {
  k_run : nrun c (trace s) q;
  k_led : n_led q = ledger_at c s;
  k_open : n_open q = nt_connected (y_net s);
  k_in : forall i, In i (n_in q) <-> In i (st_in (y_state s));
  k_sorted : sorted (st_in (y_state s));
  k_todo : todo_ok (y_pc s) (n_phase q) (n_todo q) }.

Lemma act1 c l b f its inn o b' f' its' inn' : nrun c l (NState b f its inn (ledger_of (cleans c) l)) -> by_client o = false ->
  nact c (ledger_of (cleans c) l) b f its inn o b' f' its' inn' ->
  nrun c (l ++ [o]) (NState b' f' its' inn' (ledger_of (cleans c) (l ++ [o]))).
Proof.
  intros HN HB HA. eapply nrun_snoc; [exact HN|]. rewrite ledger_of_snoc. apply (n_net c (NState b f its inn (ledger_of (cleans c) l)) o b' f' its' inn' HB). exact HA.
Qed.
Lemma client1 c l b f its inn o : nrun c l (NState b f its inn (ledger_of (cleans c) l)) -> by_client o = true ->
  nrun c (l ++ [o]) (NState b f its inn (ledger_of (cleans c) (l ++ [o]))).
Proof. intros HN HB. eapply nrun_snoc; [exact HN|]. rewrite ledger_of_snoc. apply (n_client c (NState b f its inn (ledger_of (cleans c) l)) o HB). Qed.
Lemma snoc2 {A} (l : list A) a b : l ++ [a; b] = (l ++ [a]) ++ [b].
Proof. now rewrite <- app_assoc. Qed.

Lemma act_tokio c l b f rest inn ps oks : cf_rt c = Tokio -> nrun c l (NState b f (map IResend ps ++ rest) inn (ledger_of (cleans c) l)) ->
  nrun c (l ++ tokio_writes FromResend ps oks) (NState b f rest inn (ledger_of (cleans c) (l ++ tokio_writes FromResend ps oks))).
Proof.
  intros HT. revert l oks. induction ps as [|p ps IH]; intros l oks HN; cbn [tokio_writes map app] in *.
  - now rewrite app_nil_r.
  - assert (forall o x, by_client o = false -> (o = OWrite FromResend p \/ o = OWriteFail FromResend p) -> nrun c (l ++ o :: tokio_writes FromResend ps x) (NState b f rest inn (ledger_of (cleans c) (l ++ o :: tokio_writes FromResend ps x)))) as HG.
    { intros o x HB HO. replace (l ++ o :: tokio_writes FromResend ps x) with ((l ++ [o]) ++ tokio_writes FromResend ps x) by now rewrite <- app_assoc.
      apply IH. eapply act1; [exact HN|exact HB|]. destruct HO as [-> | ->]; [constructor|]. pose proof (a_resend_fail c (ledger_of (cleans c) l) b f inn p (map IResend ps ++ rest)) as X. rewrite HT in X. exact X. }
    destruct oks; (destruct (write_result Tokio p _); apply HG; auto).
Qed.
Lemma act_smol c l b f rest inn ps : nrun c l (NState b f (map IResend ps ++ rest) inn (ledger_of (cleans c) l)) ->
  nrun c (l ++ map (OWrite FromResend) ps) (NState b f rest inn (ledger_of (cleans c) (l ++ map (OWrite FromResend) ps))).
Proof.
  revert l. induction ps as [|p ps IH]; intros l HN; cbn [map app] in *; [now rewrite app_nil_r|].
  replace (l ++ OWrite FromResend p :: map (OWrite FromResend) ps) with ((l ++ [OWrite FromResend p]) ++ map (OWrite FromResend) ps) by now rewrite <- app_assoc.
  apply IH. eapply act1; [exact HN|reflexivity|constructor].
Qed.
Lemma spoil_resend ps x : spoil (map IResend ps ++ [x]) = map IResend ps ++ spoil [x].
Proof. induction ps as [|p ps IH]; [reflexivity|]. cbn [map app spoil] in *. unfold spoil in *. cbn [map]. now rewrite IH. Qed.
Lemma act_smol_fail c l b f x inn ps : cf_rt c = Smol -> nrun c l (NState b f (map IResend ps ++ [x]) inn (ledger_of (cleans c) l)) ->
  nrun c (l ++ map (OWriteFail FromResend) ps) (NState b f (match ps with [] => [x] | _ => spoil [x] end) inn (ledger_of (cleans c) (l ++ map (OWriteFail FromResend) ps))).
Proof.
  intros HT. revert l x. induction ps as [|p ps IH]; intros l x HN; cbn [map app] in *; [now rewrite app_nil_r|].
  replace (l ++ OWriteFail FromResend p :: map (OWriteFail FromResend) ps) with ((l ++ [OWriteFail FromResend p]) ++ map (OWriteFail FromResend) ps) by now rewrite <- app_assoc.
  assert (spoil [x] = [match x with IOpen => INoConnect | _ => x end]) as ES by reflexivity.
  assert (nrun c ((l ++ [OWriteFail FromResend p]) ++ map (OWriteFail FromResend) ps) (NState b f (match ps with [] => spoil [x] | _ => spoil (spoil [x]) end) inn (ledger_of (cleans c) ((l ++ [OWriteFail FromResend p]) ++ map (OWriteFail FromResend) ps)))) as HX.
  { rewrite ES. apply IH. eapply act1; [exact HN|reflexivity|]. pose proof (a_resend_fail c (ledger_of (cleans c) l) b f inn p (map IResend ps ++ [x])) as X. rewrite HT, spoil_resend, ES in X. exact X. }
  assert (spoil (spoil [x]) = spoil [x]) as EE by now destruct x. rewrite EE in HX. now destruct ps.
Qed.

Lemma next_ledger c s l st w ch n q t : ledger_at c (next s l st w ch n q t) = ledger_of (cleans c) (trace s ++ l).
Proof. unfold ledger_at. now rewrite next_trace. Qed.

Lemma conf_next c s l st w ch n q t b f its inn : nrun c (trace s ++ l) (NState b f its inn (ledger_of (cleans c) (trace s ++ l))) ->
  b = nt_connected n -> (forall i, In i inn <-> In i (st_in st)) -> sorted (st_in st) -> todo_ok q f its ->
  exists x, conf c (next s l st w ch n q t) x.
Proof.
  intros H1 H2 H3 H4 H5. eexists. constructor; [rewrite next_trace; exact H1|rewrite next_ledger; reflexivity|exact H2|exact H3|exact H4|exact H5].
Qed.
Lemma outgoing_in p st st' r : handle_outgoing_packet p st = (st', r) -> st_in st' = st_in st.
Proof.
  destruct p; cbn [handle_outgoing_packet]; intros H; try (injection H as <- <-; reflexivity).
  - unfold handle_outgoing_publish in H. assert (forall i, add_outgoing_pub i p st = (st', r) -> st_in st' = st_in st) as HA.
    { intros i E. unfold add_outgoing_pub in E. destruct (i =? 0); [injection E as <- <-; reflexivity|].
      destruct (vec_at _ _ _) as [[old v]|]; [|injection E as <- <-; reflexivity]. destruct (is_some old); injection E as <- <-; reflexivity. }
    destruct (pb_qos p); [injection H as <- <-; reflexivity|..]; (destruct (pb_pkid p); [eapply HA; eassumption|injection H as <- <-; reflexivity]).
  - unfold mbind, add_outgoing_sub in H. destruct (set_insert _ _). injection H as <- <-. reflexivity.
  - unfold mbind, add_outgoing_unsub in H. destruct (set_insert _ _). injection H as <- <-. reflexivity.
Qed.
Lemma connected_end rt n : nt_connected (end_net rt n) = false.
Proof. now destruct rt. Qed.
Lemma connected_apply rt now a n : nt_connected (apply_connack rt now a n) = nt_connected n.
Proof. now destruct rt. Qed.
Lemma write_is_smol ps ok : smol_write_all ps ok = None -> forall o, smol_writes o ps ok = map (OWrite o) ps.
Proof. intros E o. unfold smol_writes. now rewrite E. Qed.
Lemma write_is_smol_fail ps ok e : smol_write_all ps ok = Some e -> forall o, smol_writes o ps ok = map (OWriteFail o) ps.
Proof. intros E o. unfold smol_writes. now rewrite E. Qed.

Lemma pending_request c s p : inv c s -> y_pc s = PRequest p -> Inv c (y_state s) (p :: y_wait s ++ y_chan s) (ledger_at c s) true.
Proof.
  intros HI HP. pose proof (v_inv _ _ HI) as HV. rewrite HP in HV. cbn [live] in HV. eapply Inv_pend; [exact HV| |auto].
  unfold pending. rewrite HP. cbn [held]. rewrite app_assoc. symmetry. apply Permutation_cons_append.
Qed.

Lemma conforms c s : config_ok c -> reachable c s -> exists q, conf c s q.
Proof.
  intros HC. revert s. apply sys_ind; [exact HC| |].
  - exists nstate0. constructor; cbn; try reflexivity; [constructor|constructor|auto].
  - intros s e l st w ch n q t HR HI [[b f its inn g] [K1 K2 K3 K4 K5 K6]] HT _.
    cbn [n_led n_open n_in n_phase n_todo] in *. subst g. unfold ledger_at in K1.
    assert (forall q, y_pc s = q -> todo_ok q f its) as K7 by (intros; subst; exact K6). clear K6.
    pose proof (v_inv _ _ HI) as HV.
    destruct HT.
    + (* tick *) eapply conf_next; [rewrite app_nil_r; exact K1|assumption|assumption|assumption|now apply K7].
    + (* refuse *) eapply conf_next; [|eassumption|eassumption|eassumption|now apply K7]. rewrite snoc2. apply client1; [|reflexivity]. now apply client1.
    + eapply conf_next; [|eassumption|eassumption|eassumption|now apply K7]. now apply client1.
    + eapply conf_next; [|eassumption|eassumption|eassumption|now apply K7]. now apply client1.
    + eapply conf_next; [|eassumption|eassumption|eassumption|now apply K7]. now apply client1.
    + eapply conf_next; [|eassumption|eassumption|eassumption|now apply K7]. now apply client1.
    + (* connect *) destruct (K7 _ H) as [-> ->]. eapply conf_next; [eapply act1; [exact K1|reflexivity|constructor]|eassumption|eassumption|eassumption|split; reflexivity].
    + (* run *) destruct (K7 _ H) as [-> ->]. rewrite H0 in K3. subst b. eapply conf_next; [eapply act1; [exact K1|reflexivity|constructor]| |eassumption|eassumption|split; reflexivity].
      destruct (cf_rt c); now rewrite <- ?H0.
    + destruct (K7 _ H) as [-> ->]. rewrite H0 in K3. subst b. eapply conf_next; [eapply act1; [exact K1|reflexivity|constructor]|now rewrite H0|eassumption|eassumption|split; reflexivity].
    + (* connect written *) destruct (K7 _ H) as [-> ->]. eapply conf_next; [eapply act1; [exact K1|reflexivity|constructor]|eassumption|eassumption|eassumption|split; reflexivity].
    + destruct (K7 _ H) as [-> ->]. eapply conf_next; [rewrite snoc2; eapply act1; [eapply act1; [exact K1|reflexivity|constructor]|reflexivity|constructor]|eassumption|eassumption|eassumption|split; reflexivity].
    + destruct (K7 _ H) as [-> ->]. eapply conf_next; [eapply act1; [exact K1|reflexivity|constructor]|eassumption|eassumption|eassumption|split; reflexivity].
    + (* refused *) destruct (K7 _ H) as [-> ->]. assert (on_answer (cleans c) (ledger_of (cleans c) (trace s)) p inn inn [IRefused e]) as HA.
      { destruct p; cbn [answer_err] in H0; try (injection H0 as <-; apply oa_other; discriminate).
        destruct (ca_rc c0) eqn:EC; try discriminate; injection H0 as <-; rewrite <- EC; eapply oa_refused; try reflexivity; rewrite EC; discriminate. }
      eapply conf_next; [rewrite snoc2; eapply act1; [eapply act1; [exact K1|reflexivity|constructor; exact HA]|reflexivity|constructor]|eassumption|eassumption|eassumption|split; reflexivity].
    + (* connack *) destruct (K7 _ H) as [-> ->]. rewrite H in HV. destruct (inv_answer _ _ _ _ _ _ _ HV H0 H1) as (_ & HN & HE).
      cbn [expects] in HE. destruct re as [ps|]; [|contradiction]. destruct HE as (rel & -> & HP & _).
      eapply conf_next with (inn := []); [rewrite snoc2; eapply act1; [eapply act1; [exact K1|reflexivity|constructor; eapply oa_ok with (rel := rel); [reflexivity|exact H0|exact HP]]|reflexivity|constructor]| | | |].
      * now rewrite connected_apply. * intros i. rewrite HN. tauto. * rewrite HN. constructor.
      * split; [reflexivity|]. eexists. split; [reflexivity|]. reflexivity.
    + destruct (K7 _ H) as [-> ->]. rewrite H in HV. destruct (inv_answer _ _ _ _ _ _ _ HV H0 H1) as (_ & HN & HE).
      destruct (connack_err _ _ _ _ _ H1) as [i ->].
      eapply conf_next with (inn := []); [rewrite snoc2; eapply act1; [eapply act1; [exact K1|reflexivity|constructor; eapply oa_no_clients with (i := i); [reflexivity|exact H0|exact HE]]|reflexivity|constructor]| | | |split; reflexivity].
      * now rewrite connected_apply. * intros j. rewrite HN. tauto. * rewrite HN. constructor.
    + rewrite H in HV. destruct (inv_answer _ _ _ _ _ _ _ HV H0 H1) as (_ & _ & []).
    + (* connack handled *) destruct (K7 _ H) as [-> (ps0 & E & ->)]. injection E as <-.
      eapply conf_next; [eapply act1; [exact K1|reflexivity|constructor]|eassumption|eassumption|eassumption|split; reflexivity].
    + destruct (K7 _ H) as [-> (ps0 & E & _)]. discriminate.
    + (* resend *) destruct (K7 _ H) as [-> ->]. eapply conf_next with (b := true); [|reflexivity|eassumption|eassumption|split; reflexivity].
      rewrite app_assoc. eapply act1; [apply act_tokio; [assumption|exact K1]|reflexivity|constructor].
    + destruct (K7 _ H) as [-> ->]. eapply conf_next; [|eassumption|eassumption|eassumption|split; reflexivity].
      rewrite app_assoc. eapply act1; [apply act_tokio; [assumption|exact K1]|reflexivity|constructor].
    + destruct (K7 _ H) as [-> ->]. eapply conf_next with (b := true); [|reflexivity|eassumption|eassumption|split; reflexivity].
      rewrite app_assoc, (write_is_smol _ _ H1). eapply act1; [apply act_smol; exact K1|reflexivity|constructor].
    + destruct (K7 _ H) as [-> ->]. eapply conf_next; [|eassumption|eassumption|eassumption|split; reflexivity].
      rewrite app_assoc, (write_is_smol_fail _ _ _ H1). eapply act1; [apply act_smol_fail; [assumption|exact K1]|reflexivity|destruct ps; constructor].
    + (* ping, disconnect *) destruct (K7 _ H) as [-> ->]. destruct p; try discriminate H0; injection H0 as <-;
      (eapply conf_next; [rewrite snoc2; eapply act1; [eapply act1; [exact K1|reflexivity|constructor]|reflexivity|constructor]|eassumption|eassumption|eassumption|split; reflexivity]).
    + (* read *) destruct (K7 _ H) as [-> ->]. rewrite H in HV. pose proof (incoming_items _ _ _ _ _ _ _ HV K5 H1 H0) as HX. cbn [items_of] in HX.
      destruct (incoming_in _ _ _ _ K5 H1) as [HS HN].
      eapply conf_next with (inn := in_after inn p); [rewrite snoc2; eapply act1; [eapply act1; [exact K1|reflexivity|constructor]|reflexivity|]|eassumption| |exact HS|].
      * rewrite (on_read_ext _ _ _ _ p K4). unfold ledger_at in HX. rewrite HX. constructor.
      * intros i. rewrite HN. now apply in_after_ext.
      * split; reflexivity.
    + destruct (K7 _ H) as [-> ->]. rewrite H in HV. pose proof (incoming_items _ _ _ _ _ _ _ HV K5 H1 H0) as HX. cbn [items_of] in HX.
      destruct (incoming_in _ _ _ _ K5 H1) as [HS HN].
      eapply conf_next with (inn := in_after inn p); [eapply act1; [exact K1|reflexivity|constructor]|eassumption| |exact HS|].
      * intros i. rewrite HN. now apply in_after_ext.
      * rewrite (on_read_ext _ _ _ _ p K4). unfold ledger_at in HX. rewrite HX. destruct (cf_rt c), reply; cbn [reply_pc todo_ok opt_list map]; try (split; reflexivity); (split; [reflexivity|]).
        -- now exists (Some p0). -- now exists None.
    + destruct (K7 _ H) as [-> ->]. rewrite H in HV. pose proof (incoming_items _ _ _ _ _ _ _ HV K5 H1 H0) as HX. cbn [items_of] in HX.
      destruct (incoming_in _ _ _ _ K5 H1) as [HS HN].
      eapply conf_next with (inn := in_after inn p) (b := false); [rewrite snoc2; eapply act1; [eapply act1; [exact K1|reflexivity|constructor]|reflexivity|]|now rewrite connected_end| |exact HS|split; reflexivity].
      * rewrite (on_read_ext _ _ _ _ p K4). unfold ledger_at in HX. rewrite HX. constructor.
      * intros i. rewrite HN. now apply in_after_ext.
    + destruct (K7 _ H) as [-> ->]. rewrite H in HV. pose proof (incoming_items _ _ _ _ _ _ _ HV K5 H1 H0) as HX. cbn [items_of] in HX.
      destruct (incoming_in _ _ _ _ K5 H1) as [HS HN].
      eapply conf_next with (inn := in_after inn p); [rewrite snoc2; eapply act1; [eapply act1; [exact K1|reflexivity|constructor]|reflexivity|]|eassumption| |exact HS|split; reflexivity].
      * rewrite (on_read_ext _ _ _ _ p K4). unfold ledger_at in HX. rewrite HX. constructor.
      * intros i. rewrite HN. now apply in_after_ext.
    + (* partial *) destruct (K7 _ H) as [-> ->]. eapply conf_next; [rewrite app_nil_r; exact K1|assumption|assumption|assumption|destruct (cf_rt c); split; reflexivity].
    + destruct (K7 _ H) as [-> ->]. eapply conf_next with (b := false); [eapply act1; [exact K1|reflexivity|constructor]|now rewrite connected_end|eassumption|eassumption|split; reflexivity].
    + destruct (K7 _ H) as [-> ->]. eapply conf_next; [rewrite app_nil_r; exact K1|assumption|assumption|assumption|split; reflexivity].
    + destruct (K7 _ H) as [-> ->]. eapply conf_next with (b := false); [eapply act1; [exact K1|reflexivity|constructor]|now rewrite connected_end|eassumption|eassumption|split; reflexivity].
    + destruct (K7 _ H) as [-> ->]. eapply conf_next; [rewrite app_nil_r; exact K1|assumption|assumption|assumption|split; reflexivity].
    + destruct (K7 _ H) as [-> ->]. eapply conf_next; [rewrite app_nil_r; exact K1|assumption|assumption|assumption|split; reflexivity].
    + (* handled *) destruct (K7 _ H) as [-> ->]. eapply conf_next; [eapply act1; [exact K1|reflexivity|constructor]|eassumption|eassumption|eassumption|].
      destruct (cf_rt c); split; try reflexivity. now exists None.
    + destruct (K7 _ H) as [-> ->]. eapply conf_next with (b := false); [rewrite snoc2; eapply act1; [eapply act1; [exact K1|reflexivity|constructor]|reflexivity|constructor]|now rewrite connected_end|eassumption|eassumption|split; reflexivity].
    + destruct (K7 _ H) as [-> ->]. eapply conf_next; [eapply act1; [exact K1|reflexivity|constructor]|eassumption|eassumption|eassumption|].
      destruct (cf_rt c), r; cbn [reply_pc todo_ok opt_list map]; try (split; reflexivity); (split; [reflexivity|]).
      -- now exists (Some p). -- now exists None.
    + (* reply *) destruct (K7 _ H) as [-> ->]. eapply conf_next; [eapply act1; [exact K1|reflexivity|constructor]|eassumption|eassumption|eassumption|split; reflexivity].
    + destruct (K7 _ H) as [-> ->]. eapply conf_next with (b := false); [rewrite snoc2; eapply act1; [eapply act1; [exact K1|reflexivity|constructor]|reflexivity|constructor]|now rewrite connected_end|eassumption|eassumption|split; reflexivity].
    + destruct (K7 _ H) as [-> (r & -> & ->)]. rewrite (write_is_smol _ _ H0). destruct r as [p|]; cbn [opt_list map] in *.
      * eapply conf_next; [eapply act1; [exact K1|reflexivity|constructor]|eassumption|eassumption|eassumption|split; reflexivity].
      * eapply conf_next; [rewrite app_nil_r; exact K1|eassumption|eassumption|eassumption|split; reflexivity].
    + destruct (K7 _ H) as [-> (r & -> & ->)]. rewrite (write_is_smol_fail _ _ _ H0). destruct r as [p|]; cbn [opt_list map app] in *.
      * eapply conf_next with (b := false); [rewrite snoc2; eapply act1; [eapply act1; [exact K1|reflexivity|constructor]|reflexivity|constructor]|reflexivity|eassumption|eassumption|split; reflexivity].
      * eapply conf_next with (b := false); [eapply act1; [exact K1|reflexivity|constructor]|reflexivity|eassumption|eassumption|split; reflexivity].
    + (* request *) destruct (K7 _ H) as [-> ->]. eapply conf_next with (b := false); [rewrite snoc2; eapply act1; [eapply act1; [exact K1|reflexivity|constructor]|reflexivity|constructor]|now rewrite connected_end|eassumption|eassumption|split; reflexivity].
    + destruct (K7 _ H) as [-> ->]. pose proof (inv_request _ _ _ _ _ _ _ (pending_request _ _ _ HI H) H1) as HX.
      pose proof (outgoing_in _ _ _ _ H1) as HN.
      eapply conf_next; [eapply act1; [exact K1|reflexivity|constructor]|eassumption|now rewrite HN|now rewrite HN|].
      split; [reflexivity|]. destruct (bad_request _ p) eqn:EB; [destruct HX; discriminate|]. destruct p; try reflexivity; [|contradiction H2; reflexivity]. cbn [on_request bad_request] in *. destruct (pb_pkid p); [|reflexivity]. now rewrite EB.
    + destruct (K7 _ H) as [-> ->]. pose proof (outgoing_in _ _ _ _ H1) as HN. destruct p; try discriminate H2.
      eapply conf_next with (b := false); [rewrite snoc2; eapply act1; [eapply act1; [exact K1|reflexivity|constructor]|reflexivity|constructor]|now rewrite connected_end|now rewrite HN|now rewrite HN|split; reflexivity].
    + pose proof (inv_request _ _ _ _ _ _ _ (pending_request _ _ _ HI H) H1) as HX. destruct (bad_request _ p); destruct HX; discriminate.
    + destruct (K7 _ H) as [-> ->]. pose proof (inv_request _ _ _ _ _ _ _ (pending_request _ _ _ HI H) H1) as HX. pose proof (outgoing_in _ _ _ _ H1) as HN.
      destruct (bad_request _ p) eqn:EB; [|destruct HX; discriminate].
      eapply conf_next; [rewrite snoc2; eapply act1; [eapply act1; [exact K1|reflexivity|constructor]|reflexivity|]|eassumption|now rewrite HN|now rewrite HN|split; reflexivity].
      unfold bad_request in EB. destruct p; try discriminate EB. cbn [on_request]. destruct (pb_pkid p); [|discriminate]. rewrite EB. constructor.
    + destruct (K7 _ H) as [-> ->]. eapply conf_next; [eapply act1; [exact K1|reflexivity|constructor]|eassumption|eassumption|eassumption|split; reflexivity].
    + destruct (K7 _ H) as [-> ->]. eapply conf_next with (b := false); [rewrite snoc2; eapply act1; [eapply act1; [exact K1|reflexivity|constructor]|reflexivity|constructor]|now rewrite connected_end|eassumption|eassumption|split; reflexivity].
    + destruct (K7 _ H) as [-> ->]. eapply conf_next with (b := false); [rewrite snoc2; eapply act1; [eapply act1; [exact K1|reflexivity|constructor]|reflexivity|constructor]|now rewrite connected_end|eassumption|eassumption|split; reflexivity].
    + destruct (K7 _ H) as [-> ->]. eapply conf_next with (b := false); [rewrite snoc2; eapply act1; [eapply act1; [exact K1|reflexivity|constructor]|reflexivity|constructor]|now rewrite connected_end|eassumption|eassumption|split; reflexivity].
Qed.
