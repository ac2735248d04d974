(* Identifiers: what enters and leaves the pool, what gets lost, when the client panics. *)
From Coq Require Import Permutation.
From Verif Require Import Base VarInt Prims Props Codes Packets BaseFacts Options Session Client System SpecSession SessionFacts SystemFacts AckFacts.

(* ---- observations at every point of the trace ------------------------------------------------- *)
Lemma everywhere_nil P : everywhere P [].
Proof. intros l1 o l2 H. now destruct l1. Qed.
Lemma app_split {A} (a b l1 : list A) x l2 : a ++ b = l1 ++ x :: l2 ->
  (exists t, a = l1 ++ x :: t) \/ (exists t, l1 = a ++ t /\ b = t ++ x :: l2).
Proof.
  revert l1. induction a as [|y a IH]; intros l1 H; cbn [app] in H.
  - right. exists l1. auto.
  - destruct l1 as [|z l1]; cbn [app] in H.
    + injection H as -> H. left. exists a. reflexivity.
    + injection H as -> H. destruct (IH _ H) as [(t & ->)|(t & -> & E)]; [left; now exists t|right; exists t; auto].
Qed.
Lemma everywhere_app P l m : everywhere P l -> (forall l1 o l2, m = l1 ++ o :: l2 -> P (l ++ l1) o) -> everywhere P (l ++ m).
Proof.
  intros H1 H2 l1 o l2 E. apply app_split in E as [(t & ->)|(t & -> & E)]; [now apply (H1 _ _ t)|now apply (H2 t o l2)].
Qed.
Lemma ledger_of_snoc clean l o : ledger_of clean (l ++ [o]) = ledger_step clean (ledger_of clean l) o.
Proof. unfold ledger_of. now rewrite fold_left_app. Qed.

(* ---- the pool ---------------------------------------------------------------------------------- *)
Lemma pool_outgoing p st st' r : handle_outgoing_packet p st = (st', r) -> st_pool st' = st_pool st.
Proof.
  destruct p; cbn [handle_outgoing_packet]; intros H; try (injection H as <- <-; reflexivity).
  - unfold handle_outgoing_publish in H. assert (forall i, add_outgoing_pub i p st = (st', r) -> st_pool st' = st_pool st) as HA.
    { intros i E. unfold add_outgoing_pub in E. destruct (i =? 0); [injection E as <- <-; reflexivity|].
      destruct (vec_at _ _ _) as [[old v]|]; [|injection E as <- <-; reflexivity]. destruct (is_some old); injection E as <- <-; reflexivity. }
    destruct (pb_qos p); [injection H as <- <-; reflexivity|..]; (destruct (pb_pkid p); [eapply HA; eassumption|injection H as <- <-; reflexivity]).
  - unfold mbind, add_outgoing_sub in H. destruct (set_insert _ _). injection H as <- <-. reflexivity.
  - unfold mbind, add_outgoing_unsub in H. destruct (set_insert _ _). injection H as <- <-. reflexivity.
Qed.

Definition from_broker (o : out) : bool := match o with ORead _ | OAnswer _ => true | _ => false end.

Lemma nodup_not_in_rest {A} (i : A) l : NoDup (i :: l) -> ~ In i l.
Proof. intros H. now inversion H. Qed.

Lemma frees_ends clean g o i : In i (frees clean g o) <-> ends clean g o i.
Proof.
  assert (forall a, (exists p, In p (lg_sent g) /\ answers a p = true /\ req_id p = Some i) <-> In i (req_ids (filter (answers a) (lg_sent g)))) as HX.
  { intros a. rewrite in_req_ids. split; intros (p & H); exists p; rewrite filter_In in *; tauto. }
  destruct o; cbn [frees ends]; try tauto.
  - destruct p as [|c|p0|a|a|a|a|s0|s|u0|u| | |d|d]; try tauto. destruct (ca_rc c); try (split; [contradiction|intros [? _]; discriminate]).
    destruct (ca_session_present c) eqn:EP; cbn [andb]; [destruct clean|]; cbn [negb]; rewrite in_req_ids.
    + split; [intros (p & H1 & H2); split; [reflexivity|]; exists p; repeat split; auto; intros [_ ?]; discriminate|].
      intros (_ & p & H1 & H2 & _). eauto.
    + split.
      * intros (p & H1 & H2). apply filter_In in H1 as [H1 H3]. split; [reflexivity|]. exists p. repeat split; auto. intros _. now destruct (is_pub p).
      * intros (_ & p & H1 & H2 & H3). exists p. rewrite filter_In, H3; auto.
    + split; [intros (p & H1 & H2); split; [reflexivity|]; exists p; repeat split; auto; intros [? _]; discriminate|].
      intros (_ & p & H1 & H2 & _). eauto.
  - assert (forall a, (forall p, answers a p = false) -> In i (req_ids (filter (answers a) (lg_sent g))) <-> False) as HF.
    { intros a HA. rewrite <- HX. split; [intros (q & _ & H & _); congruence|tauto]. }
    destruct p as [c|c|x0|a|a|a|a|s|s|u|u| | |d|d]; try (apply HF; intros q; now destruct q).
    + rewrite <- HX. split.
      * intros (q & H1 & H2 & H3). destruct q; try discriminate H2. cbn [answers] in H2. apply has_id_spec in H2. rewrite H2 in H3. injection H3 as <-. split; [reflexivity|]. eauto.
      * intros (<- & x & H1 & H2). exists (PPublish x). cbn [answers]. rewrite has_id_spec. auto.
    + tauto.
    + destruct (existsb _ _) eqn:E.
      * apply existsb_in in E. cbn. split; [intros [<-|[]]; auto|intros [E2 _]; auto].
      * apply existsb_not_in in E. cbn. split; [contradiction|]. intros [E2 H]. subst i. contradiction.
    + rewrite <- HX. split.
      * intros (q & H1 & H2 & H3). destruct q; try discriminate H2. cbn [answers] in H2. apply has_id_spec in H2. rewrite H2 in H3. injection H3 as <-. split; [reflexivity|]. exists s0. split; [exact H1|now injection H2].
      * intros (<- & x & H1 & H2). exists (PSubscribe x). cbn [answers]. rewrite has_id_spec. cbn [req_id]. rewrite H2. auto.
    + rewrite <- HX. split.
      * intros (q & H1 & H2 & H3). destruct q; try discriminate H2. cbn [answers] in H2. apply has_id_spec in H2. rewrite H2 in H3. injection H3 as <-. split; [reflexivity|]. exists u0. split; [exact H1|now injection H2].
      * intros (<- & x & H1 & H2). exists (PUnsubscribe x). cbn [answers]. rewrite has_id_spec. cbn [req_id]. rewrite H2. auto.
Qed.

Lemma bad_ack_frees c st pend g p : Inv c st pend g true -> bad_ack (receive_max (cf_opts c)) p = true -> frees (cleans c) g (ORead p) = [].
Proof.
  intros HI EB. destruct (frees (cleans c) g (ORead p)) as [|i l] eqn:EF; [reflexivity|]. exfalso.
  assert (In i (frees (cleans c) g (ORead p))) as H by (rewrite EF; now left). apply frees_ends in H.
  destruct p; try discriminate EB; [|exact H]. destruct H as (<- & x & H1 & H2). cbn [bad_ack] in EB.
  pose proof (i_R _ _ _ _ _ HI eq_refl) as HR. assert (slot (st_pub st) (ak_id a) = Some x) as HS. { apply (r_slot _ _ _ _ HR). split; [now apply in_pubs|exact H2]. }
  assert (slot (st_pub st) (ak_id a) = None); [|congruence]. unfold slot. destruct (N.eqb_spec (ak_id a) 0); [reflexivity|].
  pose proof (r_len _ _ _ _ HR). rewrite (proj2 (nth_error_None (st_pub st) (N.to_nat (ak_id a - 1)))) by (cbn [orb] in EB; lia). reflexivity.
Qed.

Inductive pool_change (c : config) (s s' : sys) : Prop :=
| pool_same : pool_of s' = pool_of s -> (forall o l, trace s' = trace s ++ o :: l -> from_broker o = false) -> pool_change c s s'
| pool_take i : pool_of s = i :: pool_of s' -> (forall o l, trace s' = trace s ++ o :: l -> from_broker o = false) -> pool_change c s s'
| pool_give o l fr : trace s' = trace s ++ o :: l -> from_broker o = true -> Permutation fr (frees (cleans c) (ledger_at c s) o) ->
    pool_of s' = (if lg_clients (ledger_at c s) then pool_of s ++ fr else pool_of s) -> pool_change c s s'.

Lemma same_head {A} (t a b : list A) x : t ++ a = t ++ x :: b -> a = x :: b.
Proof. apply app_inv_head. Qed.
Ltac same := apply pool_same; [try reflexivity|let o := fresh "o" in let l := fresh "l" in let E := fresh "E" in
  intros o l E; revert E; tr; intros E; try (apply same_head in E; injection E as <- <-; reflexivity)].

Lemma no_obs {A} (t b : list A) x : t = t ++ x :: b -> False.
Proof. intros H. apply (f_equal (@length A)) in H. rewrite app_length in H. cbn in H. lia. Qed.

Lemma smol_writes_head o l ps ok : smol_writes FromReply ps ok = o :: l \/ smol_writes FromResend ps ok = o :: l -> from_broker o = false.
Proof.
  unfold smol_writes. intros [H|H]; destruct ps; try discriminate; cbn [map] in H; injection H as <- <-; now destruct (smol_write_all _ ok).
Qed.
Lemma in_writes_broker (o : out) (m : list out) : forallb (fun x => negb (from_broker x)) m = true -> forall l, m = o :: l -> from_broker o = false.
Proof. intros H l ->. cbn in H. apply andb_true_iff in H as [H _]. now apply negb_true_iff. Qed.
Lemma tokio_writes_broker o ps oks : forallb (fun x => negb (from_broker x)) (tokio_writes o ps oks) = true.
Proof. revert oks. induction ps as [|p ps IH]; intros oks; cbn [tokio_writes]; [reflexivity|]. destruct oks as [|b oks]; (destruct (write_result Tokio p _); cbn [forallb from_broker negb andb]; apply IH). Qed.
Lemma smol_writes_broker o ps ok : forallb (fun x => negb (from_broker x)) (smol_writes o ps ok) = true.
Proof. unfold smol_writes. apply forallb_forall. intros x Hx. apply in_map_iff in Hx as (p & <- & _). now destruct (smol_write_all ps ok). Qed.

Lemma pool_step c e s s' : inv c s -> step c e s = Some s' -> pool_change c s s'.
Proof.
  intros HI H. destruct e; cbn [step] in H.
  - injection H as <-. same. now apply no_obs in E.
  - unfold begin_call, client_call in H. destruct (pl_open _) eqn:EO; [|discriminate].
    assert (forall p', (if needs_id c0 then exists i, pl_ids (st_pool (y_state s)) = i :: pl_ids p' else p' = st_pool (y_state s)) ->
      forall l, (forall o l', l = o :: l' -> from_broker o = false) -> trace s' = trace s ++ l -> pool_of s' = pl_ids p' -> pool_change c s s') as HG.
    { intros p' HP l HL HT HS. destruct (needs_id c0).
      - destruct HP as [i HP]. apply (pool_take _ _ _ i); [unfold pool_of at 1; congruence|]. intros o l' E. rewrite HT in E. apply same_head in E. eauto.
      - apply pool_same; [rewrite HS; now subst|]. intros o l' E. rewrite HT in E. apply same_head in E. eauto. }
    destruct (needs_id c0).
    + destruct (pl_ids (st_pool (y_state s))) as [|i ids] eqn:EI; [discriminate|].
      destruct (validate _ _) as [ve|]; injection H as <-.
      * eapply (HG (Pool ids 0 true)) with (l := [OBegin (build c0 i); ORefuse (build c0 i) ve]); [cbn; eauto| |now tr|reflexivity]. intros o l' E. now injection E as <- <-.
      * eapply (HG (Pool ids 0 true)) with (l := [OBegin (build c0 i)]); [cbn; eauto| |now tr|reflexivity]. intros o l' E. now injection E as <- <-.
    + destruct (validate _ _) as [ve|]; injection H as <-.
      * eapply (HG _ eq_refl) with (l := [OBegin (build c0 0); ORefuse (build c0 0) ve]); [|now tr|reflexivity]. intros o l' E. now injection E as <- <-.
      * eapply (HG _ eq_refl) with (l := [OBegin (build c0 0)]); [|now tr|reflexivity]. intros o l' E. now injection E as <- <-.
  - unfold send_call in H. destruct (pick i (y_wait s)) as [[p rest]|]; [|discriminate]. destruct (_ <? _); [|discriminate]. injection H as <-. same.
  - unfold give_up in H. destruct (pick i (y_wait s)) as [[p rest]|]; [|discriminate]. injection H as <-. same.
  - unfold drop_clients in H. destruct (y_wait s); [|discriminate]. injection H as <-. same.
  - destruct (y_pc s); try discriminate. injection H as <-. same.
  - destruct (y_pc s); try discriminate. injection H as <-. unfold start_run. destruct (nt_connected _); same.
  - destruct (y_pc s) eqn:EP; try discriminate; injection H as <-.
    + assert (forall l, frees (cleans c) (ledger_at c s) (OAnswer p) = [] -> forall s', trace s' = trace s ++ OAnswer p :: l -> pool_of s' = pool_of s -> pool_change c s s') as HG.
      { intros l HF s' HT HS. eapply pool_give with (fr := []); [exact HT|reflexivity|now rewrite HF|]. rewrite app_nil_r. now destruct (lg_clients _). }
      unfold connect_answer. destruct p; try (match goal with |- context [NotConnAck ?p] => apply (HG [OConnectEnd (Some (NotConnAck p))]); [reflexivity|now tr|reflexivity] end).
      destruct (ca_rc c0) eqn:EC; try (match goal with |- context [ConnectionRefused ?r] => apply (HG [OConnectEnd (Some (ConnectionRefused r))]); [cbn; now rewrite EC|now tr|reflexivity] end).
      clear HG. cbn [y_state set_net log].
      pose proof (v_inv _ _ HI) as HV. rewrite EP in HV. cbn [live] in HV.
      destruct (handle_incoming_connack _ _ _) as [st r] eqn:EH.
      destruct (connack_spec (cleans c) _ _ (ledger_at c s) _ _ _ (i_R _ _ _ _ _ HV eq_refl) (Inv_fine _ _ _ _ _ HV) (i_open _ _ _ _ _ HV) (Inv_room _ _ _ _ _ HV) EC EH) as (_ & _ & (fr & P1 & P2) & P3).
      assert (pl_ids (st_pool st) = (if lg_clients (ledger_at c s) then pool_of s ++ fr else pool_of s)) as PP.
      { rewrite P2. unfold pool_after, pool_of. now destruct (lg_clients _). }
      destruct r as [re|he|]; [| |contradiction];
        (eapply pool_give; [unfold end_connect; tr; reflexivity|reflexivity|exact P1|exact PP]).
    + pose proof (v_inv _ _ HI) as HV. rewrite EP in HV. cbn [live] in HV. unfold incoming.
      assert (forall st r, handle_incoming_packet p (y_state s) = (st, r) -> pool_change c s (
        let s := set_state st (log [ORead p] s) in
        match r with
        | HErr e => end_run (cf_rt c) (inr (HandlerErr e)) s
        | HPanic => crash_now s
        | HOk (reply, true) => log [OHandle p] (set_pc (PHandle (AfterPacket reply)) s)
        | HOk (reply, false) => reply_now (cf_rt c) reply s
        end)) as HG.
      { intros st r EH.
        pose proof (incoming_spec (cleans c) _ _ (ledger_at c s) _ _ _ (i_R _ _ _ _ _ HV eq_refl) (Inv_fine _ _ _ _ _ HV) (i_open _ _ _ _ _ HV) (Inv_room _ _ _ _ _ HV) EH) as HS.
        assert (pl_ids (st_pool st) = (if lg_clients (ledger_at c s) then pool_of s ++ frees (cleans c) (ledger_at c s) (ORead p) else pool_of s)) as PP.
        { cbn zeta in HS. destruct (bad_ack (receive_max (cf_opts c)) p) eqn:EB.
          - destruct HS as (_ & -> & _). rewrite (bad_ack_frees _ _ _ _ _ HV EB), app_nil_r. now destruct (lg_clients _).
          - destruct HS as (_ & _ & ->). unfold pool_after, pool_of. now destruct (lg_clients _). }
        cbn zeta. assert (exists l, trace (match r with
        | HErr e => end_run (cf_rt c) (inr (HandlerErr e)) (set_state st (log [ORead p] s))
        | HPanic => crash_now (set_state st (log [ORead p] s))
        | HOk (reply, true) => log [OHandle p] (set_pc (PHandle (AfterPacket reply)) (set_state st (log [ORead p] s)))
        | HOk (reply, false) => reply_now (cf_rt c) reply (set_state st (log [ORead p] s))
        end) = trace s ++ ORead p :: l) as (l & HT).
        { destruct r as [[reply []]|he|]; eexists; rewrite ?trace_reply_now; tr; reflexivity. }
        eapply pool_give; [exact HT|reflexivity|reflexivity|]. rewrite <- PP. unfold pool_of.
        destruct r as [[reply []]|he|]; [reflexivity| |now rewrite state_end_run|reflexivity].
        destruct (reply_now_fields (cf_rt c) reply (set_state st (log [ORead p] s))) as (-> & _). reflexivity. }
      destruct (handle_incoming_packet p (y_state s)) as [st r] eqn:EH. specialize (HG st r eq_refl).
      destruct p; try (cbn [y_state log]; rewrite EH; exact HG).
      * clear HG EH. eapply pool_give with (fr := []); [tr; reflexivity|reflexivity| |].
        -- cbn [frees]. rewrite filter_none by reflexivity. reflexivity.
        -- rewrite app_nil_r. now destruct (lg_clients _).
      * clear HG EH. eapply pool_give with (fr := []); [tr; reflexivity|reflexivity| |].
        -- cbn [frees]. rewrite filter_none by reflexivity. reflexivity.
        -- rewrite app_nil_r. now destruct (lg_clients _).
  - destruct (y_pc s); try discriminate; injection H as <-. destruct (cf_rt c); same; now apply no_obs in E.
  - destruct (y_pc s); try discriminate; injection H as <-; [same|destruct (cf_rt c); same].
  - destruct (y_pc s); try discriminate. unfold outgoing in H. destruct (y_chan s).
    + destruct (pl_open _); [discriminate|]. injection H as <-. destruct (cf_rt c); same.
    + injection H as <-. same. now apply no_obs in E.
  - destruct (y_pc s); try discriminate. unfold timer, tokio_timer, smol_timer in H.
    destruct (cf_rt c); [destruct (_ <? _); [discriminate|]|destruct (_ <? _); [discriminate|]];
      (destruct (nt_await (y_net s)); [|destruct (nt_perform (y_net s))]); try discriminate; injection H as <-; (same; now apply no_obs in E).
  - destruct (y_pc s); try discriminate; injection H as <-.
    + destruct re; same.
    + unfold handled. destruct a.
      * destruct (cf_rt c); same.
      * destruct (cf_rt c); same.
      * apply pool_same.
        -- unfold pool_of. destruct (reply_now_fields (cf_rt c) reply (log [OHandled] s)) as (-> & _). reflexivity.
        -- intros o l. rewrite trace_reply_now. tr. intros E. apply same_head in E. injection E as <- <-. reflexivity.
  - destruct (y_pc s); try discriminate; injection H as <-.
    + destruct (write_result _ _ _) as [e|]; same.
    + unfold reply_written. destruct (write_result _ _ _) as [e|]; same.
    + unfold flushed. pose proof (smol_writes_broker FromReply ps ok) as HW. destruct (smol_write_all ps ok) as [e|]; same; apply app_inv_head in E.
      * eapply in_writes_broker; [|exact E]. rewrite forallb_app, HW. reflexivity.
      * eapply in_writes_broker; [|exact E]. exact HW.
    + unfold request_written. destruct (write_result _ _ _) as [e|]; [destruct (cf_rt c); same|].
      cbn [y_state log]. destruct (handle_outgoing_packet _ _) as [st r] eqn:EH. apply pool_outgoing in EH. destruct r as [u|he|].
      * destruct (type_of p); destruct (cf_rt c); same; unfold pool_of; cbn; now rewrite EH.
      * destruct (cf_rt c); same; unfold pool_of; cbn; now rewrite EH.
      * same; unfold pool_of; cbn; now rewrite EH.
    + unfold ping_written. destruct (write_result _ _ _) as [e|]; destruct (cf_rt c); same.
    + unfold bye_written. destruct (write_result _ _ _) as [e|]; destruct (cf_rt c); same.
  - destruct (y_pc s); try discriminate; injection H as <-. unfold connect_resend. destruct (cf_rt c).
    + pose proof (tokio_writes_broker FromResend re oks) as HW. destruct ok; same; apply app_inv_head in E; (eapply in_writes_broker; [|exact E]; rewrite forallb_app, HW; reflexivity).
    + pose proof (smol_writes_broker FromResend re ok) as HW. destruct (smol_write_all re ok); same; apply app_inv_head in E; (eapply in_writes_broker; [|exact E]; rewrite forallb_app, HW; reflexivity).
Qed.

(* ---- lost identifiers -------------------------------------------------------------------------- *)
Lemma lost_step clean g o i : In i (lg_lost (ledger_step clean g o)) -> In i (lg_lost g) \/ loses clean g o i.
Proof.
  destruct g as [op se re lo cl ex er]. destruct o; cbn [ledger_step loses lg_lost]; auto.
  - destruct (is_some (req_id p)); auto.
  - rewrite in_app_iff. intros [H|H]; [auto|right]. destruct (req_id p); cbn in H; [destruct H as [->|[]]; reflexivity|contradiction].
  - rewrite in_app_iff. intros [H|H]; [auto|right]. destruct (req_id p); cbn in H; [destruct H as [->|[]]; reflexivity|contradiction].
  - destruct p; auto. destruct (ca_rc c); auto. destruct (ca_session_present c && negb clean) eqn:EP; cbn [lg_lost lg_rel lg_clients].
    + rewrite in_app_iff. intros [H|H]; [auto|]. destruct cl; [contradiction|auto].
    + rewrite !in_app_iff. intros [H|[H|H]]; [auto| |].
      * right. left. split; [exact H|]. destruct (ca_session_present c), clean; auto; discriminate.
      * destruct cl; [contradiction|auto].
  - destruct p; cbn [lg_lost lg_clients]; rewrite in_app_iff; intros [H|H]; auto; right; try (destruct cl; [contradiction|reflexivity]).
    + destruct (existsb _ se); [|contradiction]. destruct (rec_accepts (ak_rc a)); [contradiction|]. destruct H as [<-|[]]. auto.
    + destruct cl; [|reflexivity]. now rewrite andb_false_r in H.
  - destruct o; auto.
  - destruct o; auto. cbn [lg_lost]. rewrite in_app_iff. intros [H|H]; [auto|right]. destruct (req_id p); cbn in H; [destruct H as [->|[]]; reflexivity|contradiction].
Qed.
Lemma lost_cause clean l i : In i (lg_lost (ledger_of clean l)) ->
  exists l1 o l2, l = l1 ++ o :: l2 /\ loses clean (ledger_of clean l1) o i.
Proof.
  induction l as [|o l IH] using rev_ind; [contradiction|]. rewrite ledger_of_snoc. intros H. apply lost_step in H as [H|H].
  - destruct (IH H) as (l1 & o1 & l2 & -> & HL). exists l1, o1, (l2 ++ [o]). rewrite <- app_assoc. auto.
  - exists l, o, []. auto.
Qed.

(* ---- panics ------------------------------------------------------------------------------------ *)
Lemma panic_free rmax l m : ~ In OPanic m -> forall l1 o l2, m = l1 ++ o :: l2 -> panic_ok rmax (l ++ l1) o.
Proof. intros H l1 o l2 -> ->. exfalso. apply H, in_or_app. right. now left. Qed.
Lemma panic_last rmax l o0 : panics_after rmax o0 -> forall l1 o l2, [o0; OPanic] = l1 ++ o :: l2 -> panic_ok rmax (l ++ l1) o.
Proof.
  intros H l1 o l2 E EO. subst o. destruct l1 as [|a [|b [|d l1]]]; cbn in E; try (destruct l1; discriminate E); try discriminate E.
  - injection E as E1 E2. subst o0. destruct H.
  - injection E as -> E2. exists l, a. auto.
Qed.
