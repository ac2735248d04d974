(* C67: client and broker agree. *)
From Coq Require Import Permutation.
From Verif Require Import Base VarInt Prims Props Codes Packets BaseFacts Options Session Client System SpecSession SpecNet SpecWorld SessionFacts SystemFacts AckFacts IdFacts Cases NetFacts NetMore OutFacts WorldFacts WorldMore.

Ltac qcbn := cbn [n_open n_phase n_todo n_in n_led] in *.
Lemma act_cons it l : existsb act_item (it :: l) = act_item it || existsb act_item l.
Proof. reflexivity. Qed.

Lemma push_up i b p u : b = false \/ up_tok i p = false -> filter (up_tok i) u = [] -> filter (up_tok i) (push b p u) = [].
Proof. intros [->|H] HU; [exact HU|]. destruct b; cbn [push]; [|exact HU]. rewrite filter_app, HU. cbn. now rewrite H. Qed.

Lemma glob_out c q o q' w w' : glob c q w -> side (cleans c) (n_led q) o -> nstep c q o q' -> observed o w w' -> glob c q' w'.
Proof.
  intros HG HD HN HO. pose proof (sound_step (cleans c) _ _ (gl_sound _ _ _ HG) HD) as HS. unfold cleans in HS.
  destruct HN as [HB|b f its inn HB HA].
  - destruct HG as [A B C D E F G H K]. destruct o; try discriminate HB; inversion HO; subst; try contradiction; constructor; wcbn; qcbn; auto;
      intros X; destruct (F X) as (F1 & F2 & F3); (split; [exact F1|split; [exact F2|]]); inversion F3; subst; constructor; auto.
  - destruct q as [op ph td qi g]. destruct HG as [A B C D E F G H K]. qcbn. unfold active in D. qcbn. clear HB.
    destruct HA; inversion HO; subst; try contradiction; wcbn; constructor; unfold active; qcbn; wcbn; auto; rewrite ?act_cons in *; cbn [act_item orb existsb] in *; rewrite ?orb_true_r, ?orb_false_r in *; auto; try discriminate.
    all: try (intros X; destruct (E X) as (_ & X1 & _); discriminate X1).
    all: try (intros X; destruct (F X) as (_ & X1 & _); discriminate X1).
    all: try (intros X Y; apply andb_true_iff in Y as [Y _]; apply D; [now rewrite ?X|exact Y]).
    all: try (intros X i; apply push_up; [right; reflexivity|apply G; exact X]).
    all: try (intros X i; apply push_up; [|apply G; exact X]; try (right; reflexivity); left; destruct v; [|reflexivity]; exfalso;
      match type of D with ?P -> _ -> _ => assert P as DP by (first [reflexivity|exact (C eq_refl)]); destruct (D DP eq_refl); destruct X; congruence end).
    + intros _. destruct (E eq_refl) as (E1 & _ & -> & -> & ->). split; [exact E1|]. split; [reflexivity|]. destruct v; cbn [push app]; [apply wt_sent; exact HD|apply wt_none].
    + (* the answer *)
      destruct (F eq_refl) as (F1 & _ & F3). subst us. cbn [orb]. intros X Y.
      inversion F3 as [|?|a ? ? ? ? ? ? HRC|a ? ? ? ? ? ? ? ? HRC HDN HVN HS0 HS1]; subst.
      * destruct H0 as [inn E1|inn a0 E1 E2|inn a0 rel E1 E2 E3|inn a0 j E1 E2 E3]; try (exfalso; congruence). discriminate X.
      * split; [auto|]. cbn. rewrite HRC. destruct (ca_session_present a); cbn [negb]; [|apply andb_false_r]. rewrite (proj2 (HS1 eq_refl) eq_refl). reflexivity.
    + intros X. apply G. destruct X as [X|X]; [auto|]. apply andb_true_iff in X. tauto.
Qed.

Lemma shape_tok i p : request_shape p -> up_tok i p = true -> has_id i p = true.
Proof. destruct p; cbn [request_shape]; try contradiction; try discriminate. intros _ H. cbn in H. now destruct (pb_qos _). Qed.
Lemma request_todo rmax p : todo_packets (on_request rmax p) = [].
Proof. destruct p; try reflexivity. cbn. destruct (pb_pkid _); [|reflexivity]. now destruct (_ <? _). Qed.

Lemma views_out c q o q' w w' : agree c q w -> side (cleans c) (n_led q) o -> nstep c q o q' -> observed o w w' -> views q' w'.
Proof.
  intros [HG HV] HD HN HO i. destruct (HV i) as (t & HF & HW). pose proof (gl_sound _ _ _ HG) as HS.
  destruct HN as [HB|b f its inn HB HA]; qcbn.
  - destruct o; try discriminate HB; inversion HO; subst; try contradiction; wcbn; fold (cleans c).
    + now apply (view_begin _ _ _ _ _ _ _ _ _ _ t).
    + exists t. split; [now apply fo_other|]. destruct (n_led q). exact HW.
    + destruct HD. eapply view_close; try eassumption; try reflexivity. now apply shape_tok.
    + destruct HD. eapply view_close; try eassumption; try reflexivity. now apply shape_tok.
    + exists t. split; [now apply fo_other|]. destruct (n_led q) as [op se re lo cl ex er]. eapply view_keep; [exact HW|auto|auto|reflexivity|auto|now left|reflexivity|auto].
  - destruct (quiet o) eqn:EQ.
    + destruct (quiet_toks _ _ _ _ _ _ _ _ _ i EQ HG (v_one _ _ _ _ _ _ _ _ HW) HA HO) as (H1 & H2 & H3 & H4). rewrite H2, H3, H4.
      destruct (quiet_ledger (op_clean_start (cf_opts c)) (n_led q) o EQ) as (L1 & L2 & L3 & L4).
      exists t. split; [apply fo_other; [exact HF|now apply quiet_concerns]|]. eapply view_keep; [exact HW| | | | |exact H1|reflexivity|auto].
      * now rewrite L1. * now rewrite L2. * now rewrite L3. * unfold known, in_flight. now rewrite L1, L2, L3, L4.
    + fold (cleans c) in *. destruct q as [op ph td qi g]. qcbn. destruct HA; try discriminate EQ; try discriminate HB; inversion HO; subst; try contradiction; wcbn.
      * destruct (gl_answer _ _ _ HG eq_refl) as (_ & _ & F3). eapply view_answer; eassumption.
      * now apply view_read with (t := t).
      * destruct HD. eapply view_close; try eassumption; [reflexivity|now apply shape_tok|now rewrite request_todo|eauto].
      * destruct HD. eapply view_close; try eassumption; [reflexivity|now apply shape_tok|reflexivity|eauto].
Qed.
Lemma agree_out c q o q' w w' : agree c q w -> side (cleans c) (n_led q) o -> nstep c q o q' -> observed o w w' -> agree c q' w'.
Proof. intros H HD HN HO. split; [exact (glob_out _ _ _ _ _ _ (proj1 H) HD HN HO)|eapply views_out; eassumption]. Qed.

(* ---- the side conditions hold in every run of the client ------------------------------------------- *)
Definition side_at (c : config) (l : list out) (o : out) : Prop := side (cleans c) (ledger_of (cleans c) l) o.
Definition plain (o : out) : bool :=
  match o with
  | OBegin _ | ORefuse _ _ | OGiveUp _ | OWrite FromClient _ | OWriteFail FromClient _ | OWrite FromConnect _ | OWriteFail FromConnect _ => false
  | _ => true
  end.
Lemma plain_side c l o : plain o = true -> side_at c l o.
Proof. unfold side_at. destruct o as [| | | | | | | | | | | | | []| [] |]; try discriminate; intros _; exact I. Qed.
Lemma all_plain c l m : Forall (fun o => plain o = true) m -> forall l1 o l2, m = l1 ++ o :: l2 -> side_at c (l ++ l1) o.
Proof. intros H l1 o l2 ->. apply Forall_app in H as [_ H]. inversion H; subst. now apply plain_side. Qed.
Lemma one_side c l o0 m : side_at c l o0 -> Forall (fun o => plain o = true) m -> forall l1 o l2, o0 :: m = l1 ++ o :: l2 -> side_at c (l ++ l1) o.
Proof.
  intros H0 H l1 o l2 E. destruct l1 as [|a l1]; cbn [app] in E; injection E as <- E; [now rewrite app_nil_r|].
  apply plain_side. subst m. apply Forall_app in H as [_ H]. now inversion H.
Qed.
Lemma tokio_plain o ps oks : o = FromResend \/ o = FromReply -> Forall (fun o => plain o = true) (tokio_writes o ps oks).
Proof.
  intros HO. revert oks. induction ps as [|p ps IH]; intros oks; cbn [tokio_writes]; [constructor|].
  destruct oks as [|b oks]; (destruct (write_result Tokio p _); apply Forall_cons; [destruct HO; subst; reflexivity|apply IH|destruct HO; subst; reflexivity|apply IH]).
Qed.
Lemma smol_plain o ps ok : o = FromResend \/ o = FromReply -> Forall (fun o => plain o = true) (smol_writes o ps ok).
Proof. intros HO. unfold smol_writes. apply Forall_forall. intros x H. apply in_map_iff in H as (p & <- & _). destruct (smol_write_all ps ok), HO; subst; reflexivity. Qed.

Lemma call_begins c st pend g lv mx k pool' r : Inv c st pend g lv -> client_call mx k (st_pool st) = Some (pool', r) ->
  let p := match r with inl (p, _) => p | inr p => p end in side (cleans c) g (OBegin p).
Proof.
  intros HI H. unfold client_call in H.
  assert (exists i, match r with inl (p, _) => p | inr p => p end = build k i /\ (needs_id k = true -> In i (pl_ids (st_pool st)))) as (i & -> & HK).
  { destruct (needs_id k).
    - destruct (pl_ids (st_pool st)) as [|i ids]; [discriminate|]. exists i. split; [|intros _; now left]. destruct (validate _ _); injection H as _ <-; reflexivity.
    - exists 0. split; [|discriminate]. destruct (validate _ _); injection H as _ <-; reflexivity. }
  cbn [side]. split; [apply build_shape|]. intros j E. rewrite build_id in E. destruct (needs_id k); [|discriminate]. injection E as <-. specialize (HK eq_refl). split.
  - apply (Inv_range _ _ _ _ _ i HI). apply in_or_app. now left.
  - pose proof (Inv_nodup _ _ _ _ _ HI) as HN. intros X. exact (nodup_disjoint _ _ i HN HK X).
Qed.
Lemma pend_open c st pend g lv p : Inv c st pend g lv -> In p pend -> request_shape p /\ (req_id p <> None -> In p (lg_open g)).
Proof.
  intros HI HP. split; [pose proof (i_shape _ _ _ _ _ HI) as H; rewrite Forall_forall in H; auto|].
  intros HR. apply (Permutation_in _ (Permutation_sym (i_pend _ _ _ _ _ HI))). apply filter_In. split; [exact HP|now apply has_req_spec].
Qed.

Lemma side_everywhere c s : config_ok c -> reachable c s -> everywhere (side_at c) (trace s) /\ opts_of c (nt_opts (y_net s)).
Proof.
  intros HC. revert s. apply sys_ind; [exact HC|split; [apply everywhere_nil|apply opts_same]|].
  intros s e l st w ch n q t HR HI [HP HOP] HT _. split.
  - rewrite next_trace. apply everywhere_app; [exact HP|]. pose proof (v_inv _ _ HI) as HV. unfold ledger_at in HV.
    assert (forall p, In p (pending s) -> request_shape p /\ (req_id p <> None -> In p (lg_open (ledger_of (cleans c) (trace s))))) as HPE.
    { intros p. apply (pend_open _ _ _ _ _ p HV). }
    destruct HT; try (apply all_plain; repeat constructor; fail); try (apply all_plain, Forall_app; (split; [first [apply tokio_plain|apply smol_plain]; auto|repeat constructor])).
    + intros l1 o l2 E. pose proof (call_begins _ _ _ _ _ _ _ _ _ HV H0) as HB. destruct l1 as [|x l1]; cbn [app] in E; injection E as <- E; [rewrite app_nil_r; exact HB|].
      destruct l1 as [|y l1]; cbn [app] in E; [|injection E as _ E; now destruct l1]. injection E as <- E. unfold side_at. rewrite ledger_of_snoc. cbn [side].
      split; [apply HB|]. intros HQ. destruct (ledger_of _ _) as [op se re lo cl ex er]. cbn [ledger_step]. destruct (req_id p); [|congruence]. cbn. apply in_or_app. right. now left.
    + apply one_side; [|constructor]. exact (call_begins _ _ _ _ _ _ _ _ _ HV H0).
    + apply one_side; [|constructor]. apply HPE. unfold pending. apply in_or_app. left. apply pick_perm in H. apply (Permutation_in _ (Permutation_sym H)). now left.
    + apply one_side; [|constructor]. destruct HOP as [k ->]. reflexivity.
    + apply one_side; [|repeat constructor]. destruct HOP as [k ->]. reflexivity.
    + apply all_plain, smol_plain. auto.
    + apply one_side; [|repeat constructor]. apply HPE. unfold pending. rewrite H. cbn [held]. rewrite !in_app_iff. cbn. auto.
    + apply one_side; [|repeat constructor]. apply HPE. unfold pending. rewrite H. cbn [held]. rewrite !in_app_iff. cbn. auto.
    + apply one_side; [|repeat constructor]. apply HPE. unfold pending. rewrite H. cbn [held]. rewrite !in_app_iff. cbn. auto.
    + apply one_side; [|repeat constructor]. apply HPE. unfold pending. rewrite H. cbn [held]. rewrite !in_app_iff. cbn. auto.
    + apply one_side; [|repeat constructor]. apply HPE. unfold pending. rewrite H. cbn [held]. rewrite !in_app_iff. cbn. auto.
  - cbn [y_net next]. destruct HT; auto using opts_answer, opts_end; try (destruct (cf_rt c); auto using opts_answer, opts_end).
Qed.

(* ---- client and broker together -------------------------------------------------------------------- *)
Lemma agree_outs c l q w w' q' l0 : nrun c l0 q -> everywhere (side_at c) (l0 ++ l) -> nfrom c q l q' -> observes l w w' -> agree c q w -> agree c q' w'.
Proof.
  intros HN HE HF. revert w l0 HN HE. induction HF as [q|q o q1 l q' HS HF IH]; intros w l0 HN HE HO HA; inversion HO as [|? ? ? w1 ? HO1 HO2]; subst; [exact HA|].
  apply (IH w1 (l0 ++ [o])); [eapply nrun_snoc; eassumption|now rewrite <- app_assoc|exact HO2|]. eapply agree_out; [exact HA| |exact HS|exact HO1].
  rewrite (nrun_led _ _ _ HN). exact (HE l0 o l eq_refl).
Qed.
Lemma agree_init c : agree c nstate0 world0.
Proof.
  split.
  - constructor; cbn; try discriminate; try reflexivity; auto. repeat constructor. 
  - intros i. exists Free. split; [constructor|]. constructor; cbn; try contradiction; try congruence; [lia|apply Forall_nil].
Qed.
Lemma joint_reachable c fair s w : joint c fair s w -> reachable c s.
Proof. induction 1; [exists []; reflexivity|eapply reachable_step; eassumption|assumption]. Qed.
Lemma joint_agree c s w : config_ok c -> joint c true s w -> forall q, nrun c (trace s) q -> agree c q w.
Proof.
  intros HC. induction 1 as [|s w e s' l w' HJ IH HS HT HO|s w w' HJ IH HB]; intros q HQ.
  - inversion HQ; subst; [apply agree_init|]. destruct l; discriminate.
  - rewrite HT in HQ. apply nrun_from, nfrom_app in HQ as (q1 & H1 & H2). apply nrun_from in H1.
    apply (agree_outs c l q1 w w' q (trace s) H1); auto. rewrite <- HT.
    apply side_everywhere; [exact HC|]. eapply reachable_step; [eapply joint_reachable; exact HJ|exact HS].
  - eapply agree_broker; [now apply IH|exact HB].
Qed.
Lemma follows_all c s w i : config_ok c -> joint c true s w -> exists t, follows i (wd_log w) t.
Proof.
  intros HC HJ. destruct (conforms c s HC (joint_reachable _ _ _ _ HJ)) as [q HQ]. destruct (joint_agree c s w HC HJ q (k_run _ _ _ HQ)) as [_ HV].
  destruct (HV i) as (t & HF & _). eauto.
Qed.
