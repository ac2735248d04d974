(* C88 *)
From Coq Require Import Sorted.
From Verif Require Import Base VarInt Prims Props Codes Packets BaseFacts Options Session Client System SpecSession SpecNet SpecLabel SessionFacts NetFacts Cases.

Section Label.
Context (f : N -> N) (HF : one_to_one f).
Local Notation ri := (label_in f).
Local Notation r := (label_reply f).
Local Notation rs := (label_state f).
Local Notation R := (label_sys f).
Local Notation ro := (label_out f).
Local Notation L := (label_set f).

(* --- the set --- *)
Lemma set_in l y : In y (L l) <-> exists x, In x l /\ y = f x.
Proof.
  unfold label_set. induction l as [|x l IH]; cbn [map fold_right]; [split; [intros []|intros (x & [] & _)]|]. rewrite insert_in, IH. split.
  - intros [->|(z & Hz & ->)]; [exists x; split; [now left|reflexivity]|exists z; split; [now right|reflexivity]].
  - intros (z & [<-|Hz] & ->); [now left|right; eauto].
Qed.
Lemma set_mem l x : In (f x) (L l) <-> In x l.
Proof. rewrite set_in. split; [intros (y & Hy & E); apply HF in E; now subst|intros H; eauto]. Qed.
Lemma set_sorted l : sorted (L l).
Proof. unfold label_set. induction l; cbn [map fold_right]; [constructor|]. now apply insert_sorted. Qed.
Lemma sorted_eq (l : list N) : sorted l -> forall l', sorted l' -> (forall x, In x l <-> In x l') -> l = l'.
Proof.
  induction 1 as [|a l HS IH HA]; intros l' HS' HI.
  - destruct l' as [|b l']; [reflexivity|]. exfalso. now apply (HI b); left.
  - destruct HS' as [|b l' HS' HB]; [exfalso; now apply (HI a); left|]. rewrite Forall_forall in HA, HB.
    assert (a = b) as <-.
    { destruct (proj1 (HI a) (or_introl eq_refl)) as [<-|H1]; [reflexivity|]. destruct (proj2 (HI b) (or_introl eq_refl)) as [<-|H2]; [reflexivity|]. specialize (HA _ H2). specialize (HB _ H1). lia. }
    f_equal. apply IH; [exact HS'|]. intros x. split; intros Hx.
    + destruct (proj1 (HI x) (or_intror Hx)) as [<-|H]; [|exact H]. specialize (HA _ Hx). lia.
    + destruct (proj2 (HI x) (or_intror Hx)) as [<-|H]; [|exact H]. specialize (HB _ Hx). lia.
Qed.
Lemma mem_ex (l : list N) x : existsb (N.eqb x) l = true <-> In x l.
Proof. rewrite existsb_exists. split; [intros (y & Hy & E); apply N.eqb_eq in E; now subst|intros H; exists x; split; [exact H|apply N.eqb_refl]]. Qed.
Lemma mem_same l x : existsb (N.eqb (f x)) (L l) = existsb (N.eqb x) l.
Proof. apply Bool.eq_true_iff_eq. rewrite !mem_ex. apply set_mem. Qed.
Lemma set_add i l : sorted l -> set_insert (f i) (L l) = (L (fst (set_insert i l)), snd (set_insert i l)).
Proof.
  intros HS. rewrite (surjective_pairing (set_insert (f i) (L l))). f_equal.
  - apply sorted_eq; [apply insert_sorted, set_sorted|apply set_sorted|]. intros y. rewrite insert_in, !set_in. setoid_rewrite insert_in. split.
    + intros [->|(x & Hx & ->)]; [exists i; auto|exists x; auto].
    + intros (x & [->|Hx] & ->); [now left|right; eauto].
  - now rewrite !insert_flag, mem_same by (exact HS || apply set_sorted).
Qed.
Lemma remove_in x l y : sorted l -> (In y (fst (set_remove x l)) <-> In y l /\ y <> x).
Proof. intros HS. rewrite remove_nodup by now apply sorted_nodup. rewrite filter_In. destruct (N.eqb_spec x y); cbn; intuition congruence. Qed.
Lemma remove_sorted x l : sorted l -> sorted (fst (set_remove x l)).
Proof. intros HS. rewrite remove_nodup by now apply sorted_nodup. now apply filter_sorted. Qed.
Lemma set_del i l : sorted l -> set_remove (f i) (L l) = (L (fst (set_remove i l)), snd (set_remove i l)).
Proof.
  intros HS. rewrite (surjective_pairing (set_remove (f i) (L l))). f_equal.
  - apply sorted_eq; [apply remove_sorted, set_sorted|apply set_sorted|]. intros y. rewrite remove_in by apply set_sorted. rewrite !set_in. split.
    + intros [(x & Hx & ->) HN]. exists x. split; [apply remove_in; [exact HS|]; split; [exact Hx|congruence]|reflexivity].
    + intros (x & Hx & ->). apply remove_in in Hx as [Hx HN]; [|exact HS]. split; [eauto|]. intros E. now apply HF in E.
  - now rewrite !remove_flag, mem_same.
Qed.

(* --- errors --- *)
Lemma err_seq a b : w_err (a >>> b) = match w_err a with Some e => Some e | None => w_err b end.
Proof. unfold w_seq. destruct a as [x n [e|]]; reflexivity. Qed.
Lemma ser_lab rt p : ser_err rt (r p) = ser_err rt p.
Proof.
  destruct p; try reflexivity; destruct rt; unfold ser_err; cbn [label_reply write_packet awrite_packet]; rewrite !err_seq; try reflexivity.
Qed.
Lemma result_lab rt p ok : write_result rt (r p) ok = write_result rt p ok.
Proof. unfold write_result. now rewrite ser_lab. Qed.
Lemma result_err rt p ok : option_map (label_err f) (write_result rt p ok) = write_result rt p ok.
Proof. unfold write_result. destruct (ser_err rt p); [reflexivity|]. now destruct ok. Qed.
Lemma find_lab ps : find (fun p => is_some (ser_err Smol p)) (map r ps) = option_map r (find (fun p => is_some (ser_err Smol p)) ps).
Proof. induction ps as [|x l IH]; [reflexivity|]. cbn [map find]. rewrite ser_lab. now destruct (is_some _). Qed.
Lemma all_lab ps ok : smol_write_all (map r ps) ok = smol_write_all ps ok.
Proof. unfold smol_write_all. rewrite find_lab. destruct (find _ ps); [|reflexivity]. cbn [option_map]. now rewrite ser_lab. Qed.
Lemma all_err ps ok : option_map (label_err f) (smol_write_all ps ok) = smol_write_all ps ok.
Proof. unfold smol_write_all. destruct (find _ ps) as [p|]; [now destruct (ser_err Smol p)|now destruct ok]. Qed.

(* --- the session --- *)
Definition com {A} (h : A -> A) (m m' : M A) : Prop :=
  forall s, sorted (st_in s) -> m' (rs s) = (let (t, x) := m s in (rs t, match x with HOk a => HOk (h a) | HErr e => HErr e | HPanic => HPanic end)) /\ sorted (st_in (fst (m s))).
Definition same {A} (a : A) : A := a.
Lemma com_bind {A B} (h : A -> A) (k : B -> B) m m' (n n' : A -> M B) : com h m m' -> (forall a, com k (n a) (n' (h a))) -> com k (mbind m n) (mbind m' n').
Proof. intros H1 H2 s HS. unfold mbind. destruct (H1 s HS) as [-> H]. destruct (m s) as [t [a|e|]]; [apply H2; exact H|split; [reflexivity|exact H]|split; [reflexivity|exact H]]. Qed.
Lemma com_ret {A} (h : A -> A) a b : b = h a -> com h (ret a) (ret b).
Proof. intros -> s HS. split; [reflexivity|exact HS]. Qed.
Lemma com_fail {A} (h : A -> A) e : com h (fail e) (fail e).
Proof. intros s HS. split; [reflexivity|exact HS]. Qed.
Lemma com_panic {A} (h : A -> A) : com h panic panic.
Proof. intros s HS. split; [reflexivity|exact HS]. Qed.
Ltac fields := cbn [label_state st_pool st_sub st_unsub st_pub st_order st_rel st_in].
Lemma com_mark i : com same (mark_available i) (mark_available i).
Proof. intros s HS. unfold mark_available. fields. destruct (negb _); [now split|]. destruct (_ <=? _); now split. Qed.
Lemma com_in_add i : com same (add_incoming_pub i) (add_incoming_pub (f i)).
Proof. intros s HS. unfold add_incoming_pub. fields. rewrite set_add by exact HS. pose proof (insert_sorted i _ HS). now destruct (set_insert i _). Qed.
Lemma com_in_remove i : com same (remove_incoming_pub i) (remove_incoming_pub (f i)).
Proof. intros s HS. unfold remove_incoming_pub. fields. rewrite set_del by exact HS. pose proof (remove_sorted i _ HS). now destruct (set_remove i _). Qed.
Lemma com_rel_add i : com same (add_outgoing_rel i) (add_outgoing_rel i).
Proof. intros s HS. unfold add_outgoing_rel. fields. now destruct (set_insert i _). Qed.
Lemma com_rel_remove i : com same (remove_outgoing_rel i) (remove_outgoing_rel i).
Proof. intros s HS. unfold remove_outgoing_rel. fields. now destruct (set_remove i _). Qed.
Lemma com_sub_add i : com same (add_outgoing_sub i) (add_outgoing_sub i).
Proof. intros s HS. unfold add_outgoing_sub. fields. now destruct (set_insert i _). Qed.
Lemma com_sub_remove i : com same (remove_outgoing_sub i) (remove_outgoing_sub i).
Proof. intros s HS. unfold remove_outgoing_sub. fields. now destruct (set_remove i _). Qed.
Lemma com_unsub_add i : com same (add_outgoing_unsub i) (add_outgoing_unsub i).
Proof. intros s HS. unfold add_outgoing_unsub. fields. now destruct (set_insert i _). Qed.
Lemma com_unsub_remove i : com same (remove_outgoing_unsub i) (remove_outgoing_unsub i).
Proof. intros s HS. unfold remove_outgoing_unsub. fields. now destruct (set_remove i _). Qed.
Lemma com_pub_add i p : com same (add_outgoing_pub i p) (add_outgoing_pub i p).
Proof. intros s HS. unfold add_outgoing_pub. destruct (i =? 0); [now split|]. fields. destruct (vec_at _ _ (st_pub s)) as [[old v]|]; [|now split]. now destruct old. Qed.
Lemma com_pub_remove i : com same (remove_outgoing_pub i) (remove_outgoing_pub i).
Proof. intros s HS. unfold remove_outgoing_pub. fields. destruct (i =? 0); [now split|]. destruct (vec_at _ _ (st_pub s)) as [[old v]|]; now split. Qed.
Lemma com_reset b : com same (reset b) (reset b).
Proof.
  intros s HS. unfold reset. fields. destruct b; [|split; [reflexivity|constructor]]. destruct (resend _ _); [split; [reflexivity|constructor]|now split].
Qed.
Lemma com_ack (m m' : M (option packet)) : com (option_map r) m m' -> com (fun x => (option_map r (fst x), snd x)) (do x <- m; ret (x, true)) (do x <- m'; ret (x, true)).
Proof. intros H. eapply com_bind; [exact H|]. intros a. now apply com_ret. Qed.
Lemma com_release b i t : com (option_map r) (if b : bool then do _ <- make_pkid_available i; ret None else fail (Unsolicited i t)) (if b : bool then do _ <- make_pkid_available i; ret None else fail (Unsolicited i t)).
Proof. destruct b; [|apply com_fail]. eapply com_bind; [apply com_mark|]. intros. now apply com_ret. Qed.
Lemma com_incoming p : com (fun x => (option_map r (fst x), snd x)) (handle_incoming_packet p) (handle_incoming_packet (ri p)).
Proof.
  destruct p; cbn [label_in handle_incoming_packet]; try apply com_fail.
  - unfold handle_incoming_publish. cbn [pb_qos pb_pkid pb_dup]. destruct (pb_qos p); [now apply com_ret|destruct (pb_pkid p); [now apply com_ret|apply com_fail]|].
    destruct (pb_pkid p); [|apply com_fail]. eapply com_bind; [apply com_in_add|]. intros b. now apply com_ret.
  - apply com_ack. unfold handle_incoming_puback. eapply com_bind; [apply com_pub_remove|]. intros old. apply com_release.
  - apply com_ack. unfold handle_incoming_pubrec. eapply com_bind; [apply com_pub_remove|]. intros [old|]; [|apply com_fail]. cbn [same].
    assert (com (option_map r) (do _ <- add_outgoing_rel (ak_id a); ret (Some (PPubRel (plain_ack (ak_id a))))) (do _ <- add_outgoing_rel (ak_id a); ret (Some (PPubRel (plain_ack (ak_id a)))))) as X
      by (eapply com_bind; [apply com_rel_add|]; intros; now apply com_ret).
    destruct (ak_rc a); first [exact X|now apply com_ret].
  - apply com_ack. eapply com_bind; [apply com_in_remove|]. intros. now apply com_ret.
  - apply com_ack. eapply com_bind; [apply com_rel_remove|]. intros b. apply com_release.
  - apply com_ack. eapply com_bind; [apply com_sub_remove|]. intros b. apply com_release.
  - apply com_ack. eapply com_bind; [apply com_unsub_remove|]. intros b. apply com_release.
Qed.
Lemma com_all ids : com same (make_all_available ids) (make_all_available ids).
Proof. induction ids as [|i ids IH]; cbn [make_all_available]; [now apply com_ret|]. eapply com_bind; [apply com_mark|]. intros. exact IH. Qed.
Lemma com_connack b c : com same (handle_incoming_connack b c) (handle_incoming_connack b c).
Proof.
  unfold handle_incoming_connack. destruct (ca_rc c); try (now apply com_ret). eapply com_bind; [apply com_reset|]. intros [ids re].
  eapply com_bind; [apply com_all|]. intros. now apply com_ret.
Qed.
Lemma com_outgoing p : com same (handle_outgoing_packet p) (handle_outgoing_packet p).
Proof.
  destruct p; cbn [handle_outgoing_packet]; try (now apply com_ret).
  - unfold handle_outgoing_publish. destruct (pb_qos p); [now apply com_ret| |]; (destruct (pb_pkid p); [apply com_pub_add|apply com_panic]).
  - eapply com_bind; [apply com_sub_add|]. intros. now apply com_ret.
  - eapply com_bind; [apply com_unsub_add|]. intros. now apply com_ret.
Qed.

(* --- the client --- *)
Lemma log_lab l s : log (map ro l) (R s) = R (log l s).
Proof. unfold log, label_sys. cbn. f_equal. rewrite map_app, !map_map. reflexivity. Qed.
Lemma log_lab1 o o' s : ro o = o' -> log [o'] (R s) = R (log [o] s).
Proof. intros <-. apply (log_lab [o] s). Qed.
Lemma log_fix l s : map ro l = l -> log l (R s) = R (log l s).
Proof. intros H. rewrite <- log_lab. now rewrite H. Qed.
Lemma end_run_lab rt x s : end_run rt (match x with inr e => inr (label_err f e) | inl a => inl a end) (R s) = R (end_run rt x s).
Proof. unfold end_run. rewrite <- log_lab. destruct rt, x; reflexivity. Qed.
Lemma end_run_l rt a s : end_run rt (inl a) (R s) = R (end_run rt (inl a) s).
Proof. exact (end_run_lab rt (inl a) s). Qed.
Lemma end_run_r rt e s : label_err f e = e -> end_run rt (inr e) (R s) = R (end_run rt (inr e) s).
Proof. intros H. rewrite <- (end_run_lab rt (inr e) s), H. reflexivity. Qed.
Lemma end_connect_lab x s : end_connect (option_map (label_err f) x) (R s) = R (end_connect x s).
Proof. unfold end_connect. rewrite <- log_lab. destruct x; reflexivity. Qed.
Lemma end_connect_r e s : label_err f e = e -> end_connect (Some e) (R s) = R (end_connect (Some e) s).
Proof. intros H. rewrite <- (end_connect_lab (Some e) s). cbn [option_map]. now rewrite H. Qed.
Lemma crash_lab s : crash_now (R s) = R (crash_now s).
Proof. unfold crash_now. rewrite <- log_lab. reflexivity. Qed.
Lemma push_lab p s : smol_push (r p) (R s) = R (smol_push p s).
Proof. unfold smol_push, label_sys, label_net, set_net, set_buf. cbn. now rewrite map_app. Qed.
Lemma reply_lab rt x s : reply_now rt (option_map r x) (R s) = R (reply_now rt x s).
Proof. destruct rt, x; try reflexivity. cbn [reply_now option_map]. now rewrite push_lab. Qed.
Lemma connected_lab s : connected (R s) = R (connected s).
Proof. unfold connected. now rewrite <- (end_connect_lab None). Qed.
Lemma connected_last s : connected (set_net (set_last (y_now (R s)) (y_net (R s))) (R s)) = R (connected (set_net (set_last (y_now s) (y_net s)) s)).
Proof. exact (connected_lab (set_net (set_last (y_now s) (y_net s)) s)). Qed.
Lemma tokio_lab o ps : o <> FromReply -> forall oks, tokio_writes o ps oks = map ro (tokio_writes o ps oks).
Proof.
  intros HO. induction ps as [|p ps IH]; intros oks; [reflexivity|]. cbn [tokio_writes]. destruct (match oks with [] => (true, []) | b :: q => (b, q) end) as [b q].
  destruct (write_result Tokio p b); cbn [map]; rewrite <- IH; destruct o; try reflexivity; congruence.
Qed.
Lemma smol_resend ps ok : smol_writes FromResend ps ok = map ro (smol_writes FromResend ps ok).
Proof. unfold smol_writes. rewrite map_map. now destruct (smol_write_all ps ok). Qed.
Lemma smol_reply ps ok : smol_writes FromReply (map r ps) ok = map ro (smol_writes FromReply ps ok).
Proof. unfold smol_writes. rewrite all_lab, !map_map. now destruct (smol_write_all ps ok). Qed.
Lemma answer_lab c p s : sorted (st_in (y_state s)) -> connect_answer c (ri p) (R s) = R (connect_answer c p s).
Proof.
  intros HS. unfold connect_answer. cbv zeta. rewrite (log_lab1 (OAnswer p)) by reflexivity. set (s1 := log [OAnswer p] s).
  assert (end_connect (Some (NotConnAck (ri p))) (R s1) = R (end_connect (Some (NotConnAck p)) s1)) as X by exact (end_connect_lab (Some (NotConnAck p)) s1).
  destruct p; try exact X. cbn [label_in]. clear X. destruct (ca_rc c0) eqn:ER; try (now apply end_connect_r).
  change (y_now (R s1)) with (y_now s1). replace (set_net (apply_connack (cf_rt c) (y_now s1) c0 (y_net (R s1))) (R s1)) with (R (set_net (apply_connack (cf_rt c) (y_now s1) c0 (y_net s1)) s1))
    by (unfold apply_connack; destruct (cf_rt c); reflexivity).
  set (s2 := set_net _ s1). change (y_state (R s2)) with (rs (y_state s2)). rewrite (proj1 (com_connack _ _ (y_state s2) HS)). destruct (handle_incoming_connack _ _ (y_state s2)) as [st [re|e|]].
  - change (set_pc (PConnHandle (same re)) (set_state (rs st) (R s2))) with (R (set_pc (PConnHandle re) (set_state st s2))). now apply log_lab1.
  - change (set_state (rs st) (R s2)) with (R (set_state st s2)). now apply end_connect_r.
  - exact (crash_lab (set_state st s2)).
Qed.
Lemma incoming_lab rt p s : sorted (st_in (y_state s)) -> incoming rt (ri p) (R s) = R (incoming rt p s).
Proof.
  intros HS. unfold incoming. cbv zeta. rewrite (log_lab1 (ORead p)) by reflexivity. set (s1 := log [ORead p] s). change (y_state (R s1)) with (rs (y_state s1)).
  assert ((let (st, x) := handle_incoming_packet (ri p) (rs (y_state s1)) in match x with HErr e => end_run rt (inr (HandlerErr e)) (set_state st (R s1)) | HPanic => crash_now (set_state st (R s1))
         | HOk (reply, true) => log [OHandle (ri p)] (set_pc (PHandle (AfterPacket reply)) (set_state st (R s1))) | HOk (reply, false) => reply_now rt reply (set_state st (R s1)) end) =
    R (let (st, x) := handle_incoming_packet p (y_state s1) in match x with HErr e => end_run rt (inr (HandlerErr e)) (set_state st s1) | HPanic => crash_now (set_state st s1)
         | HOk (reply, true) => log [OHandle p] (set_pc (PHandle (AfterPacket reply)) (set_state st s1)) | HOk (reply, false) => reply_now rt reply (set_state st s1) end)) as X.
  { rewrite (proj1 (com_incoming p (y_state s1) HS)). destruct (handle_incoming_packet p (y_state s1)) as [st [[reply b]|e|]]; cbn [fst snd]; change (set_state (rs st) (R s1)) with (R (set_state st s1)).
    - destruct b; [|apply reply_lab]. change (set_pc (PHandle (AfterPacket (option_map r reply))) (R (set_state st s1))) with (R (set_pc (PHandle (AfterPacket reply)) (set_state st s1))). now apply log_lab1.
    - now apply end_run_r.
    - apply crash_lab. }
  destruct p; try exact X.
  - exact (log_lab1 (OHandle PPingResp) _ (set_pc (PHandle AfterPing) s1) eq_refl).
  - exact (log_lab1 (OHandle (PDisconnect d)) _ (set_pc (PHandle AfterDisconnect) s1) eq_refl).
Qed.
Lemma err_fix x e : option_map (label_err f) x = x -> x = Some e -> label_err f e = e.
Proof. intros H ->. cbn in H. congruence. Qed.
Lemma request_lab rt p ok s : sorted (st_in (y_state s)) -> request_written rt p ok (R s) = R (request_written rt p ok s).
Proof.
  intros HS. unfold request_written. destruct (write_result rt p ok) as [e|] eqn:EW.
  - rewrite (log_lab1 (OWriteFail FromClient p)) by reflexivity. apply end_run_r. exact (err_fix _ _ (result_err rt p ok) EW).
  - cbv zeta. rewrite (log_lab1 (OWrite FromClient p)) by reflexivity. set (s1 := log _ s). change (y_state (R s1)) with (rs (y_state s1)). rewrite (proj1 (com_outgoing p (y_state s1) HS)).
    destruct (handle_outgoing_packet p (y_state s1)) as [st [u|e|]]; change (set_state (rs st) (R s1)) with (R (set_state st s1)).
    + destruct (type_of p); first [reflexivity|exact (end_run_l rt OutgoingDisconnect (set_net (set_last (y_now (set_state st s1)) (y_net (set_state st s1))) (set_state st s1)))].
    + now apply end_run_r.
    + apply crash_lab.
Qed.

Lemma step_lab c e s : sorted (st_in (y_state s)) -> step c (label_event f e) (R s) = option_map R (step c e s).
Proof.
  intros HS. destruct e; cbn [step label_event].
  - reflexivity.
  - unfold begin_call. change (st_pool (y_state (R s))) with (st_pool (y_state s)). destruct (pl_open _); [|reflexivity]. destruct (client_call _ _ _) as [[p' [[pkt e]|pkt]]|]; [| |reflexivity]; cbn [option_map]; f_equal; rewrite <- log_lab; reflexivity.
  - unfold send_call. change (y_wait (R s)) with (y_wait s). destruct (pick i (y_wait s)) as [[p rest]|]; [|reflexivity].
    change (y_chan (R s)) with (y_chan s). destruct (_ <? _); [|reflexivity]. cbn [option_map]. f_equal. now rewrite <- log_lab.
  - unfold give_up. change (y_wait (R s)) with (y_wait s). destruct (pick i (y_wait s)) as [[p rest]|]; [|reflexivity]. cbn [option_map]. f_equal. now rewrite <- log_lab.
  - unfold drop_clients. change (y_wait (R s)) with (y_wait s). destruct (y_wait s); [|reflexivity]. cbn [option_map]. f_equal. now rewrite <- log_lab.
  - change (y_pc (R s)) with (label_pc f (y_pc s)). destruct (y_pc s) as [| | | | | |[]| | | | | |]; try reflexivity. cbn [label_pc option_map]. f_equal. now rewrite <- log_lab.
  - change (y_pc (R s)) with (label_pc f (y_pc s)). destruct (y_pc s) as [| | | | | |[]| | | | | |]; try reflexivity. cbn [label_pc option_map]. f_equal. unfold start_run.
    change (nt_connected (y_net (R s))) with (nt_connected (y_net s)). destruct (nt_connected _); [|now rewrite <- log_lab].
    change (again (log [ORun] (set_net (match cf_rt c with Tokio => set_await None (y_net (R s)) | Smol => y_net (R s) end) (R s))) = R (again (log [ORun] (set_net (match cf_rt c with Tokio => set_await None (y_net s) | Smol => y_net s end) s)))).
    replace (set_net (match cf_rt c with Tokio => set_await None (y_net (R s)) | Smol => y_net (R s) end) (R s)) with (R (set_net (match cf_rt c with Tokio => set_await None (y_net s) | Smol => y_net s end) s)) by (destruct (cf_rt c); reflexivity).
    rewrite (log_lab1 ORun) by reflexivity. reflexivity.
  - change (y_pc (R s)) with (label_pc f (y_pc s)). destruct (y_pc s) as [| | | | | |[]| | | | | |]; try reflexivity; cbn [label_pc option_map]; f_equal; [now apply answer_lab|now apply incoming_lab].
  - change (y_pc (R s)) with (label_pc f (y_pc s)). destruct (y_pc s) as [| | | | | |[]| | | | | |]; try reflexivity. cbn [label_pc option_map]. f_equal. now destruct (cf_rt c).
  - change (y_pc (R s)) with (label_pc f (y_pc s)). destruct (y_pc s) as [| | | | | |[]| | | | | |]; try reflexivity; cbn [label_pc option_map]; f_equal; [exact (end_connect_lab (Some e) s)|exact (end_run_lab _ (inr e) s)].
  - change (y_pc (R s)) with (label_pc f (y_pc s)). destruct (y_pc s) as [| | | | | |[]| | | | | |]; try reflexivity; cbn [label_pc option_map]. unfold outgoing. change (y_chan (R s)) with (y_chan s).
    destruct (y_chan s); [|reflexivity]. change (st_pool (y_state (R s))) with (st_pool (y_state s)). destruct (pl_open _); [reflexivity|]. cbn [option_map]. f_equal. now apply end_run_r.
  - change (y_pc (R s)) with (label_pc f (y_pc s)). destruct (y_pc s) as [| | | | | |[]| | | | | |]; try reflexivity; cbn [label_pc option_map]. unfold timer, tokio_timer, smol_timer, tokio_deadline, smol_deadline. cbn [label_sys label_net y_net y_now nt_await nt_perform nt_opts nt_last nt_keep].
    destruct (cf_rt c), (_ <? _), (nt_await (y_net s)), (nt_perform (y_net s)); reflexivity.
  - change (y_pc (R s)) with (label_pc f (y_pc s)). destruct (y_pc s) as [| | |re| | |a| | | | | |]; try reflexivity; cbn [label_pc option_map].
    + f_equal. rewrite (log_lab1 OHandled) by reflexivity. destruct re; [reflexivity|apply connected_lab].
    + destruct a; cbn [option_map]; f_equal; unfold handled; cbv zeta; rewrite (log_lab1 OHandled) by reflexivity; [now destruct (cf_rt c)|exact (end_run_l _ _ _)|apply reply_lab].
  - change (y_pc (R s)) with (label_pc f (y_pc s)). destruct (y_pc s) as [| | |re| | |[]| | | | | |]; try reflexivity; cbn [label_pc option_map]; f_equal.
    + change (nt_opts (y_net (R s))) with (nt_opts (y_net s)). set (p := create_connect _). destruct (write_result _ p ok) as [e|] eqn:EW.
      * rewrite (log_lab1 (OWriteFail FromConnect p)) by reflexivity. apply end_connect_r. exact (err_fix _ _ (result_err _ p ok) EW).
      * exact (log_lab1 (OWrite FromConnect p) _ (set_pc PConnRead s) eq_refl).
    + unfold reply_written. rewrite result_lab. destruct (write_result _ p ok) as [e|] eqn:EW.
      * rewrite (log_lab1 (OWriteFail FromReply p)) by reflexivity. apply end_run_r. exact (err_fix _ _ (result_err _ p ok) EW).
      * cbv zeta. rewrite (log_lab1 (OWrite FromReply p)) by reflexivity. reflexivity.
    + unfold flushed. rewrite smol_reply, log_lab, all_lab. destruct (smol_write_all ps ok) as [e|] eqn:EW; [|reflexivity]. apply end_run_r. exact (err_fix _ _ (all_err ps ok) EW).
    + now apply request_lab.
    + unfold ping_written. destruct (write_result _ _ ok) as [e|] eqn:EW.
      * rewrite (log_lab1 (OWriteFail FromTimer PPingReq)) by reflexivity. apply end_run_r. exact (err_fix _ _ (result_err _ PPingReq ok) EW).
      * cbv zeta. rewrite (log_lab1 (OWrite FromTimer PPingReq)) by reflexivity. reflexivity.
    + unfold bye_written. destruct (write_result _ _ ok) as [e|] eqn:EW.
      * rewrite (log_lab1 (OWriteFail FromTimer bye)) by reflexivity. apply end_run_r. exact (err_fix _ _ (result_err _ bye ok) EW).
      * rewrite (log_lab1 (OWrite FromTimer bye)) by reflexivity. apply end_run_l.
  - change (y_pc (R s)) with (label_pc f (y_pc s)). destruct (y_pc s) as [| | |re| | |[]| | | | | |]; try reflexivity; cbn [label_pc option_map]; f_equal. unfold connect_resend. destruct (cf_rt c).
    + cbv zeta. rewrite (log_fix (tokio_writes FromResend re oks)) by (symmetry; now apply tokio_lab). destruct ok; [exact (connected_last _)|now apply end_connect_r].
    + cbv zeta. rewrite (log_fix (smol_writes FromResend re ok)) by (symmetry; apply smol_resend). destruct (smol_write_all _ ok) as [e|] eqn:EW; [|exact (connected_last _)]. apply end_connect_r. exact (err_fix _ _ (all_err _ ok) EW).
Qed.
Lemma exec_lab c : config_ok c -> forall es s, reachable c s -> exec c (map (label_event f) es) (R s) = option_map R (exec c es s).
Proof.
  intros HC. induction es as [|e es IH]; intros s HR; [reflexivity|]. cbn [map exec]. destruct (conforms c s HC HR) as (q & HQ). rewrite step_lab by exact (k_sorted _ _ _ HQ). destruct (step c e s) as [t|] eqn:ES; [|reflexivity]. apply IH. exact (reachable_step _ _ _ _ HR ES).
Qed.
Lemma init_lab c : R (init c) = init c.
Proof. reflexivity. Qed.
Lemma labels c es : config_ok c -> exec c (map (label_event f) es) (init c) = option_map R (exec c es (init c)).
Proof. intros HC. rewrite <- exec_lab; [now rewrite init_lab|exact HC|now exists []]. Qed.
End Label.
