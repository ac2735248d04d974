(* C71: what follows for panics and errors. *)
From Coq Require Import Permutation.
From Verif Require Import Base VarInt Prims Props Codes Packets BaseFacts Options Session Client System SpecSession SpecNet SpecPolite SessionFacts SystemFacts AckFacts EndFacts IdFacts IdMore Cases NetFacts NetMore OutFacts WorldFacts WorldMore WorldAll PoliteFacts PoliteMore PoliteAll.

Definition seen_by (c : config) (l : list out) (o : out) : Prop :=
  exists q w w' q', nrun c l q /\ okay_with c q w /\ noticed o w w' /\ nstep c q o q'.
Lemma notices_app l1 o l2 w w' : notices (l1 ++ o :: l2) w w' -> exists w1 w2, notices l1 w w1 /\ noticed o w1 w2.
Proof.
  revert w. induction l1 as [|x l1 IH]; intros w H; cbn [app] in H; inversion H; subst.
  - exists w. eexists. split; [constructor|eassumption].
  - destruct (IH _ H5) as (w1 & w2 & X1 & X2). exists w1, w2. split; [econstructor; eassumption|exact X2].
Qed.
Lemma seen_everywhere c s w : config_ok c -> with_broker c s w -> everywhere (seen_by c) (trace s).
Proof.
  intros HC. induction 1 as [|s w e s' l w' HJ IH HGe HS HT HO|s w w' HJ IH HB]; [apply everywhere_nil| |exact IH].
  rewrite HT. apply everywhere_app; [exact IH|]. intros l1 o l2 ->.
  assert (reachable c s') as HR by (eapply reachable_step; [eapply with_reachable; exact HJ|exact HS]).
  destruct (conforms c s' HC HR) as [q HQ]. pose proof (k_run _ _ _ HQ) as HN. rewrite HT in HN.
  apply nrun_from, nfrom_app in HN as (q1 & H1 & H2). apply nrun_from in H1. apply nfrom_app in H2 as (q2 & H2 & H3). inversion H3 as [|? ? q3 ? ? H4 H5]; subst.
  destruct (notices_app _ _ _ _ _ HO) as (w1 & w2 & X1 & X2).
  exists q2, w1, w2, q3. split; [|split; [|split; assumption]].
  - apply nrun_from. apply nfrom_app. exists q1. split; [now apply nrun_from|exact H2].
  - apply (okay_outs c l1 q1 w w1 q2 (trace s) H1); auto.
    + destruct (side_everywhere c s' HC HR) as [HE _]. rewrite HT in HE. intros m1 o' m2 E. apply (HE m1 o' (m2 ++ o :: l2)). rewrite app_assoc, E, <- app_assoc. reflexivity.
    + now apply (with_okay c s w HC HJ).
Qed.

(* what is read is what the client waits for *)
Definition read_fine (c : config) (l : list out) (o : out) : Prop := forall p, o = ORead p ->
  from_server p /\ is_conn p = false /\
  (is_ack p = true -> awaited (ledger_of (cleans c) l) p = true) /\
  (forall a, p = PPubAck a \/ p = PPubRec a -> off_table (receive_max (cf_opts c)) (ak_id a) = false).
Lemma sound_ids g i : sound g -> In i (req_ids (lg_sent g)) \/ In i (lg_rel g) -> 1 <= i.
Proof.
  intros HS H. destruct (sound_fine _ HS) as (_ & _ & HF). rewrite Forall_forall in HF. apply HF. apply in_app_iff. exact H.
Qed.
Lemma reads_fine c s w : config_ok c -> with_broker c s w -> everywhere (read_fine c) (trace s).
Proof.
  intros HC HW l1 o l2 E p ->. destruct (seen_everywhere c s w HC HW l1 _ l2 E) as (q & w1 & w2 & q' & HN & HK & HO & HS).
  rewrite <- (nrun_led _ _ _ HN). inversion HS as [HB|b f its inn HB HA]; [discriminate HB|]. inversion HO; subst; [|contradiction].
  destruct q as [op ph td qi g]. qcbn. destruct HK as [A B C D E0 F G H K L I J]. qcbn. lcbn.
  inversion HA; subst. pose proof (C eq_refl) as ->. specialize (G (or_introl eq_refl)). apply app_eq_nil in G as [_ G]. rewrite conns_cons in G. apply app_eq_nil in G as [G _].
  assert (alive (NState true FLoop [] qi g)) as HAL by (apply loop_alive; intros []). specialize (J HAL). destruct J as [J1 J2 J3]. inversion J3 as [|? ? J4 J5]; subst.
  split; [now inversion H|]. split; [now destruct (is_conn p)|]. split.
  - intros X. destruct p; try discriminate X; specialize (J4 _ eq_refl); cbn [awaited]; try (apply existsb_exists; destruct J4 as (x & Y1 & Y2); eexists; split; [exact Y1|]; cbn [answers]; apply has_id_spec; cbn [req_id]; congruence).
    apply existsb_exists. exists (ak_id a). split; [exact J4|apply N.eqb_refl].
  - intros a X. assert (exists x, In (PPublish x) (lg_sent g) /\ pb_pkid x = Some (ak_id a)) as (x & X1 & X2). { destruct X as [-> | ->]; exact (J4 _ eq_refl). }
    assert (1 <= ak_id a). { apply (sound_ids g); [exact A|]. left. apply in_req_ids. exists (PPublish x). auto. }
    assert (ak_id a <= receive_max (cf_opts c)). { apply (I ltac:(discriminate) ltac:(intros []) x); auto. }
    unfold off_table. lia.
Qed.

(* identifiers of requests *)
Definition id_fits (c : config) (l : list out) (o : out) : Prop := forall p i, o = OWrite FromClient p -> req_id p = Some i -> i <= send_max (cf_opts c).
Lemma ids_fit c s : config_ok c -> reachable c s -> everywhere (id_fits c) (trace s).
Proof.
  intros HC. revert s. apply sys_ind; [exact HC|apply everywhere_nil|].
  intros s e l st w ch n q t HR HI HP HT _. rewrite next_trace. apply everywhere_app; [exact HP|]. pose proof (v_inv _ _ HI) as HV. unfold ledger_at in HV.
  assert (forall p i, In p (pending s) -> req_id p = Some i -> i <= send_max (cf_opts c)) as HPE.
  { intros p i HX HE. destruct (pend_open _ _ _ _ _ p HV HX) as [_ X]. apply (proj2 (ids_unique c s HC HR) i). unfold in_flight, now_ledger. fold (cleans c).
    rewrite !in_app_iff. left. eapply open_in; [apply X; congruence|exact HE]. }
  intros l1 o l2 E p i -> HE. apply (HPE p i); [|exact HE]. assert (In (OWrite FromClient p) l) as HIN. { rewrite E. apply in_or_app. right. now left. } clear E HP.
  destruct HT; cbn [In] in HIN; try (repeat (destruct HIN as [HIN|HIN]; [try discriminate HIN|]); contradiction).
  all: try (exfalso; assert (Forall (fun o => plain o = true) (tokio_writes FromResend ps oks)) as HF by (apply tokio_plain; auto); rewrite Forall_forall in HF; apply in_app_iff in HIN as [HIN|[HIN|[]]]; [|discriminate HIN]; specialize (HF _ HIN); discriminate HF).
  all: try (exfalso; assert (Forall (fun o => plain o = true) (smol_writes FromResend ps ok)) as HF by (apply smol_plain; auto); rewrite Forall_forall in HF; apply in_app_iff in HIN as [HIN|[HIN|[]]]; [|discriminate HIN]; specialize (HF _ HIN); discriminate HF).
  all: try (exfalso; assert (Forall (fun o => plain o = true) (smol_writes FromReply ps ok)) as HF by (apply smol_plain; auto); rewrite Forall_forall in HF; try apply in_app_iff in HIN as [HIN|[HIN|[]]]; try discriminate HIN; specialize (HF _ HIN); discriminate HF).
  all: destruct HIN as [HIN|HIN]; [injection HIN as ->; unfold pending; rewrite H; cbn [held]; rewrite !in_app_iff; cbn; auto|]; repeat (destruct HIN as [HIN|HIN]; [discriminate HIN|]); contradiction.
Qed.

Theorem panics_only c s w : config_ok c -> with_broker c s w ->
  everywhere (fun l o => o = OPanic -> exists l0 x i, l = l0 ++ [OWrite FromClient (PPublish x)] /\ pb_pkid x = Some i /\ receive_max (cf_opts c) < i) (trace s).
Proof.
  intros HC HW l1 o l2 E EO. destruct (panic_everywhere c s HC (with_reachable _ _ _ HW) l1 o l2 E EO) as (l0 & o0 & -> & HP).
  destruct o0; try contradiction; cbn [panics_after] in HP.
  - exfalso. rewrite <- app_assoc in E. destruct (reads_fine c s w HC HW _ _ _ E p eq_refl) as (_ & _ & _ & HF).
    destruct p; try contradiction; rewrite HF in HP by eauto; discriminate.
  - destruct o0; try contradiction. destruct p; try contradiction. destruct HP as (i & H1 & H2). eauto 6.
Qed.
Theorem no_panics c s w : config_ok c -> send_max (cf_opts c) <= receive_max (cf_opts c) -> with_broker c s w -> ~ In OPanic (trace s).
Proof.
  intros HC HM HW HI. apply in_split in HI as (l1 & l2 & E). destruct (panics_only c s w HC HW _ _ _ E eq_refl) as (l0 & x & i & -> & H1 & H2).
  rewrite <- app_assoc in E. pose proof (ids_fit c s HC (with_reachable _ _ _ HW) _ _ _ E _ i eq_refl H1). lia.
Qed.

Lemma fine_refuse c l p e inn : from_server p -> is_conn p = false -> (is_ack p = true -> awaited (ledger_of (cleans c) l) p = true) ->
  (forall a, p = PPubAck a \/ p = PPubRec a -> off_table (receive_max (cf_opts c)) (ak_id a) = false) ->
  on_read (receive_max (cf_opts c)) (ledger_of (cleans c) l) inn p = refuse e -> exists i, e = PacketIdChannelError i /\ In ODropClients l.
Proof.
  intros H1 H2 H3 H4 HE. destruct p; try contradiction; try discriminate H2; cbn [on_read] in HE; unfold on_ack, refuse, deliver, reply in HE; try discriminate HE;
    cbn [is_ack] in H3; try specialize (H3 eq_refl); try (rewrite (H4 a) in HE by auto); try rewrite H3 in HE.
  all: try (destruct (lg_clients _) eqn:EL; [discriminate HE|]; injection HE as <-; eexists; split; [reflexivity|]; eapply dropped; exact EL).
  - cbn [from_server] in H1. destruct (pb_qos p) eqn:EQ; try discriminate HE.
    + destruct (pb_pkid p); [discriminate HE|]. destruct H1 as [H1|H1]; [discriminate H1|congruence].
    + destruct (pb_pkid p); [|destruct H1 as [H1|H1]; [discriminate H1|congruence]]. destruct (_ || _); discriminate HE.
  - destruct (rec_accepts _); discriminate HE.
Qed.
Lemma write_err rt p ok e : write_result rt p ok = Some (HandlerErr e) -> False.
Proof. unfold write_result. destruct (ser_err rt p); [discriminate|]. destruct ok; discriminate. Qed.
Lemma write_all_err ps ok e : smol_write_all ps ok = Some (HandlerErr e) -> False.
Proof. unfold smol_write_all. destruct (find _ _); [destruct (ser_err _ _); discriminate|]. destruct ok; discriminate. Qed.
Lemma tokio_no_end r ps oks : In (ORunEnd r) (tokio_writes FromResend ps oks) -> False.
Proof. revert oks. induction ps as [|p ps IH]; intros oks H; [destruct oks; contradiction|]. destruct oks; cbn [tokio_writes] in H; destruct (write_result _ _ _) in H; (destruct H as [H|H]; [discriminate H|now apply IH in H]). Qed.
Lemma smol_no_end r o ps ok : In (ORunEnd r) (smol_writes o ps ok) -> False.
Proof. unfold smol_writes. rewrite in_map_iff. intros (x & E & _). destruct (smol_write_all ps ok); discriminate. Qed.
Theorem run_errors c s w : config_ok c -> with_broker c s w ->
  everywhere (fun l o => forall e, o = ORunEnd (inr (HandlerErr e)) -> exists i, e = PacketIdChannelError i /\ In ODropClients l) (trace s).
Proof.
  intros HC HW0. assert (with_broker c s w) as HW by exact HW0. induction HW0 as [|s w e s' l w' HJ IH HGe HS HT HO|s w w' HJ IH HB]; [apply everywhere_nil| |now apply IH].
  specialize (IH HJ). pose proof (reads_fine c s' w' HC HW) as HRF. pose proof (with_reachable _ _ _ HJ) as HR. destruct (step_tcase _ _ _ _ HR HS) as (m & st & wt & ch & n & q & t & HTC & ->).
  rewrite next_trace in *. apply app_inv_head in HT. subst m. apply everywhere_app; [exact IH|].
  intros l1 o l2 E e0 ->. assert (In (ORunEnd (inr (HandlerErr e0))) l) as HIN. { rewrite E. apply in_or_app. right. now left. }
  destruct HTC; cbn [In] in HIN; try (repeat (destruct HIN as [HIN|HIN]; [try discriminate HIN|]); contradiction).
  all: try (exfalso; apply in_app_iff in HIN as [HIN|[HIN|[]]]; [eapply tokio_no_end, HIN|discriminate HIN]).
  all: try (exfalso; apply in_app_iff in HIN as [HIN|[HIN|[]]]; [eapply smol_no_end, HIN|discriminate HIN]).
  all: try (exfalso; eapply smol_no_end, HIN).
  - destruct HIN as [HIN|[HIN|[]]]; [discriminate HIN|]. injection HIN as <-. destruct (HRF (trace s) (ORead p) [ORunEnd (inr (HandlerErr e))] eq_refl p eq_refl) as (F1 & F2 & F3 & F4).
    pose proof (v_inv _ _ (inv_reachable _ _ HC HR)) as HV. rewrite H in HV. destruct (conforms c s HC HR) as [q0 HQ].
    pose proof (incoming_items _ _ _ _ _ _ _ HV (k_sorted _ _ _ HQ) H1 H0) as HX. cbn [items_of] in HX. unfold ledger_at in HX.
    destruct (fine_refuse _ _ _ _ _ F1 F2 F3 F4 HX) as (i & X1 & X2). exists i. split; [exact X1|]. apply in_or_app. now left.
  - destruct HIN as [HIN|[]]. injection HIN as ->. destruct HGe as [X|X]; discriminate X.
  - destruct HIN as [HIN|[HIN|[]]]; [discriminate HIN|]. injection HIN as ->. now apply write_err in H0.
  - exfalso. apply in_app_iff in HIN as [HIN|[HIN|[]]]; [eapply smol_no_end, HIN|]. injection HIN as ->. now apply write_all_err in H0.
  - destruct HIN as [HIN|[HIN|[]]]; [discriminate HIN|]. injection HIN as ->. now apply write_err in H0.
  - exfalso. pose proof (pending_request c s p (inv_reachable _ _ HC HR) H) as HV. pose proof (inv_request _ _ _ _ _ _ _ HV H1) as X. destruct (bad_request _ p); destruct X; discriminate.
  - destruct HIN as [HIN|[HIN|[]]]; [discriminate HIN|]. injection HIN as ->. now apply write_err in H0.
  - destruct HIN as [HIN|[HIN|[]]]; [discriminate HIN|]. injection HIN as ->. now apply write_err in H0.
Qed.
Theorem acks_expected c s w : config_ok c -> with_broker c s w ->
  everywhere (fun l o => forall p, o = ORead p -> is_ack p = true -> awaited (ledger_of (op_clean_start (cf_opts c)) l) p = true) (trace s).
Proof. intros HC HW l1 o l2 E p EO HA. now apply (reads_fine c s w HC HW l1 o l2 E p EO). Qed.
