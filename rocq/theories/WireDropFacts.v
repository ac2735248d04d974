(* Dropped futures in the client that receives bytes. *)
From Verif Require Import Base BaseFacts VarInt Prims Props Codes Packets PacketFacts Options Session Client System SpecCodec SpecSession SpecNet SpecTrace SpecRead SpecWire SmolStream TokioRead SystemFacts Cases NetFacts LoopMore ReadFacts ReadMore Cancel Wire WireFacts WireMore WireDrop.

Lemma dexec_app c chk xs : forall ys w, dexec c chk (xs ++ ys) w = match dexec c chk xs w with Some w' => dexec c chk ys w' | None => None end.
Proof. induction xs as [|x xs IH]; intros ys w; cbn [dexec app]; [reflexivity|]. destruct (dstep c chk x w); [apply IH|reflexivity]. Qed.
Lemma dreach_ind c chk (P : wire -> Prop) : P (winit c chk) -> (forall x w w', P w -> dstep c chk x w = Some w' -> P w') -> forall w, dreachable c chk w -> P w.
Proof.
  intros H0 HS w [xs H]. revert w H. induction xs as [|x xs IH] using rev_ind; intros w H.
  - cbn in H. injection H as <-. exact H0.
  - rewrite dexec_app in H. destruct (dexec c chk xs (winit c chk)) as [w1|] eqn:E; [|discriminate]. cbn [dexec] in H.
    destruct (dstep c chk x w1) as [w2|] eqn:E2; [|discriminate]. injection H as ->. eapply HS; [now apply IH|exact E2].
Qed.
(* a drop *)
Lemma wdrop_case c w w' : wdrop c w = Some w' ->
  w_dead w = false /\ w_sys w' = set_pc PIdle (w_sys w) /\ w_new w' = w_new w /\ w_dead w' = false /\
  (w_net w' = w_net w \/ w_net w' = drop_read (cf_rt c) (w_net w)).
Proof.
  unfold wdrop. destruct (w_dead w); [discriminate|]. unfold drop_task. intros H.
  destruct (y_pc (w_sys w)); try discriminate H; injection H as <-; cbn; auto 10.
Qed.

Lemma drop_good c chk w : dreachable c chk w -> good (cf_rt c) (w_new w) /\ good (cf_rt c) (w_net w).
Proof.
  revert w. apply dreach_ind; [split; apply good_new|]. intros [x|] w w' [IH1 IH2] H; cbn [dstep] in H.
  - apply wstep_trans in H. destruct H; cbn [w_new w_net]; split; auto using good_arrive, good_drop, good_new.
    + destruct (opens c e (w_sys w)); assumption.
    + eapply good_more; [|eassumption]; assumption.
    + eapply good_packet1; [|eassumption]; assumption.
    + eapply good_more; [|eassumption]; assumption.
    + eapply good_packet1; [|eassumption]; assumption.
  - apply wdrop_case in H as (_ & _ & -> & _ & [-> | ->]); auto using good_drop.
Qed.
Lemma drop_buf c chk w : dreachable c chk w -> buf_empty (w_sys w).
Proof.
  revert w. apply dreach_ind; [reflexivity|]. intros [x|] w w' IH H; cbn [dstep] in H.
  - apply wstep_trans in H. assert (forall e s, step c e (w_sys w) = Some s -> buf_empty s) as HB.
    { intros e s HS. destruct (step_cases _ _ _ _ IH HS) as (l & st & wt & ch & n & q & t & HT & ->). exact (tcase_buf _ _ _ _ _ _ _ _ _ _ IH HT). }
    destruct H; cbn [w_sys]; eauto.
  - apply wdrop_case in H as (_ & -> & _). exact IH.
Qed.
Lemma linked_event' c w s r1 r2 d e : buf_empty (w_sys w) -> linked w -> step c e (w_sys w) = Some s ->
  conn_ok (y_pc s) r1 ->
  (opens c e (w_sys w) = true -> exists a, ca_rc a = RSuccess /\ sr_got r2 = [PConnAck a]) ->
  (opens c e (w_sys w) = false -> sr_got r2 = sr_got (w_net w) ++ match e, y_pc (w_sys w) with EPacket p, PSelect _ => [p] | _, _ => [] end) ->
  linked (Wire s r1 r2 d).
Proof.
  intros HR (H1 & H2 & H3) HS HC HO HN. destruct (step_cases _ _ _ _ HR HS) as (l & st & wt & ch & n & q & t & HT & ->).
  destruct (tcase_running _ _ _ _ _ _ _ _ _ _ HT H3) as [HA HB]. unfold linked. cbn [w_sys w_new w_net]. split; [|split; [exact HC|exact HA]].
  intros HX. rewrite next_trace, (tcase_open _ _ _ _ _ _ _ _ _ _ HT). destruct (opens c e (w_sys w)) eqn:EO.
  - destruct (HO eq_refl) as (a & Ha & ->). eauto.
  - destruct (HB HX) as [HY|HY]; [discriminate HY|]. destruct (H1 HY) as (a & Ha & EG). exists a. split; [exact Ha|].
    rewrite HN, EG by reflexivity. destruct e; try apply app_nil_r. destruct (y_pc (w_sys w)); try apply app_nil_r; reflexivity.
Qed.
Lemma drop_got rt r : sr_got (drop_read rt r) = sr_got r.
Proof. destruct rt; reflexivity. Qed.
Lemma drop_linked c chk w : dreachable c chk w -> linked w.
Proof.
  intros HD. assert (buf_empty (w_sys w) /\ linked w) as [_ HX]; [|exact HX]. revert w HD. apply dreach_ind.
  { split; [reflexivity|]. split; [discriminate|]. split; [exact I|discriminate]. }
  intros [x|] w w' [HRS IH] H; cbn [dstep] in H.
  2: { apply wdrop_case in H as (_ & ES & EN & _ & EW). split; [rewrite ES; exact HRS|]. destruct IH as (H1 & H2 & H3). unfold linked. rewrite ES, EN.
       change (y_net (set_pc PIdle (w_sys w))) with (y_net (w_sys w)). change (trace (set_pc PIdle (w_sys w))) with (trace (w_sys w)). change (y_pc (set_pc PIdle (w_sys w))) with PIdle.
       split; [|split; [exact I|discriminate]]. intros HC. destruct (H1 HC) as (a & Ha & EG). exists a. split; [exact Ha|]. destruct EW as [-> | ->]; rewrite ?drop_got; exact EG. }
  assert (forall e s, step c e (w_sys w) = Some s -> buf_empty s) as HB.
  { intros e s HS. destruct (step_cases _ _ _ _ HRS HS) as (l & st & wt & ch & n & q & t & HT & ->). exact (tcase_buf _ _ _ _ _ _ _ _ _ _ HRS HT). }
  apply wstep_trans in H.
  assert (forall e s, step c e (w_sys w) = Some s -> e <> EConnect -> (forall p, e = EPacket p -> y_pc (w_sys w) <> PConnRead) -> conn_ok (y_pc s) (w_new w)) as HCO.
  { intros e s HS HE HP. destruct (step_cases _ _ _ _ HRS HS) as (l & st & wt & ch & n & q & t & HT & ->).
    eapply (tcase_conn _ _ _ _ _ _ _ _ _ _ _ HT); [apply IH|congruence|exact HP]. }
  split; [destruct H; cbn [w_sys]; eauto|].
  destruct H.
  - destruct IH as (H1 & H2 & H3). split; [exact H1|]. split; [|exact H3]. exact H2.
  - destruct IH as (H1 & H2 & H3). split; [exact H1|]. split; [exact H2|exact H3].
  - eapply linked_event'; [exact HRS|exact IH|eassumption| |discriminate|intros _; now rewrite app_nil_r].
    destruct (step_cases _ _ _ _ HRS H) as (l & st & wt & ch & n & q & t & HT & ->). inversion HT; subst. reflexivity.
  - eapply linked_event'; [exact HRS|exact IH|eassumption| | |].
    + eapply HCO; [eassumption|destruct H as [-> | ->]; discriminate|destruct H as [-> | ->]; discriminate].
    + destruct H as [-> | ->]; discriminate.
    + intros _. destruct H as [-> | ->]; rewrite app_nil_r; destruct (cf_rt c); reflexivity.
  - eapply linked_event'; [exact HRS|exact IH|eassumption| | |].
    + eapply HCO; [eassumption|assumption|intros p ->; discriminate].
    + intros EO. rewrite EO. destruct IH as (_ & HX & _). unfold opens in EO. destruct e; try discriminate EO; destruct (y_pc (w_sys w)) as [| | |[?|]| | | | | | | | |]; try discriminate EO; exact HX.
    + intros EO. rewrite EO. destruct e; try (rewrite app_nil_r; reflexivity). discriminate H.
  - destruct IH as (H1 & H2 & H3). split; [exact H1|]. split; [|exact H3]. cbn [w_sys w_new]. rewrite H in *. cbn [conn_ok] in *. apply take_got in H0. congruence.
  - eapply linked_event'; [exact HRS|exact IH|eassumption| |discriminate|].
    + destruct (step_cases _ _ _ _ HRS H1) as (l & st & wt & ch & n & q & t & HT & ->). eapply tcase_answer; [exact HT|assumption|].
      apply take_got1 in H0. destruct IH as (_ & HX & _). rewrite H in HX. cbn [conn_ok] in HX. now rewrite H0, HX.
    + intros _. rewrite H. now rewrite app_nil_r.
  - eapply linked_event'; [exact HRS|exact IH|eassumption| |discriminate|intros _; now rewrite app_nil_r]. eapply HCO; [eassumption|discriminate|discriminate].
  - eapply linked_event'; [exact HRS|exact IH|eassumption| |discriminate|intros _; rewrite app_nil_r; eapply take_got; eassumption]. eapply HCO; [eassumption|discriminate|discriminate].
  - eapply linked_event'; [exact HRS|exact IH|eassumption| |discriminate|intros _; rewrite H; eapply take_got1; eassumption]. eapply HCO; [eassumption|discriminate|]. intros. congruence.
  - eapply linked_event'; [exact HRS|exact IH|eassumption| |discriminate|intros _; now rewrite app_nil_r]. eapply HCO; [eassumption|discriminate|discriminate].
  - exact IH.
Qed.

(* --- messages --- *)
Lemma tcase_messages c s e l st w ch n q t : tcase c s e l st w ch n q t -> messages_since_open (trace s) = filter handed (since_open (trace s)) ->
  messages_since_open (trace s ++ l) = filter handed (since_open (trace s ++ l)).
Proof.
  intros HT IH. rewrite messages_app, since_open_app.
  assert (forall p, fold_left open_step [ORead p] (since_open (trace s)) = since_open (trace s) ++ [p]) as H1 by reflexivity.
  destruct HT; rewrite ?fold_left_app, ?open_tokio, ?open_smol, ?messages_tokio, ?messages_smol; try reflexivity; try exact IH.
  all: cbn [fold_left open_step message_step]; rewrite ?filter_app, ?IH; cbn [filter app]; rewrite ?app_nil_r.
  all: try (destruct a; reflexivity).
  - destruct p; try discriminate H0; cbn; now rewrite app_nil_r.
  - destruct p; cbn [is_message handed]; rewrite ?app_nil_r; try reflexivity.
    cbn [handle_incoming_packet] in *. unfold handle_incoming_publish in *. destruct (pb_qos _); cbn [is_some]; rewrite ?app_nil_r; try reflexivity.
    destruct (pb_pkid _); [reflexivity|discriminate].
  - destruct p; cbn [is_message handed]; rewrite ?app_nil_r; try reflexivity.
    cbn [handle_incoming_packet] in *. unfold handle_incoming_publish in *. destruct (pb_qos _); cbn [is_some]; rewrite ?app_nil_r; try reflexivity; try discriminate.
    destruct (pb_pkid _); discriminate.
  - destruct p; cbn [is_message handed]; rewrite ?app_nil_r; try reflexivity.
    cbn [handle_incoming_packet] in *. unfold handle_incoming_publish in *. destruct (pb_qos _); cbn [is_some]; rewrite ?app_nil_r; try reflexivity; try discriminate.
    destruct (pb_pkid _); [discriminate|symmetry; apply app_nil_r].
  - destruct p; cbn [is_message handed]; rewrite ?app_nil_r; try reflexivity.
    cbn [handle_incoming_packet] in *. unfold handle_incoming_publish in *. destruct (pb_qos _); cbn [is_some]; rewrite ?app_nil_r; try reflexivity; try discriminate.
    destruct (pb_pkid _); discriminate.
Qed.
Lemma drop_handed c chk w : dreachable c chk w -> messages_since_open (trace (w_sys w)) = filter handed (since_open (trace (w_sys w))).
Proof.
  intros HD. assert (buf_empty (w_sys w) /\ messages_since_open (trace (w_sys w)) = filter handed (since_open (trace (w_sys w)))) as [_ HX]; [|exact HX].
  revert w HD. apply dreach_ind; [split; reflexivity|]. intros [x|] w w' [HB IH] H; cbn [dstep] in H.
  - assert (forall e s, step c e (w_sys w) = Some s -> buf_empty s /\ messages_since_open (trace s) = filter handed (since_open (trace s))) as HS.
    { intros e s HS. destruct (step_cases _ _ _ _ HB HS) as (l & st & wt & ch & n & q & t & HT & ->). split; [exact (tcase_buf _ _ _ _ _ _ _ _ _ _ HB HT)|].
      rewrite next_trace. exact (tcase_messages _ _ _ _ _ _ _ _ _ _ HT IH). }
    apply wstep_trans in H. destruct H; cbn [w_sys]; eauto.
  - apply wdrop_case in H as (_ & -> & _). split; [exact HB|exact IH].
Qed.

Lemma drop_order c chk w ps bs fut : dreachable c chk w -> nt_connected (y_net (w_sys w)) = true ->
  Forall2 sent ps bs -> sr_all (w_net w) ++ fut = concat bs -> sr_torn (w_net w) = false ->
  exists a ps1 ps2, ca_rc a = RSuccess /\ ps = ps1 ++ ps2 /\ ps1 = PConnAck a :: since_open (trace (w_sys w)) /\
    messages_since_open (trace (w_sys w)) = filter is_message ps1.
Proof.
  intros HR HC HF E HT. destruct (drop_good _ _ _ HR) as [_ HG]. destruct (drop_linked _ _ _ HR) as (HL & _). destruct (HL HC) as (a & Ha & EG).
  destruct (HG ps bs fut HF E HT) as (ps1 & ps2 & bs1 & bs2 & H1 & _ & _ & _ & H5 & _). exists a, ps1, ps2. split; [exact Ha|]. split; [exact H1|].
  assert (ps1 = PConnAck a :: since_open (trace (w_sys w))) as EP by congruence. split; [exact EP|].
  rewrite (drop_handed _ _ _ HR). subst ps. apply Forall2_app_inv_l in HF as (b1 & b2 & HF & _ & _). rewrite <- (handed_messages _ _ HF), EP. reflexivity.
Qed.
Lemma drop_all c chk w ps bs fut : dreachable c chk w -> cf_rt c = Tokio -> nt_connected (y_net (w_sys w)) = true ->
  Forall2 sent ps bs -> sr_all (w_net w) ++ fut = concat bs -> sr_torn (w_net w) = false -> concat (sr_in (w_net w)) = [] ->
  exists a, ca_rc a = RSuccess /\ PConnAck a :: since_open (trace (w_sys w)) = firstn (complete bs (len (sr_all (w_net w)))) ps /\
    messages_since_open (trace (w_sys w)) = filter is_message (firstn (complete bs (len (sr_all (w_net w)))) ps).
Proof.
  intros HR HK HC HF E HT HI. destruct (drop_good _ _ _ HR) as [_ HG]. destruct (drop_linked _ _ _ HR) as (HL & _). destruct (HL HC) as (a & Ha & EG). exists a. split; [exact Ha|].
  assert (PConnAck a :: since_open (trace (w_sys w)) = firstn (complete bs (len (sr_all (w_net w)))) ps) as EP.
  { destruct (HG ps bs fut HF E HT) as (ps1 & ps2 & bs1 & bs2 & -> & -> & HLn & HF2 & H5 & H6 & H7 & _). rewrite HI, app_nil_r in H6.
    rewrite H6, len_app, complete_app, (part_complete _ _ (H7 HK) (sent_nonempty _ _ HF2)), Nat.add_0_r, HLn, <- EG, H5.
    rewrite firstn_app, Nat.sub_diag, firstn_all. cbn. now rewrite app_nil_r. }
  split; [exact EP|]. rewrite (drop_handed _ _ _ HR), <- EP. set (k := complete _ _) in *.
  assert (exists b, Forall2 sent (firstn k ps) b) as (b & HB).
  { rewrite <- (firstn_skipn k ps) in HF. apply Forall2_app_inv_l in HF as (b1 & b2 & HF & _ & _). eauto. }
  rewrite <- EP in HB. rewrite <- (handed_messages _ _ HB). reflexivity.
Qed.
Lemma drop_no_error c chk w ps bs fut : dreachable c chk w -> Forall2 sent ps bs -> sr_all (w_net w) ++ fut = concat bs -> sr_torn (w_net w) = false ->
  take_chunk (cf_rt c) chk (w_net w) <> SFail DeserializationError.
Proof.
  intros HR HF E HT X. destruct (drop_good _ _ _ HR) as [_ HG]. pose proof (take_cases _ chk _ _ _ _ HG HF E HT) as H. rewrite X in H. destruct H as [H _]. discriminate H.
Qed.

(* smol loses nothing *)
Lemma drop_untorn c chk w : cf_rt c = Smol -> dreachable c chk w -> sr_torn (w_net w) = false.
Proof.
  intros HK HR. assert (sr_torn (w_new w) = false /\ sr_torn (w_net w) = false) as [_ HX]; [|exact HX].
  revert w HR. apply dreach_ind; [auto|]. intros [x|] w w' [H1 H2] H; cbn [dstep] in H.
  - apply wstep_trans in H. assert (forall r r' p, sr_torn r = false -> take_chunk (cf_rt c) chk r = SMore r' \/ take_chunk (cf_rt c) chk r = SPacket p r' -> sr_torn r' = false) as HX.
    { intros r r' p HT X. destruct (take_keeps _ _ _ _ _ X) as [_ Y]. congruence. }
    destruct H; cbn [w_new w_net arrive sr_torn new_stream]; split; auto;
      try (first [eapply (HX _ _ PPingReq); [|left; eassumption]; assumption|eapply HX; [|right; eassumption]; assumption]).
    + rewrite HK. exact H2.
    + destruct (opens c e (w_sys w)); assumption.
  - apply wdrop_case in H as (_ & _ & -> & _ & [-> | ->]); [auto|]. rewrite HK. auto.
Qed.
(* tokio never panics *)
Lemma drop_bytes_ok r : bytes_ok r -> bytes_ok (drop_read Tokio r).
Proof. intros H. split; [constructor|apply H]. Qed.
Lemma drop_no_panic c chk xs w : cf_rt c = Tokio -> Forall dbytes xs -> dexec c chk xs (winit c chk) = Some w -> w_dead w = false.
Proof.
  intros HK HF H. assert (bytes_ok (w_new w) /\ bytes_ok (w_net w) /\ w_dead w = false) as (_ & _ & HX); [|exact HX].
  revert w H. induction xs as [|x xs IH] using rev_ind; intros w H.
  - injection H as <-. cbn. auto using new_ok.
  - apply Forall_app in HF as [HF HX]. inversion HX as [|? ? HB _]; subst. rewrite dexec_app in H. destruct (dexec c chk xs (winit c chk)) as [w1|] eqn:E; [|discriminate].
    destruct (IH HF w1 eq_refl) as (H1 & H2 & H3). cbn [dexec] in H. destruct (dstep c chk x w1) as [w2|] eqn:ES; [|discriminate]. injection H as <-.
    destruct x as [[[] ch| |e]|]; cbn [dstep wstep] in ES.
    + injection ES as <-. cbn [w_new w_net w_dead]. auto using arrive_ok.
    + injection ES as <-. cbn [w_new w_net w_dead]. auto using arrive_ok.
    + unfold wread in ES. rewrite H3, HK in ES. pose proof (tokio_take_ok chk _ H1) as T1. pose proof (tokio_take_ok chk _ H2) as T2.
      destruct (y_pc (w_sys w1)) eqn:EP; try discriminate ES; unfold read_result in ES.
      * destruct (take_chunk Tokio chk (w_new w1)) as [|r|p r|e|]; [discriminate ES| | | |destruct T1].
        -- rewrite HK in ES. injection ES as <-. auto.
        -- destruct (step c (EPacket p) (w_sys w1)); [|discriminate ES]. injection ES as <-. auto.
        -- destruct (step c (EReadErr e) (w_sys w1)); [|discriminate ES]. injection ES as <-. auto.
      * destruct (take_chunk Tokio chk (w_net w1)) as [|r|p r|e|]; [discriminate ES| | | |destruct T2].
        -- rewrite HK in ES. injection ES as <-. auto.
        -- destruct (step c (EPacket p) (w_sys w1)); [|discriminate ES]. injection ES as <-. auto.
        -- destruct (step c (EReadErr e) (w_sys w1)); [|discriminate ES]. injection ES as <-. auto.
    + unfold wevents in ES. destruct (Wire.is_read e || _); [discriminate ES|]. destruct (step c e (w_sys w1)) as [s|]; [|discriminate ES]. injection ES as <-.
      destruct e; cbn [w_new w_net w_dead]; try (destruct (opens _ _ _)); auto using new_ok; rewrite HK; auto using drop_bytes_ok.
    + apply wdrop_case in ES as (_ & _ & -> & -> & [-> | ->]); rewrite ?HK; auto using drop_bytes_ok.
Qed.
(* smol: run is dropped while it waits, and called again *)
Lemma drop_resume c chk w t : cf_rt c = Smol -> dreachable c chk w -> w_dead w = false -> y_pc (w_sys w) = PSelect t ->
  exists s, dexec c chk [DDrop; DWire (WEvent ERun)] w = Some (Wire s (w_new w) (w_net w) false) /\
    trace s = trace (w_sys w) ++ [ORun] /\ y_net s = y_net (w_sys w) /\ y_state s = y_state (w_sys w) /\ y_wait s = y_wait (w_sys w) /\
    y_chan s = y_chan (w_sys w) /\ (exists u, y_pc s = PSelect u).
Proof.
  intros HK HR HD HP. destruct (drop_linked _ _ _ HR) as (_ & _ & HC). rewrite HP in HC. specialize (HC eq_refl).
  cbn [dexec dstep]. unfold wdrop. rewrite HD. unfold drop_task. rewrite HP, HK. cbn [drop_read wstep]. unfold wevents. cbn [Wire.is_read Wire.is_client w_dead w_sys negb andb orb w_net w_new].
  cbn [step]. change (y_pc (set_pc PIdle (w_sys w))) with PIdle. unfold start_run. change (y_net (set_pc PIdle (w_sys w))) with (y_net (w_sys w)). rewrite HC, HK.
  eexists. split; [reflexivity|]. split; [unfold trace; cbn; now rewrite map_app|]. cbn. repeat (split; [reflexivity|]). eauto.
Qed.
