(* C80: what is the case when nothing is left to do. *)
From Verif Require Import Base VarInt Prims Props Codes Packets BaseFacts Options Session Client System SpecSession SpecNet SpecTrace SpecCodec SpecRead SpecOut SpecEnd SmolStream TokioRead Wire SpecWire SpecPolite SpecSettle SpecBytes SpecCarry SpecLabour
  SessionFacts SystemFacts Cases NetFacts LoopMore WireFacts WireMore Check Witness PanicFacts OutFacts OutMore EndMore BytesFacts BytesMore BytesWorld BytesPlay CarryFacts CarryMore SettleMore SettleEnd LabourFacts.

(* ---- the broker can answer ---- *)
Lemma sentb_parts p : wfb p = true -> exclb p && aexclb p && okb (write_packet p) && okb (awrite_packet p) = true ->
  match p with PPubRec _ | PPubComp _ => negb (len (plain_bytes p) =? 5) | PDisconnect _ => negb (len (plain_bytes p) =? 3) | PAuth _ => negb (len (plain_bytes p) =? 2) | _ => true end = true -> sentb p = true.
Proof. intros H1 H2 H3. unfold sentb, cleanb. rewrite H3, H1. cbn [andb]. now rewrite H2. Qed.
Lemma small_sent i : i < 65536 -> sentb (PPubAck (Ack i RSuccess no_props)) = true /\ sentb (PPubRec (Ack i RSuccess no_props)) = true /\ sentb (PPubComp (Ack i RSuccess no_props)) = true /\
  sentb (PSubAck (SubAck i no_props [RGrantedQoS0])) = true /\ sentb (PUnsubAck (SubAck i no_props [RSuccess])) = true.
Proof.
  intros Hi. apply N.ltb_lt in Hi. repeat apply conj; apply sentb_parts; try (vm_compute; reflexivity).
  all: unfold wfb, packetb, ackb, subackb; cbn [ak_id sa_id]; rewrite Hi; vm_compute; reflexivity.
Qed.
Lemma can_answer p : packet_ok p -> unanswerable p = true \/ exists a, answer_to p a = true /\ sentb a = true.
Proof.
  intros HP. destruct (unanswerable p) eqn:EU; [now left|right]. destruct p; try discriminate EU; cbn [unanswerable packet_ok] in *.
  - exists (PConnAck (ConnAck false RSuccess no_props)). split; vm_compute; reflexivity.
  - destruct HP as (_ & HI & _). destruct (pb_qos p) eqn:EQ, (pb_pkid p) as [i|] eqn:EP; try discriminate EU; destruct (small_sent i HI) as (S1 & S2 & _).
    + exists (PPubAck (Ack i RSuccess no_props)). split; [|exact S1]. cbn. rewrite EQ, EP. apply N.eqb_refl.
    + exists (PPubRec (Ack i RSuccess no_props)). split; [|exact S2]. cbn. rewrite EQ, EP. apply N.eqb_refl.
  - destruct HP as (HI & _). destruct (small_sent _ HI) as (_ & _ & S3 & _). exists (PPubComp (Ack (ak_id a) RSuccess no_props)). split; [apply N.eqb_refl|exact S3].
  - destruct HP as (HI & _). destruct (small_sent _ HI) as (_ & _ & _ & S4 & _). exists (PSubAck (SubAck (sb_id s) no_props [RGrantedQoS0])). split; [apply N.eqb_refl|exact S4].
  - destruct HP as (HI & _). destruct (small_sent _ HI) as (_ & _ & _ & _ & S5). exists (PUnsubAck (SubAck (ub_id u) no_props [RSuccess])). split; [apply N.eqb_refl|exact S5].
  - exists PPingResp. split; vm_compute; reflexivity.
Qed.
Lemma can_deal c chk g i k : Forall packet_ok (pi_queue k) -> pi_queue k <> [] -> exists i' k', labour c chk g i k i' k'.
Proof.
  intros HF HN. destruct (pi_queue k) as [|p q] eqn:EQ; [congruence|]. inversion HF as [|? ? HP _]; subst. destruct (can_answer p HP) as [HU|(a & HA & HS)]; do 2 eexists.
  - apply (la_deals c chk g i k q [] []); [|constructor]. unfold answering. rewrite EQ. exact (de_none p (pi_used k) [] q [] (pi_live k) HU).
  - apply (la_deals c chk g i k q [a] [plain_bytes a]); [|repeat constructor; now apply sentb_ok]. unfold answering. rewrite EQ. exact (de_answer p a (pi_used k) [] q [] (pi_live k) HA).
Qed.
Lemma can_send c chk g i k u d : along c chk i k u d -> Forall packet_ok (pi_queue k) -> u <> [] -> exists i' k', labour c chk g i k i' k'.
Proof.
  intros HA HF HN. destruct (pi_queue k) as [|p q] eqn:EQ; [|apply can_deal; rewrite EQ; [exact HF|discriminate]].
  destruct (al_up _ _ _ _ _ _ HA) as (us & cs & cut & EU & HP & HE & EP & _). rewrite EQ in EU. cbn [app] in EU. subst us. inversion HE as [|p b u' cs' HE1 _ E1 E2]; subst; [congruence|].
  inversion HP as [|? ? HP1 _]; subst. cbn [concat] in EP. rewrite <- app_assoc in EP. do 2 eexists. eapply la_decode; [exact EP|exact HP1|exact HE1].
Qed.

(* ---- the client can act ---- *)
Lemma can_feel rt l k : Forall (fun o => o <> OConnect) l -> exists k', felt_all rt l k k'.
Proof.
  intros H. revert k. induction H as [|o l HO HL IH]; intros k; [eexists; constructor|].
  assert (exists k1, felt rt o k k1) as [k1 H1].
  { destruct (felt_fun rt o k) as [k1|] eqn:E; [exists k1; now apply felt_fun_ok|]. destruct k as [us u q d v]. destruct o; try discriminate E; [congruence|]. destruct r; discriminate E. }
  destruct (IH k1) as [k2 H2]. exists k2. econstructor; eassumption.
Qed.
Lemma tcase_feel c s e l st wt ch n q t rt k : tcase c s e l st wt ch n q t -> e <> EConnect -> exists k', felt_all rt l k k'.
Proof.
  intros H HE. apply can_feel. apply Forall_forall. intros o Ho ->. destruct H; try congruence; repeat (destruct Ho as [Ho|Ho]; [discriminate Ho|]); try contradiction Ho.
  all: repeat (apply in_app_iff in Ho as [Ho|Ho]); repeat (destruct Ho as [Ho|Ho]; [discriminate Ho|]); try contradiction Ho.
  all: try (apply tokio_writes_origin in Ho as (y & _ & [Ho|Ho]); discriminate Ho).
  all: apply smol_writes_origin in Ho as (y & _ & [Ho|Ho]); discriminate Ho.
Qed.
(* an event that reads nothing *)
Lemma can_act c chk i k e s' : reachable c (w_sys i) -> effort (w_sys i) e -> match e with EPacket _ => False | _ => True end -> step c e (w_sys i) = Some s' -> w_dead i = false ->
  (forall i', wstep c chk (WEvent e) i = Some i' -> sr_torn (w_net i') = false) -> exists i' k', labour c chk true i k i' k'.
Proof.
  intros HR HE HP HS HD HT. destruct (step_tcase _ _ _ _ HR HS) as (l & st & wt & ch & n & q & t & HTC & EN).
  assert (exists i', wstep c chk (WEvent e) i = Some i' /\ w_sys i' = s') as (i' & HW & EI).
  { cbn [wstep]. unfold wevents. assert (is_read e = false) as -> by (destruct e; try contradiction; reflexivity). rewrite HD, HS. cbn [orb andb]. eexists. split; [reflexivity|]. destruct e; reflexivity. }
  destruct (tcase_feel _ _ _ _ _ _ _ _ _ _ (cf_rt c) k HTC ltac:(intros ->; exact HE)) as [k' HF].
  exists i', k'. eapply la_client; [|exact HW| |exact HF|]; [exact HE| |auto]. rewrite EI, EN. apply next_trace.
Qed.
Lemma can_arrive c chk g i k : pi_down k <> [] -> exists i' k', labour c chk g i k i' k'.
Proof.
  intros HN. assert (exists i', wstep c chk (WArrive (negb (pi_used k)) (pi_down k)) i = Some i') as [i' H] by (cbn [wstep]; destruct (negb (pi_used k)); eauto).
  exists i'. eexists. apply la_arrive with (ch := pi_down k) (rest := []); [now rewrite app_nil_r|exact HN|exact H].
Qed.
Lemma take_torn rt chk r r' p : take_chunk rt chk r = SMore r' \/ take_chunk rt chk r = SPacket p r' -> sr_torn r' = sr_torn r.
Proof. intros H. exact (proj2 (take_keeps rt chk r r' p H)). Qed.
Lemma can_read c chk i k t : cf_rt c = Tokio -> reachable c (w_sys i) -> w_dead i = false -> y_pc (w_sys i) = PSelect t -> sr_torn (w_net i) = false -> sr_in (w_net i) <> [] -> exists i' k', labour c chk true i k i' k'.
Proof.
  intros ER HR HD EP HT HN.
  assert (forall i' e, wstep c chk WRead i = Some i' -> step c e (w_sys i) = Some (w_sys i') -> e <> EConnect -> sr_torn (w_net i') = false -> exists i' k', labour c chk true i k i' k') as K.
  { intros i' e HW HS HE HTo. destruct (step_tcase _ _ _ _ HR HS) as (l & st & wt & ch & n & q & t' & HTC & EN). destruct (tcase_feel _ _ _ _ _ _ _ _ _ _ (cf_rt c) k HTC HE) as [k' HF].
    exists i', k'. eapply la_client; [|exact HW| |exact HF|]; [exact I|rewrite EN; apply next_trace|auto]. }
  assert (forall i', wstep c chk WRead i = Some i' -> w_sys i' = w_sys i -> sr_torn (w_net i') = false -> exists i' k', labour c chk true i k i' k') as K0.
  { intros i' HW HS HTo. exists i', k. eapply (la_client c chk true i k WRead i' []); [exact I|exact HW|now rewrite HS, app_nil_r|constructor|auto]. }
  cbn [wstep] in K, K0. unfold wread in K, K0. rewrite HD, EP in K, K0. unfold read_result in K, K0. rewrite EP in K, K0. rewrite ER in K, K0.
  destruct (take_chunk Tokio chk (w_net i)) as [|r|p r|e|] eqn:ET.
  - exfalso. apply HN. clear - ET. unfold take_chunk in ET. destruct (sr_in (w_net i)) as [|[|b ch] rest]; [reflexivity|discriminate|]. unfold tokio_take in ET. destruct (aread_packet _); discriminate.
  - pose proof (take_torn _ _ _ _ PPingReq (or_introl ET)) as ETo. eapply K0; [reflexivity|reflexivity|cbn [w_net]; congruence].
  - pose proof (take_torn _ _ _ _ p (or_intror ET)) as ETo. destruct (step c (EPacket p) (w_sys i)) as [s|] eqn:ES; [|cbn [step] in ES; rewrite EP in ES; discriminate ES].
    cbn [option_map] in K. eapply (K _ (EPacket p)); [reflexivity|exact ES|discriminate|cbn [w_net]; congruence].
  - destruct (step c (EReadErr e) (w_sys i)) as [s|] eqn:ES; [|cbn [step] in ES; rewrite EP in ES; discriminate ES].
    cbn [option_map] in K. eapply (K _ (EReadErr e)); [reflexivity|exact ES|discriminate|exact HT].
  - eapply K0; [reflexivity|reflexivity|exact HT].
Qed.

(* ---- states of a run ---- *)
Lemma attentive_live k w q ps v w' : attentive_serves k w q ps v w' -> pi_live k = false -> v = false.
Proof. intros (-> & _). auto. Qed.
Lemma labour_attended c chk g i k i' k' : attended_bytes c chk g i k -> labour c chk g i k i' k' -> attended_bytes c chk g i' k'.
Proof.
  intros HA HL. unfold attended_bytes in *. destruct HL as [x i' l k' HX HS HT HF HG|ch rest i' HD HN HS|p b rest HU HP HE|q ps bs HQ HSe].
  - assert (is_arrival x = false) as HI by (destruct x; [contradiction HX| |]; reflexivity).
    assert (wire_ok x) as HO. { destruct x as [| |e]; [contradiction HX|exact I|]. cbn [wire_ok]. apply effort_ok with (w_sys i); [exact HX|]. destruct e; auto. cbn [wstep] in HS. unfold wevents in HS. discriminate HS. }
    pose proof (cy_client _ _ _ _ _ _ _ _ _ _ _ _ _ _ HA HI HO HS HT HF HG) as X. assert (forall (l : list out) (w : unit), fold_left (fun w _ => w) l w = w) as E by (induction l0 as [|o m IH]; intros w; [reflexivity|apply IH]). now rewrite E in X.
  - destruct k as [us up q dn v]. cbn [pi_used pi_up pi_queue pi_down pi_live] in *. subst dn. eapply cy_arrive; eassumption.
  - destruct k as [us up q dn v]. cbn [pi_used pi_up pi_queue pi_down pi_live] in *. subst up. eapply cy_decode; eassumption.
  - eapply cy_broker; [exact HA| |exact HSe]. split; [reflexivity|now left].
Qed.
Lemma labours_attended c chk g i k i' k' : attended_bytes c chk g i k -> labours c chk g i k i' k' -> attended_bytes c chk g i' k'.
Proof. intros HA H. induction H as [|i k i1 k1 i' k' H1 H2 IH]; [exact HA|]. apply IH. eapply labour_attended; eassumption. Qed.
Lemma felt_queue rt l k k' : felt_all rt l k k' -> Forall packet_ok (pi_queue k) -> Forall packet_ok (pi_queue k').
Proof. induction 1 as [|o l k k1 k' HO _ IH]; auto. intros H. apply IH. destruct HO; auto. constructor. Qed.
Lemma bytes_kept c chk i k : attended_bytes c chk true i k -> Forall packet_ok (pi_queue k) /\ sr_torn (w_net i) = false.
Proof.
  unfold attended_bytes. generalize tt at 2. intros w H.
  induction H as [|x i k w i' l k' H [IH1 IH2] HA HX HS HL HF HT|ch rest us u q v i w i' H [IH1 IH2] HS|p b rest us q d v i w H [IH1 IH2] HP HE|i k w q ps v w' bs H [IH1 IH2] HBr HSe|i k w ps w' bs H [IH1 IH2] HBr HSe]; cbn [pi_queue] in *.
  - split; [constructor|reflexivity].
  - split; [eapply felt_queue; eassumption|auto].
  - split; [exact IH1|]. cbn [wstep] in HS. destruct (negb us); injection HS as <-; exact IH2.
  - split; [apply Forall_app; auto|exact IH2].
  - split; [|exact IH2]. destruct HBr as (_ & [HD|(-> & _)]); [|exact IH1]. unfold answering in HD. inversion HD; subst.
    all: match goal with H : _ ++ _ = pi_queue _ |- _ => rewrite <- H in IH1 end; apply Forall_app in IH1 as [X1 X2]; inversion X2; subst; apply Forall_app; auto.
  - split; [constructor|exact IH2].
Qed.
Lemma bytes_whole c chk i k : config_ok c -> built c -> cf_rt c = Tokio -> attended_bytes c chk true i k -> w_dead i = false.
Proof.
  intros HC HB HK H. destruct (carried_run _ _ _ _ _ _ _ _ _ HC HB attentive_live H) as (xs & HX & HR). apply no_panic with (c := c) (chk := chk) (xs := xs); auto.
  eapply Forall_impl; [|exact HX]. intros []; cbn; auto.
Qed.
(* all bytes have been read *)
Lemma idle_stream c chk i k u d : cf_rt c = Tokio -> along c chk i k u d -> nt_connected (y_net (w_sys i)) = true -> pi_down k = [] -> sr_in (w_net i) = [] -> d = [] /\ sr_buf (w_net i) = [].
Proof.
  intros HK HA HN HD HI. destruct (al_down _ _ _ _ _ _ HA) as [_ HB]. unfold connecting, current in HB. rewrite HN, orb_true_r in HB. destruct (HB eq_refl) as (HT & bs & HF & E).
  destruct (wire_good _ _ _ (run_to_reachable _ _ _ (al_run _ _ _ _ _ _ HA))) as [_ HG].
  destruct (HG _ _ _ HF E HT) as (ps1 & ps2 & bs1 & bs2 & E1 & E2 & E3 & E4 & E5 & E6 & E7 & _). rewrite HI in E6. cbn [concat] in E6. rewrite app_nil_r in E6.
  rewrite HD, app_nil_r, E6, E2, concat_app in E. apply app_inv_head in E. rewrite E5 in E1. apply app_inv_head in E1. subst ps2.
  assert (sr_buf (w_net i) = []) as EB.
  { destruct (sr_buf (w_net i)) as [|x l] eqn:EX; [reflexivity|]. rewrite <- EX in *. destruct (E7 HK ltac:(rewrite EX; discriminate)) as (b & bs' & t & -> & -> & HN'). exfalso. apply HN'.
    cbn [concat] in E. rewrite <- (app_nil_r (sr_buf (w_net i))) in E at 1. rewrite <- app_assoc in E. apply app_inv_head in E. symmetry in E. now apply app_eq_nil in E. }
  split; [|exact EB]. rewrite EB in E. destruct E4 as [|p b ps' bs' H1 _]; [reflexivity|]. exfalso. apply sent_encodes in H1 as [_ H1]. apply encodes_two in H1. cbn [concat] in E. destruct b; [rewrite len_nil in H1; lia|discriminate E].
Qed.
Lemma notice_packet c s p l st wt ch n q t w w' : tcase c s (EPacket p) l st wt ch n q t -> notices l w w' -> ln_down w <> [].
Proof.
  intros H HN. destruct (tcase_reads _ _ _ _ _ _ _ _ _ _ H) as (o & l' & -> & [-> | ->] & _); inversion HN as [|? ? ? ? ? H1 _]; subst; inversion H1; subst; cbn; try discriminate; contradiction.
Qed.
Lemma done_rest c chk i k u d : config_ok c -> built c -> cf_rt c = Tokio -> attended c (w_sys i) (line_of k u d) -> along c chk i k u d -> attended_bytes c chk true i k ->
  nt_connected (y_net (w_sys i)) = true -> all_done c chk true i k -> at_rest c (w_sys i) (line_of k u d).
Proof.
  intros HC HB HK HAt HA HBy HN HD. destruct (bytes_kept _ _ _ _ HBy) as [HQ HT]. pose proof (bytes_whole _ _ _ _ HC HB HK HBy) as HW. pose proof (attended_reachable _ _ _ HAt) as HR.
  pose proof (up_unlinked _ _ _ HC HAt HN) as HL.
  assert (~ exists i' k', labour c chk true i k i' k') as HX by (intros (i' & k' & X); exact (HD _ _ X)). clear HD.
  intros s' w' HTo. apply HX. destruct (pi_down k) as [|b0 dn] eqn:ED; [|apply can_arrive; rewrite ED; discriminate].
  destruct HTo as [e s' l w' H1 H2 H3 H4|w' H].
  2: { eapply can_send; [exact HA|exact HQ|]. unfold line_of in H. inversion H; subst; now destruct u1. }
  destruct (step_tcase _ _ _ _ HR H2) as (m & st & wt & ch & n & q & t & HTC & EN). rewrite EN, next_trace in H3. apply app_inv_head in H3. subst m.
  assert ((exists t0, y_pc (w_sys i) = PSelect t0) -> sr_in (w_net i) <> [] -> exists i' k', labour c chk true i k i' k') as HRead.
  { intros [t0 EP] HI. eapply can_read; eauto. }
  destruct e; cbn [effort] in H1; try contradiction H1.
  all: try (match type of H2 with step _ ?e _ = _ => apply (can_act c chk i k e s' HR H1 I H2 HW) end; cbn [wstep]; unfold wevents; rewrite HW, H2; cbn [is_read orb andb is_client negb]; intros i' [= <-]; cbn [w_net]; first [exact HT|cbn [opens]; destruct (y_pc (w_sys i)); try exact HT; discriminate HL]).
  - (* a packet *) apply (notice_packet _ _ _ _ _ _ _ _ _ _ _ _ HTC) in H4. cbn [line_of ln_down] in H4.
    assert (exists t0, y_pc (w_sys i) = PSelect t0) as HP. { cbn [step] in H2. destruct (y_pc (w_sys i)) eqn:EP; try discriminate H2; [discriminate HL|eauto]. }
    apply (HRead HP). intros HI. destruct (idle_stream _ _ _ _ _ _ HK HA HN ED HI) as [-> _]. now apply H4.
  - (* a request *) destruct (sr_in (w_net i)) as [|c0 cs] eqn:EI; [|apply HRead; [|discriminate]].
    2: { cbn [step] in H2. destruct (y_pc (w_sys i)) eqn:EP; try discriminate H2. eauto. }
    destruct (idle_stream _ _ _ _ _ _ HK HA HN ED EI) as [_ EB]. apply (can_act c chk i k EOutgoing s' HR I I H2 HW). cbn [wstep]; unfold wevents; rewrite HW, H2; cbn [is_read orb andb is_client negb]; intros i' [= <-]; cbn [w_net].
    unfold drop_read. rewrite HK. cbn [sr_torn]. now rewrite HT, EB.
Qed.

(* ---- runs ---- *)
Definition why (c : config) (h l : list out) (pending : Prop) (r : status + cerr) : Prop := good_reason c h l r \/ r = inr Io /\ pending.
Lemma end_attended c s s' w w' : attended c s w -> read_end c s s' w w' -> attended c s' w'.
Proof. intros HA (l & HS & HT & HN). eapply an_client; [exact HA| |exact HS|exact HT|exact HN]. now left. Qed.
Lemma part_attended c s s' w : attended c s w -> step c EPartial s = Some s' -> attended c s' w.
Proof. intros HA HS. eapply (an_client c s w EPartial s' [] w); [exact HA|exact I|exact HS| |constructor]. cbn [step] in HS. destruct (y_pc s); try discriminate HS. destruct (cf_rt c); try discriminate HS; injection HS as <-; symmetry; apply app_nil_r. Qed.
Lemma toil_grows c s w s' w' : toil c s w s' w' -> exists l, trace s' = trace s ++ l.
Proof. intros [e s1 l w1 _ _ E _|w1 _]; [eauto|exists []; now rewrite app_nil_r]. Qed.
(* one step, when no connection is being opened *)
Lemma labour_why c chk i k u d i' k' : config_ok c -> built c -> attended c (w_sys i) (line_of k u d) -> along c chk i k u d -> linking (y_pc (w_sys i)) = false -> labour c chk true i k i' k' ->
  exists u' d' l, attended c (w_sys i') (line_of k' u' d') /\ along c chk i' k' u' d' /\ trace (w_sys i') = trace (w_sys i) ++ l /\ Forall late l /\ linking (y_pc (w_sys i')) = false /\
    (nt_connected (y_net (w_sys i)) = false -> nt_connected (y_net (w_sys i')) = false) /\
    (nt_connected (y_net (w_sys i)) = true -> nt_connected (y_net (w_sys i')) = false -> exists r, In (ORunEnd r) l /\ why c (trace (w_sys i')) l (In [] (sr_in (w_net i))) r) /\
    (cf_rt c = Tokio -> nt_connected (y_net (w_sys i')) = true -> exists n, toils c n (w_sys i) (line_of k u d) (w_sys i') (line_of k' u' d')).
Proof.
  intros HC HB HAt HA HL H. pose proof (attended_reachable _ _ _ HAt) as HR. destruct (labour_step _ _ _ _ _ _ _ _ HC HB HA H) as (u' & d' & HA' & HS). exists u', d'. destruct HS as [HS|[[HS HE]|(EL & HS & _)]].
  - pose proof (toil_attended _ _ _ _ _ HAt HS) as HAt'. destruct (toil_grows _ _ _ _ _ HS) as [l E].
    exists l. destruct (toil_why _ _ _ _ _ _ HC HAt HL HS E) as (T1 & T2 & T3 & T4). do 6 (split; [assumption|]). split.
    + intros X Y. destruct (T4 X Y) as (r & R1 & R2). exists r. split; [exact R1|now left].
    + intros _ _. exists 1%nat. econstructor; [exact HS|constructor].
  - pose proof (end_attended _ _ _ _ _ HAt HS) as HAt'. destruct HS as (l & ES & ET & EN). exists l. do 3 (split; [assumption|]).
    destruct HE as [HE|HE]; [rewrite HE in HL; discriminate HL|]. destruct (step_tcase _ _ _ _ HR ES) as (m & st & wt & ch & n & q & t & HTC & EX). rewrite EX, next_trace in ET. apply app_inv_head in ET. subst m. rewrite EX. cbn [next y_pc y_net].
    inversion HTC; subst; [match goal with X : y_pc _ = PConnRead |- _ => rewrite X in HL; discriminate HL end|].
    split; [repeat constructor|]. split; [reflexivity|]. rewrite end_off. split; [auto|]. split; [|discriminate]. intros _ _. exists (inr Io). split; [now left|]. right. auto.
  - rewrite EL. destruct HS as [HS|[HS HK]].
    + exists []. rewrite HS. rewrite app_nil_r. do 2 (split; [assumption|]). split; [reflexivity|]. split; [constructor|]. split; [exact HL|]. split; [auto|]. split; [congruence|]. intros _ _. exists 0%nat. constructor.
    + exists []. split; [eapply part_attended; eassumption|]. split; [exact HA'|]. rewrite app_nil_r. cbn [step] in HS. destruct (y_pc (w_sys i)) eqn:EP; try discriminate HS. rewrite HK in HS.
      injection HS as HS. rewrite <- HS. split; [reflexivity|]. split; [constructor|]. cbn. split; [reflexivity|]. split; [auto|]. split; [congruence|]. congruence.
Qed.
Lemma labours_why c chk i k i' k' : config_ok c -> built c -> labours c chk true i k i' k' -> forall u d, attended c (w_sys i) (line_of k u d) -> along c chk i k u d -> linking (y_pc (w_sys i)) = false ->
  exists u' d' l, attended c (w_sys i') (line_of k' u' d') /\ along c chk i' k' u' d' /\ trace (w_sys i') = trace (w_sys i) ++ l /\
    (nt_connected (y_net (w_sys i)) = false -> nt_connected (y_net (w_sys i')) = false) /\
    (nt_connected (y_net (w_sys i)) = true -> nt_connected (y_net (w_sys i')) = false -> exists r, In (ORunEnd r) l /\ why c (trace (w_sys i')) l (In [] (sr_in (w_net i))) r) /\
    (cf_rt c = Tokio -> nt_connected (y_net (w_sys i')) = true -> exists n, toils c n (w_sys i) (line_of k u d) (w_sys i') (line_of k' u' d')).
Proof.
  intros HC HB H. induction H as [i k|i k i1 k1 i' k' H1 H2 IH]; intros u d HAt HA HL.
  - exists u, d, []. rewrite app_nil_r. do 4 (split; [auto|]). split; [congruence|]. intros _ _. exists 0%nat. constructor.
  - destruct (labour_why _ _ _ _ _ _ _ _ HC HB HAt HA HL H1) as (u1 & d1 & l1 & A1 & A2 & A3 & _ & A4 & A5 & A6 & A7). destruct (IH _ _ A1 A2 A4) as (u' & d' & l2 & B1 & B2 & B3 & B4 & B5 & B6).
    exists u', d', (l1 ++ l2). split; [exact B1|]. split; [exact B2|]. split; [now rewrite B3, A3, app_assoc|]. split; [auto|]. split.
    + intros HN HF. destruct (nt_connected (y_net (w_sys i1))) eqn:EN.
      * destruct (B5 eq_refl HF) as (r & X1 & X2). exists r. split; [apply in_or_app; now right|]. destruct X2 as [X2|[X2 X3]]; [left|right].
        -- eapply reason_more; [exact X2|auto|]. intros o X. apply in_or_app. now right.
        -- split; [exact X2|]. exact (labour_chunks _ _ _ _ _ _ _ HL H1 X3).
      * destruct (A6 HN eq_refl) as (r & X1 & X2). exists r. split; [apply in_or_app; now left|]. destruct X2 as [X2|X2]; [left|now right].
        eapply reason_more; [exact X2| |]; intros o X; [rewrite B3|]; apply in_or_app; now left.
    + intros HK HN. destruct (B6 HK HN) as [n Hn]. destruct (nt_connected (y_net (w_sys i1))) eqn:EN; [|rewrite (B4 eq_refl) in HN; discriminate HN]. destruct (A7 HK eq_refl) as [m Hm]. exists (m + n)%nat. eapply toils_app; eassumption.
Qed.
Theorem bytes_reason c chk g i k i' k' l : config_ok c -> built c -> g = true \/ cf_rt c = Smol -> attended_bytes c chk g i k -> nt_connected (y_net (w_sys i)) = true -> labours c chk true i k i' k' ->
  trace (w_sys i') = trace (w_sys i) ++ l -> nt_connected (y_net (w_sys i')) = false -> exists r, In (ORunEnd r) l /\ (good_reason c (trace (w_sys i')) l r \/ r = inr Io /\ In [] (sr_in (w_net i))).
Proof.
  intros HC HB HG HA HN HL HT HF. destruct (bytes_attended _ _ _ _ _ HC HB HG HA) as (u & d & H1 & H2). destruct (labours_why _ _ _ _ _ _ HC HB HL _ _ H1 H2 (up_unlinked _ _ _ HC H1 HN)) as (u' & d' & l' & _ & _ & E & _ & X & _).
  rewrite HT in E. apply app_inv_head in E. subst l'. exact (X HN HF).
Qed.
Theorem bytes_answered c chk i k i' k' l : config_ok c -> built c -> send_max (cf_opts c) <= receive_max (cf_opts c) -> cf_rt c = Tokio -> attended_bytes c chk true i k -> nt_connected (y_net (w_sys i)) = true ->
  labours c chk true i k i' k' -> all_done c chk true i' k' -> trace (w_sys i') = trace (w_sys i) ++ l -> pi_live k' = true -> unbroken (trace (w_sys i')) = true -> nt_connected (y_net (w_sys i')) = true ->
  in_flight (now_ledger c (w_sys i')) = [] /\ y_wait (w_sys i') = [] /\ y_chan (w_sys i') = [] /\
  (forall j, In j (in_flight (now_ledger c (w_sys i))) -> exists p, In (ORead p) l /\ settles j p = true).
Proof.
  intros HC HB HM HK HA HN HL HD HT HV HU HN'. destruct (bytes_attended _ _ _ _ _ HC HB (or_introl eq_refl) HA) as (u & d & H1 & H2).
  destruct (labours_why _ _ _ _ _ _ HC HB HL _ _ H1 H2 (up_unlinked _ _ _ HC H1 HN)) as (u' & d' & l' & X1 & X2 & _ & _ & _ & X3). destruct (X3 HK HN') as [n Hn].
  pose proof (done_rest _ _ _ _ _ _ HC HB HK X1 X2 (labours_attended _ _ _ _ _ _ _ HA HL) HN' HD) as HR.
  exact (all_answered _ _ _ _ _ _ _ HC HM H1 HN Hn HR HT HV HU HN').
Qed.
