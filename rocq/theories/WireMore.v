(* The byte level and the log. *)
From Coq Require Import Permutation.
From Verif Require Import Base BaseFacts VarInt Prims Props Codes Packets PacketFacts Options Session Client System SpecCodec SpecSession SpecNet SpecTrace SpecRead SpecWire SmolStream TokioRead SystemFacts Cases NetFacts LoopMore ReadFacts ReadMore Wire WireFacts.
From Verif Require GoodFacts.

Lemma take_keeps rt chk r r' p : take_chunk rt chk r = SMore r' \/ take_chunk rt chk r = SPacket p r' -> sr_all r' = sr_all r /\ sr_torn r' = sr_torn r.
Proof.
  unfold take_chunk. destruct (sr_in r) as [|[|x ch] rest]; [intros [H|H]; discriminate H|intros [H|H]; discriminate H|]. destruct rt; [|destruct (sr_need r) as [w|]].
  - unfold tokio_take. destruct (aread_packet _); intros [H|H]; try discriminate H; injection H; intros; subst; auto.
  - unfold smol_answer. destruct (read_more _ _ _ _) as [|[]]; intros [H|H]; try discriminate H; injection H; intros; subst; auto.
  - unfold smol_take. destruct (parse_message _ _); intros [H|H]; try discriminate H; injection H; intros; subst; auto.
Qed.
Lemma take_got rt chk r r' : take_chunk rt chk r = SMore r' -> sr_got r' = sr_got r.
Proof.
  unfold take_chunk. destruct (sr_in r) as [|[|x ch] rest]; [intros H; discriminate H|intros H; discriminate H|]. destruct rt; [|destruct (sr_need r) as [w|]].
  - unfold tokio_take. destruct (aread_packet _); intros H; try discriminate H; injection H; intros; subst; auto.
  - unfold smol_answer. destruct (read_more _ _ _ _) as [|[]]; intros H; try discriminate H; injection H; intros; subst; auto.
  - unfold smol_take. destruct (parse_message _ _); intros H; try discriminate H; injection H; intros; subst; auto.
Qed.
Lemma take_got1 rt chk r r' p : take_chunk rt chk r = SPacket p r' -> sr_got r' = sr_got r ++ [p].
Proof.
  unfold take_chunk. destruct (sr_in r) as [|[|x ch] rest]; [intros H; discriminate H|intros H; discriminate H|]. destruct rt; [|destruct (sr_need r) as [w|]].
  - unfold tokio_take. destruct (aread_packet _); intros H; try discriminate H; injection H; intros; subst; auto.
  - unfold smol_answer. destruct (read_more _ _ _ _) as [|[]]; intros H; try discriminate H; injection H; intros; subst; auto.
  - unfold smol_take. destruct (parse_message _ _); intros H; try discriminate H; injection H; intros; subst; auto.
Qed.
Lemma good_more rt chk r r' : good rt r -> take_chunk rt chk r = SMore r' -> good rt r'.
Proof.
  intros HG HT ps bs fut HF E HN. destruct (take_keeps rt chk r r' PPingReq (or_introl HT)) as [E1 E2]. rewrite E1 in *. rewrite E2 in HN.
  pose proof (take_cases rt chk r ps bs fut HG HF E HN) as H. rewrite HT in H. now destruct H as (_ & _ & H).
Qed.
Lemma good_packet1 rt chk r r' p : good rt r -> take_chunk rt chk r = SPacket p r' -> good rt r'.
Proof.
  intros HG HT ps bs fut HF E HN. destruct (take_keeps rt chk r r' p (or_intror HT)) as [E1 E2]. rewrite E1 in *. rewrite E2 in HN.
  pose proof (take_cases rt chk r ps bs fut HG HF E HN) as H. rewrite HT in H. now destruct H as (_ & _ & H).
Qed.
Lemma wire_good c chk w : wreachable c chk w -> good (cf_rt c) (w_new w) /\ good (cf_rt c) (w_net w).
Proof.
  intros H. induction H as [|x w w' _ [IH1 IH2] H] using wreachable_ind; [split; apply good_new|].
  apply wstep_trans in H. destruct H; cbn [w_new w_net]; split; auto using good_arrive, good_drop, good_new.
  - destruct (opens c e (w_sys w)); assumption.
  - eapply good_more; [|eassumption]; assumption.
  - eapply good_packet1; [|eassumption]; assumption.
  - eapply good_more; [|eassumption]; assumption.
  - eapply good_packet1; [|eassumption]; assumption.
Qed.

(* --- the packets read from the stream are those of the log --- *)
Definition running (q : pc) : bool :=
  match q with PSelect _ | PHandle _ | PReply _ | PFlush _ | PRequest _ | PPing | PBye => true | _ => false end.
Definition open_step (acc : list packet) (o : out) : list packet :=
  match o with OConnectEnd None => [] | ORead p => acc ++ [p] | _ => acc end.
Lemma since_open_app l m : since_open (l ++ m) = fold_left open_step m (since_open l).
Proof. apply fold_left_app. Qed.
Lemma fold_same (f : list packet -> out -> list packet) l acc : (forall o acc, In o l -> f acc o = acc) -> fold_left f l acc = acc.
Proof. revert acc. induction l as [|o l IH]; intros acc H; [reflexivity|]. cbn. rewrite (H o acc) by now left. apply IH. intros o' a Ho. apply H. now right. Qed.
Lemma open_tokio o ps oks acc : fold_left open_step (tokio_writes o ps oks) acc = acc.
Proof. apply fold_same. intros x a Hx. apply tokio_writes_origin in Hx as (y & _ & [-> | ->]); reflexivity. Qed.
Lemma open_smol o ps ok acc : fold_left open_step (smol_writes o ps ok) acc = acc.
Proof. apply fold_same. intros x a Hx. apply smol_writes_origin in Hx as (y & _ & [-> | ->]); reflexivity. Qed.

Lemma tcase_open c s e l st w ch n q t : tcase c s e l st w ch n q t ->
  since_open (trace s ++ l) =
    (if opens c e s then [] else match e, y_pc s with EPacket p, PSelect _ => since_open (trace s) ++ [p] | _, _ => since_open (trace s) end).
Proof.
  intros H. rewrite since_open_app. destruct H; unfold opens;
    repeat match goal with E : y_pc s = _ |- _ => rewrite E | E : cf_rt c = _ |- _ => rewrite E | E : smol_write_all _ _ = _ |- _ => rewrite E end;
    rewrite ?fold_left_app, ?open_tokio, ?open_smol; try reflexivity; cbn; destruct (y_pc s); try reflexivity; destruct a; reflexivity.
Qed.
Lemma running_reply rt r t : running (reply_pc rt r t) = true.
Proof. destruct rt, r; reflexivity. Qed.
Definition conn_ok (q : pc) (r : stream) : Prop :=
  match q with
  | PConnWrite | PConnRead => sr_got r = []
  | PConnHandle _ | PConnResend _ => exists a, ca_rc a = RSuccess /\ sr_got r = [PConnAck a]
  | _ => True
  end.
Definition linked (w : wire) : Prop :=
  (nt_connected (y_net (w_sys w)) = true -> exists a, ca_rc a = RSuccess /\ sr_got (w_net w) = PConnAck a :: since_open (trace (w_sys w))) /\
  conn_ok (y_pc (w_sys w)) (w_new w) /\ (running (y_pc (w_sys w)) = true -> nt_connected (y_net (w_sys w)) = true).
Lemma tcase_running c s e l st w ch n q t : tcase c s e l st w ch n q t -> (running (y_pc s) = true -> nt_connected (y_net s) = true) ->
  (running q = true -> nt_connected n = true) /\
  (nt_connected n = true -> opens c e s = true \/ nt_connected (y_net s) = true).
Proof.
  intros H HR. destruct H; unfold opens;
    repeat match goal with E : y_pc s = _ |- _ => rewrite E in * | E : cf_rt c = _ |- _ => rewrite E in * | E : smol_write_all _ _ = _ |- _ => rewrite E in * end;
    cbn [running] in *; try specialize (HR eq_refl); rewrite ?connected_end, ?connected_apply; cbn [nt_connected set_connected set_last set_await] in *; auto;
    try (split; [discriminate|]; auto; fail).
  all: destruct (cf_rt c); cbn in *; auto.
Qed.
Lemma conn_reply rt o t r : conn_ok (reply_pc rt o t) r.
Proof. destruct rt, o; exact I. Qed.
Lemma tcase_conn c s e l st w ch n q t (r : stream) : tcase c s e l st w ch n q t -> conn_ok (y_pc s) r ->
  (e = EConnect -> sr_got r = []) -> (forall p, e = EPacket p -> y_pc s <> PConnRead) -> conn_ok q r.
Proof.
  intros H HC HE HP. destruct H; try (specialize (HP _ eq_refl); congruence);
    repeat match goal with E : y_pc s = _ |- _ => rewrite E in * end; auto using conn_reply; try exact I; try exact HC.
  - exact (HE eq_refl).
  - destruct (cf_rt c); exact I.
Qed.
Lemma tcase_answer c s p l st w ch n q t (r : stream) : tcase c s (EPacket p) l st w ch n q t -> y_pc s = PConnRead -> sr_got r = [p] -> conn_ok q r.
Proof. intros H HP HG. inversion H; subst; try congruence; try exact I. cbn. eauto. Qed.

Lemma linked_event c w s r1 r2 d e : reachable c (w_sys w) -> linked w -> step c e (w_sys w) = Some s ->
  conn_ok (y_pc s) r1 ->
  (opens c e (w_sys w) = true -> exists a, ca_rc a = RSuccess /\ sr_got r2 = [PConnAck a]) ->
  (opens c e (w_sys w) = false -> sr_got r2 = sr_got (w_net w) ++ match e, y_pc (w_sys w) with EPacket p, PSelect _ => [p] | _, _ => [] end) ->
  linked (Wire s r1 r2 d).
Proof.
  intros HR (H1 & H2 & H3) HS HC HO HN. destruct (step_tcase _ _ _ _ HR HS) as (l & st & wt & ch & n & q & t & HT & ->).
  destruct (tcase_running _ _ _ _ _ _ _ _ _ _ HT H3) as [HA HB]. unfold linked. cbn [w_sys w_new w_net]. split; [|split; [exact HC|exact HA]].
  intros HX. rewrite next_trace, (tcase_open _ _ _ _ _ _ _ _ _ _ HT). destruct (opens c e (w_sys w)) eqn:EO.
  - destruct (HO eq_refl) as (a & Ha & ->). eauto.
  - destruct (HB HX) as [HY|HY]; [discriminate HY|]. destruct (H1 HY) as (a & Ha & EG). exists a. split; [exact Ha|].
    rewrite HN, EG by reflexivity. destruct e; try apply app_nil_r. destruct (y_pc (w_sys w)); try apply app_nil_r; reflexivity.
Qed.
Lemma wire_linked c chk w : wreachable c chk w -> linked w.
Proof.
  intros H. induction H as [|x w w' HR IH H] using wreachable_ind.
  { split; [discriminate|]. split; [exact I|discriminate]. }
  pose proof (wire_refines _ _ _ HR) as HRS. apply wstep_trans in H.
  assert (forall e s, step c e (w_sys w) = Some s -> e <> EConnect -> (forall p, e = EPacket p -> y_pc (w_sys w) <> PConnRead) -> conn_ok (y_pc s) (w_new w)) as HCO.
  { intros e s HS HE HP. destruct (step_tcase _ _ _ _ HRS HS) as (l & st & wt & ch & n & q & t & HT & ->).
    eapply (tcase_conn _ _ _ _ _ _ _ _ _ _ _ HT); [apply IH|congruence|exact HP]. }
  destruct H.
  - destruct IH as (H1 & H2 & H3). split; [exact H1|]. split; [|exact H3]. exact H2.
  - destruct IH as (H1 & H2 & H3). split; [exact H1|]. split; [exact H2|exact H3].
  - eapply linked_event; [exact HRS|exact IH|eassumption| |discriminate|intros _; now rewrite app_nil_r].
    destruct (step_tcase _ _ _ _ HRS H) as (l & st & wt & ch & n & q & t & HT & ->). inversion HT; subst. reflexivity.
  - eapply linked_event; [exact HRS|exact IH|eassumption| | |].
    + eapply HCO; [eassumption|destruct H as [-> | ->]; discriminate|destruct H as [-> | ->]; discriminate].
    + destruct H as [-> | ->]; discriminate.
    + intros _. destruct H as [-> | ->]; rewrite app_nil_r; destruct (cf_rt c); reflexivity.
  - eapply linked_event; [exact HRS|exact IH|eassumption| | |].
    + eapply HCO; [eassumption|assumption|intros p ->; discriminate].
    + intros EO. rewrite EO. destruct IH as (_ & HX & _). unfold opens in EO. destruct e; try discriminate EO; destruct (y_pc (w_sys w)) as [| | |[?|]| | | | | | | | |]; try discriminate EO; exact HX.
    + intros EO. rewrite EO. destruct e; try (rewrite app_nil_r; reflexivity). discriminate H.
  - destruct IH as (H1 & H2 & H3). split; [exact H1|]. split; [|exact H3]. cbn [w_sys w_new]. rewrite H in *. cbn [conn_ok] in *. apply take_got in H0. congruence.
  - eapply linked_event; [exact HRS|exact IH|eassumption| |discriminate|].
    + destruct (step_tcase _ _ _ _ HRS H1) as (l & st & wt & ch & n & q & t & HT & ->). eapply tcase_answer; [exact HT|assumption|].
      apply take_got1 in H0. destruct IH as (_ & HX & _). rewrite H in HX. cbn [conn_ok] in HX. now rewrite H0, HX.
    + intros _. rewrite H. now rewrite app_nil_r.
  - eapply linked_event; [exact HRS|exact IH|eassumption| |discriminate|intros _; now rewrite app_nil_r]. eapply HCO; [eassumption|discriminate|discriminate].
  - eapply linked_event; [exact HRS|exact IH|eassumption| |discriminate|intros _; rewrite app_nil_r; eapply take_got; eassumption]. eapply HCO; [eassumption|discriminate|discriminate].
  - eapply linked_event; [exact HRS|exact IH|eassumption| |discriminate|intros _; rewrite H; eapply take_got1; eassumption]. eapply HCO; [eassumption|discriminate|]. intros. congruence.
  - eapply linked_event; [exact HRS|exact IH|eassumption| |discriminate|intros _; now rewrite app_nil_r]. eapply HCO; [eassumption|discriminate|discriminate].
  - exact IH.
Qed.

(* --- messages given to the handler --- *)
Definition handed (p : packet) : bool :=
  match p with
  | PPublish x => match pb_qos x with AtMostOnce => true | AtLeastOnce => is_some (pb_pkid x) | ExactlyOnce => false end
  | _ => false
  end.
Definition message_step (acc : list packet) (o : out) : list packet :=
  match o with OConnectEnd None => [] | OHandle p => if is_message p then acc ++ [p] else acc | _ => acc end.
Lemma messages_app l m : messages_since_open (l ++ m) = fold_left message_step m (messages_since_open l).
Proof. apply fold_left_app. Qed.
Lemma messages_tokio o ps oks acc : fold_left message_step (tokio_writes o ps oks) acc = acc.
Proof. apply fold_same. intros x a Hx. apply tokio_writes_origin in Hx as (y & _ & [-> | ->]); reflexivity. Qed.
Lemma messages_smol o ps ok acc : fold_left message_step (smol_writes o ps ok) acc = acc.
Proof. apply fold_same. intros x a Hx. apply smol_writes_origin in Hx as (y & _ & [-> | ->]); reflexivity. Qed.
Lemma messages_handed c s : reachable c s -> messages_since_open (trace s) = filter handed (since_open (trace s)).
Proof.
  revert s. apply reachable_ind2; [reflexivity|]. intros s e s' HR IH HS.
  destruct (step_tcase _ _ _ _ HR HS) as (l & st & w & ch & n & q & t & HT & ->). rewrite next_trace, messages_app, since_open_app.
  assert (forall p, fold_left open_step [ORead p] (since_open (trace s)) = since_open (trace s) ++ [p]) as H1 by reflexivity.
  destruct HT; rewrite ?fold_left_app, ?open_tokio, ?open_smol, ?messages_tokio, ?messages_smol; try reflexivity; try exact IH.
  all: cbn [fold_left open_step message_step]; rewrite ?filter_app, ?IH; cbn [filter app]; rewrite ?app_nil_r.
  all: try (destruct a; reflexivity).
  - destruct p; try discriminate H0; cbn; now rewrite app_nil_r.
  - destruct p; cbn [is_message handed]; rewrite ?app_nil_r; try reflexivity.
    cbn [handle_incoming_packet] in *. unfold handle_incoming_publish in *. destruct (pb_qos _); cbn [is_some]; rewrite ?app_nil_r; try reflexivity.
    destruct (pb_pkid _); [reflexivity|discriminate].
  - destruct p; cbn [is_message handed]; rewrite ?app_nil_r; try reflexivity.
    cbn [handle_incoming_packet] in *. unfold handle_incoming_publish in *. destruct (pb_qos _); cbn [is_some]; rewrite ?app_nil_r; try reflexivity; try discriminate.
    destruct (pb_pkid _); discriminate.
  - destruct p; cbn [is_message handed]; rewrite ?app_nil_r; try reflexivity.
    cbn [handle_incoming_packet] in *. unfold handle_incoming_publish in *. destruct (pb_qos _); cbn [is_some]; rewrite ?app_nil_r; try reflexivity; try discriminate.
    destruct (pb_pkid _); [discriminate|symmetry; apply app_nil_r].
  - destruct p; cbn [is_message handed]; rewrite ?app_nil_r; try reflexivity.
    cbn [handle_incoming_packet] in *. unfold handle_incoming_publish in *. destruct (pb_qos _); cbn [is_some]; rewrite ?app_nil_r; try reflexivity; try discriminate.
    destruct (pb_pkid _); discriminate.
Qed.

(* --- from the broker's bytes to the handler --- *)
Lemma handed_message p b : sent p b -> handed p = is_message p.
Proof.
  intros (HW & _). destruct p; try reflexivity. cbn. destruct (pb_qos p) eqn:EQ; try reflexivity. destruct HW as [HW _]. cbn [packet_ok] in HW.
  decompose [and] HW. match goal with H : pb_pkid _ = None <-> _ |- _ => destruct H as [X _] end. destruct (pb_pkid p); [reflexivity|]. rewrite EQ in X. discriminate (X eq_refl).
Qed.
Lemma handed_messages ps bs : Forall2 sent ps bs -> filter handed ps = filter is_message ps.
Proof. induction 1 as [|p b ps bs H _ IH]; [reflexivity|]. cbn. now rewrite (handed_message _ _ H), IH. Qed.

Lemma read_order c chk w ps bs fut : wreachable c chk w -> nt_connected (y_net (w_sys w)) = true ->
  Forall2 sent ps bs -> sr_all (w_net w) ++ fut = concat bs -> sr_torn (w_net w) = false ->
  exists a ps1 ps2, ca_rc a = RSuccess /\ ps = ps1 ++ ps2 /\ ps1 = PConnAck a :: since_open (trace (w_sys w)).
Proof.
  intros HR HC HF E HT. destruct (wire_good _ _ _ HR) as [_ HG]. destruct (wire_linked _ _ _ HR) as (HL & _). destruct (HL HC) as (a & Ha & EG).
  destruct (HG ps bs fut HF E HT) as (ps1 & ps2 & bs1 & bs2 & H1 & _ & _ & _ & H5 & _). exists a, ps1, ps2. split; [exact Ha|]. split; [exact H1|]. congruence.
Qed.
Lemma message_order c chk w ps bs fut : wreachable c chk w -> nt_connected (y_net (w_sys w)) = true ->
  Forall2 sent ps bs -> sr_all (w_net w) ++ fut = concat bs -> sr_torn (w_net w) = false ->
  exists ps1 ps2, ps = ps1 ++ ps2 /\ messages_since_open (trace (w_sys w)) = filter is_message ps1.
Proof.
  intros HR HC HF E HT. destruct (read_order _ _ _ _ _ _ HR HC HF E HT) as (a & ps1 & ps2 & Ha & -> & EP). exists ps1, ps2. split; [reflexivity|].
  rewrite (messages_handed _ _ (wire_refines _ _ _ HR)). apply Forall2_app_inv_l in HF as (b1 & b2 & HF & _ & _).
  rewrite <- (handed_messages _ _ HF), EP. reflexivity.
Qed.
(* tokio: nothing that has been taken from the stream is held back *)
Lemma part_complete got bs : part_of got bs -> Forall (fun b => b <> []) bs -> complete bs (len got) = O.
Proof.
  intros HP HN. destruct bs as [|b bs]; [reflexivity|]. apply complete_part. inversion HN as [|? ? HB _]; subst. destruct got as [|x got].
  - rewrite (@len_nil N). destruct b; [congruence|]. rewrite (@len_cons N). lia.
  - destruct HP as (b' & bs' & t & E & EB & HT); [discriminate|]. injection E as <- <-. rewrite EB, len_app. destruct t; [congruence|]. rewrite (@len_cons N _ t). lia.
Qed.
Lemma sent_nonempty ps bs : Forall2 sent ps bs -> Forall (fun b => b <> []) bs.
Proof. induction 1 as [|p b ps bs H _ IH]; constructor; auto. apply sent_long in H. intros ->. rewrite (@len_nil N) in H. lia. Qed.
Lemma read_all c chk w ps bs fut : wreachable c chk w -> cf_rt c = Tokio -> nt_connected (y_net (w_sys w)) = true ->
  Forall2 sent ps bs -> sr_all (w_net w) ++ fut = concat bs -> sr_torn (w_net w) = false -> concat (sr_in (w_net w)) = [] ->
  exists a, ca_rc a = RSuccess /\ PConnAck a :: since_open (trace (w_sys w)) = firstn (complete bs (len (sr_all (w_net w)))) ps.
Proof.
  intros HR HK HC HF E HT HI. destruct (wire_good _ _ _ HR) as [_ HG]. destruct (wire_linked _ _ _ HR) as (HL & _). destruct (HL HC) as (a & Ha & EG). exists a. split; [exact Ha|].
  destruct (HG ps bs fut HF E HT) as (ps1 & ps2 & bs1 & bs2 & -> & -> & HLn & HF2 & H5 & H6 & H7 & _). rewrite HI, app_nil_r in H6.
  rewrite H6, len_app, complete_app, (part_complete _ _ (H7 HK) (sent_nonempty _ _ HF2)), Nat.add_0_r, HLn, <- EG, H5.
  rewrite firstn_app, Nat.sub_diag, firstn_all. cbn. now rewrite app_nil_r.
Qed.
Lemma messages_all c chk w ps bs fut : wreachable c chk w -> cf_rt c = Tokio -> nt_connected (y_net (w_sys w)) = true ->
  Forall2 sent ps bs -> sr_all (w_net w) ++ fut = concat bs -> sr_torn (w_net w) = false -> concat (sr_in (w_net w)) = [] ->
  messages_since_open (trace (w_sys w)) = filter is_message (firstn (complete bs (len (sr_all (w_net w)))) ps).
Proof.
  intros HR HK HC HF E HT HI. destruct (read_all _ _ _ _ _ _ HR HK HC HF E HT HI) as (a & _ & EP).
  rewrite (messages_handed _ _ (wire_refines _ _ _ HR)), <- EP. set (k := complete _ _) in *.
  assert (exists b, Forall2 sent (firstn k ps) b) as (b & HB).
  { rewrite <- (firstn_skipn k ps) in HF. apply Forall2_app_inv_l in HF as (b1 & b2 & HF & _ & _). eauto. }
  rewrite <- EP in HB. rewrite <- (handed_messages _ _ HB). reflexivity.
Qed.
(* a broker that speaks MQTT never makes a read fail *)
Lemma no_read_error c chk w ps bs fut : wreachable c chk w -> Forall2 sent ps bs -> sr_all (w_net w) ++ fut = concat bs -> sr_torn (w_net w) = false ->
  take_chunk (cf_rt c) chk (w_net w) <> SFail DeserializationError.
Proof.
  intros HR HF E HT X. destruct (wire_good _ _ _ HR) as [_ HG]. pose proof (take_cases _ chk _ _ _ _ HG HF E HT) as H. rewrite X in H. destruct H as [H _]. discriminate H.
Qed.

(* --- every execution on packets that a broker can send is an execution on bytes --- *)
Definition fresh_new (r : stream) : Prop := sr_buf r = [] /\ sr_in r = [] /\ sr_need r = Some (Need 2 0 None).
Definition fresh_net (rt : runtime) (r : stream) : Prop := sr_buf r = [] /\ sr_in r = [] /\ (rt = Smol -> sr_need r = None).
Definition settled (c : config) (w : wire) : Prop := w_dead w = false /\
  (nt_connected (y_net (w_sys w)) = true -> fresh_net (cf_rt c) (w_net w)) /\
  match y_pc (w_sys w) with
  | PConnWrite | PConnRead => fresh_new (w_new w)
  | PConnHandle _ | PConnResend _ => fresh_net (cf_rt c) (w_new w)
  | _ => True
  end.
Lemma take_whole_new rt chk r p b : fresh_new r -> sent p b -> exists r', take_chunk rt chk (arrive b r) = SPacket p r' /\ fresh_net rt r'.
Proof.
  intros (EB & EI & EN) HS. pose proof (sent_long _ _ HS) as HL. destruct b as [|x b]; [rewrite (@len_nil N) in HL; lia|].
  unfold take_chunk. cbn [arrive sr_in sr_need sr_buf]. rewrite EI, EN. cbn [app]. set (bb := x :: b) in *. destruct rt.
  - unfold tokio_take. cbn [arrive sr_buf]. rewrite EB. cbn [app]. destruct (sent_areads p bb [] HS) as (n & E). rewrite app_nil_r in E. rewrite E.
    eexists. split; [reflexivity|]. split; [reflexivity|]. split; [reflexivity|discriminate].
  - unfold smol_answer. cbn [arrive sr_buf]. rewrite EB. cbn [app]. unfold read_more. cbn [wt_total wt_need wt_head].
    match goal with |- context [?u <? ?v] => replace (u <? v) with false by lia end.
    destruct (sent_shape _ _ HS) as (hd & body & h & E & HL2 & HR & _ & HH & _ & HF). unfold read_round. rewrite E, HH.
    match goal with |- context [?u <? ?v] => replace (u <? v) with false by (rewrite !len_app; lia) end. specialize (HF []). rewrite app_nil_r, E in HF. rewrite HF.
    eexists. split; [reflexivity|]. repeat split.
Qed.
Lemma take_whole_net rt chk r p b : fresh_net rt r -> sent p b -> exists r', take_chunk rt chk (arrive b r) = SPacket p r' /\ fresh_net rt r'.
Proof.
  intros (EB & EI & EN) HS. pose proof (sent_long _ _ HS) as HL. destruct b as [|x b]; [rewrite (@len_nil N) in HL; lia|].
  unfold take_chunk. cbn [arrive sr_in sr_need sr_buf]. rewrite EI. cbn [app]. set (bb := x :: b) in *. destruct rt.
  - unfold tokio_take. cbn [arrive sr_buf]. rewrite EB. cbn [app]. destruct (sent_areads p bb [] HS) as (n & E). rewrite app_nil_r in E. rewrite E.
    eexists. split; [reflexivity|]. split; [reflexivity|]. split; [reflexivity|discriminate].
  - rewrite EN by reflexivity. unfold smol_take. cbn [arrive sr_buf]. rewrite EB. cbn [app]. pose proof (parse_whole chk p bb [] HS) as HP. rewrite app_nil_r in HP. rewrite HP.
    eexists. split; [reflexivity|]. repeat split.
Qed.
Lemma wreachable_step c chk x w w' : wreachable c chk w -> wstep c chk x w = Some w' -> wreachable c chk w'.
Proof. intros [xs H] H1. exists (xs ++ [x]). rewrite wexec_app, H. cbn. now rewrite H1. Qed.
Lemma fresh_drop rt r : fresh_net rt r -> fresh_net rt (drop_read rt r).
Proof. intros H. destruct rt; [|exact H]. destruct H as (H1 & H2 & H3). repeat split; auto. Qed.
Lemma step_reads c e s s' : step c e s = Some s' -> match e with EPacket _ | EReadErr _ => y_pc s = PConnRead \/ exists t, y_pc s = PSelect t | _ => True end.
Proof. destruct e; auto; cbn [step]; destruct (y_pc s); try discriminate; eauto. Qed.
Lemma realised1 c chk w e s : wreachable c chk w -> settled c w -> step c e (w_sys w) = Some s -> sendable e ->
  exists w', wreachable c chk w' /\ settled c w' /\ w_sys w' = s.
Proof.
  intros HR (HD & HN & HQ) HS HE. pose proof (wire_refines _ _ _ HR) as HRS. destruct (wire_linked _ _ _ HR) as (_ & _ & HRun).
  destruct (step_tcase _ _ _ _ HRS HS) as (l & st & wt & ch & n & q & t & HT & ES).
  destruct (tcase_running _ _ _ _ _ _ _ _ _ _ HT HRun) as [_ HB]. pose proof (step_reads _ _ _ _ HS) as HRd.
  destruct (is_read e) eqn:EI.
  - destruct e; try discriminate EI.
    + destruct HE as (b & HSent). destruct HRd as [HP|(t0 & HP)].
      * rewrite HP in HQ. destruct (take_whole_new (cf_rt c) chk _ _ _ HQ HSent) as (r' & HT1 & HF).
        exists (Wire s r' (w_net w) false). split; [|split; [|reflexivity]].
        -- apply (wreachable_step c chk WRead (Wire (w_sys w) (arrive b (w_new w)) (w_net w) false)).
           ++ apply (wreachable_step c chk (WArrive true b) w _ HR). cbn [wstep]. now rewrite HD.
           ++ cbn [wstep]. unfold wread. cbn [w_dead w_sys w_new w_net]. rewrite HP, HT1. unfold read_result. now rewrite HS.
        -- subst s. split; [reflexivity|]. cbn [w_sys w_net w_new next y_net y_pc]. inversion HT; subst; try congruence; rewrite ?connected_apply; auto.
      * pose proof HRun as HC. rewrite HP in HC. specialize (HC eq_refl).
        destruct (take_whole_net (cf_rt c) chk _ _ _ (HN HC) HSent) as (r' & HT1 & HF).
        exists (Wire s (w_new w) r' false). split; [|split; [|reflexivity]].
        -- apply (wreachable_step c chk WRead (Wire (w_sys w) (w_new w) (arrive b (w_net w)) false)).
           ++ apply (wreachable_step c chk (WArrive false b) w _ HR). cbn [wstep]. now rewrite HD.
           ++ cbn [wstep]. unfold wread. cbn [w_dead w_sys w_new w_net]. rewrite HP, HT1. unfold read_result. now rewrite HS.
        -- subst s. split; [reflexivity|]. cbn [w_sys w_net w_new next y_net y_pc]. split; [auto|].
           inversion HT; subst; try congruence; auto. now destruct (cf_rt c), reply.
    + destruct HE.
    + cbn in HE. subst e. destruct HRd as [HP|(t0 & HP)].
      * exists (Wire s (arrive [] (w_new w)) (w_net w) false). rewrite HP in HQ. destruct HQ as (_ & EIn & _). split; [|split; [|reflexivity]].
        -- apply (wreachable_step c chk WRead (Wire (w_sys w) (arrive [] (w_new w)) (w_net w) false)).
           ++ apply (wreachable_step c chk (WArrive true []) w _ HR). cbn [wstep]. now rewrite HD.
           ++ cbn [wstep]. unfold wread. cbn [w_dead w_sys w_new w_net]. rewrite HP. unfold take_chunk. cbn [arrive sr_in]. rewrite EIn. cbn [app]. unfold read_result. now rewrite HS.
        -- subst s. inversion HT; subst; try congruence. split; [reflexivity|]. split; [exact HN|exact I].
      * exists (Wire s (w_new w) (arrive [] (w_net w)) false). pose proof HRun as HC. rewrite HP in HC. specialize (HC eq_refl). destruct (HN HC) as (_ & EIn & _). split; [|split; [|reflexivity]].
        -- apply (wreachable_step c chk WRead (Wire (w_sys w) (w_new w) (arrive [] (w_net w)) false)).
           ++ apply (wreachable_step c chk (WArrive false []) w _ HR). cbn [wstep]. now rewrite HD.
           ++ cbn [wstep]. unfold wread. cbn [w_dead w_sys w_new w_net]. rewrite HP. unfold take_chunk. cbn [arrive sr_in]. rewrite EIn. cbn [app]. unfold read_result. now rewrite HS.
        -- subst s. inversion HT; subst; try congruence. split; [reflexivity|]. split; [|exact I]. cbn [w_sys next y_net]. rewrite connected_end. discriminate.
  - assert (exists r1 r2, wstep c chk (WEvent e) w = Some (Wire s r1 r2 false) /\ settled c (Wire s r1 r2 false)) as (r1 & r2 & HW & HSet).
    2:{ exists (Wire s r1 r2 false). split; [eapply wreachable_step; eassumption|]. split; [exact HSet|reflexivity]. }
    cbn [wstep]. unfold wevents. rewrite EI, HD, HS. cbn [orb andb].
    assert (forall r2, (nt_connected n = true -> fresh_net (cf_rt c) r2) -> (e <> EConnect) -> settled c (Wire s (w_new w) r2 false)) as HK.
    { intros r2 H2 HE2. subst s. split; [reflexivity|]. cbn [w_sys w_net w_new next y_net y_pc]. split; [exact H2|].
      destruct HT; try (exfalso; congruence); repeat match goal with E : y_pc _ = _ |- _ => rewrite E in * end; auto; try discriminate EI; destruct (cf_rt c); auto; destruct r; auto. }
    assert (settled c (Wire s (w_new w) (if opens c e (w_sys w) then w_new w else w_net w) false) \/ e = EConnect) as HK2.
    { destruct e; try (now right); left; try discriminate EI; apply HK; try discriminate; intros HX; destruct (HB HX) as [HY|HY];
        try (rewrite HY; unfold opens in HY; destruct (y_pc (w_sys w)) as [| | |[?|]| | | | | | | | |]; discriminate HY || exact HQ);
        try (destruct (opens c _ (w_sys w)) eqn:EO; [|now apply HN]; unfold opens in EO; destruct (y_pc (w_sys w)) as [| | |[?|]| | | | | | | | |]; discriminate EO || exact HQ). }
    destruct e; try discriminate EI; try (do 2 eexists; split; [reflexivity|]; destruct HK2 as [HK2|HK2]; [exact HK2|discriminate HK2]).
    + do 2 eexists. split; [reflexivity|]. subst s. inversion HT; subst. split; [reflexivity|]. split; [exact HN|]. cbn. repeat split.
    + do 2 eexists. split; [reflexivity|]. apply HK; [|discriminate]. intros HX. destruct (HB HX) as [HY|HY]; [discriminate HY|]. apply fresh_drop; auto.
    + do 2 eexists. split; [reflexivity|]. apply HK; [|discriminate]. intros HX. destruct (HB HX) as [HY|HY]; [discriminate HY|]. apply fresh_drop; auto.
Qed.
Lemma realised c chk es s : exec c es (init c) = Some s -> Forall sendable es -> exists w, wreachable c chk w /\ w_sys w = s.
Proof.
  intros H HF. assert (exists w, wreachable c chk w /\ settled c w /\ w_sys w = s) as (w & H1 & _ & H2); [|eauto].
  revert s H. induction es as [|e es IH] using rev_ind; intros s H.
  - injection H as <-. exists (winit c chk). split; [exists []; reflexivity|]. split; [|reflexivity]. split; [reflexivity|]. split; [discriminate|exact I].
  - apply Forall_app in HF as [HF HE]. inversion HE as [|? ? HE1 _]; subst.
    assert (exists s1, exec c es (init c) = Some s1 /\ step c e s1 = Some s) as (s1 & H1 & H2).
    { clear - H. revert H. generalize (init c). induction es as [|x es IH]; intros s0 H; cbn in *; [destruct (step c e s0) eqn:E; [|discriminate]; injection H as ->; eauto|].
      destruct (step c x s0); [|discriminate]. now apply IH. }
    destruct (IH HF s1 H1) as (w & HW1 & HW2 & <-). destruct (realised1 _ _ _ _ _ HW1 HW2 H2 HE1) as (w' & ? & ? & ?). eauto.
Qed.

(* --- tokio reads any bytes without a panic --- *)
Definition bytes_ok (r : stream) : Prop := all_bytes (sr_buf r) /\ Forall all_bytes (sr_in r).
Lemma some_ok b : all_bytes b -> Forall all_bytes (some_bytes b).
Proof. destruct b; cbn; auto. Qed.
Lemma tokio_take_ok chk r : bytes_ok r -> match take_chunk Tokio chk r with SMore r' | SPacket _ r' => bytes_ok r' | SPanic => False | _ => True end.
Proof.
  intros [HB HI]. unfold take_chunk. destruct (sr_in r) as [|[|x ch] rest] eqn:EI; [exact I|exact I|]. inversion HI as [|? ? H1 H2]; subst.
  assert (all_bytes (sr_buf r ++ x :: ch)) as HA by (apply all_bytes_app; auto). unfold tokio_take.
  pose proof (GoodFacts.good_packet _ HA) as G. unfold GoodFacts.good_at in G. destruct (aread_packet (sr_buf r ++ x :: ch)) as [p n tl|e| |e].
  - destruct G as ((k & E & _) & _). rewrite E in HA. apply all_bytes_app in HA as [_ HA]. split; [constructor|]. cbn [sr_in]. apply Forall_app. split; [|exact H2]. now apply some_ok.
  - exact I.
  - split; [exact HA|exact H2].
  - exact G.
Qed.
Lemma new_ok chk : bytes_ok (new_stream chk).
Proof. split; constructor. Qed.
Lemma arrive_ok ch r : all_bytes ch -> bytes_ok r -> bytes_ok (arrive ch r).
Proof. intros H [H1 H2]. split; [exact H1|]. cbn. apply Forall_app. auto. Qed.
Lemma no_panic c chk xs w : cf_rt c = Tokio -> Forall wbytes xs -> wexec c chk xs (winit c chk) = Some w -> w_dead w = false.
Proof.
  intros HK HF H. assert (bytes_ok (w_new w) /\ bytes_ok (w_net w) /\ w_dead w = false) as (_ & _ & HX); [|exact HX].
  revert w H. induction xs as [|x xs IH] using rev_ind; intros w H.
  - injection H as <-. cbn. auto using new_ok.
  - apply Forall_app in HF as [HF HX]. inversion HX as [|? ? HB _]; subst. rewrite wexec_app in H. destruct (wexec c chk xs (winit c chk)) as [w1|] eqn:E; [|discriminate].
    destruct (IH HF w1 eq_refl) as (H1 & H2 & H3). cbn [wexec] in H. destruct (wstep c chk x w1) as [w2|] eqn:ES; [|discriminate]. injection H as <-.
    destruct x as [[] ch| |e]; cbn [wstep] in ES.
    + injection ES as <-. cbn [w_new w_net w_dead]. auto using arrive_ok.
    + injection ES as <-. cbn [w_new w_net w_dead]. auto using arrive_ok.
    + unfold wread in ES. rewrite H3, HK in ES. pose proof (tokio_take_ok chk _ H1) as T1. pose proof (tokio_take_ok chk _ H2) as T2.
      destruct (y_pc (w_sys w1)) eqn:EP; try discriminate ES; unfold read_result in ES.
      * destruct (take_chunk Tokio chk (w_new w1)) as [|r|p r|e|]; [discriminate ES| | | |destruct T1].
        -- rewrite HK in ES. injection ES as <-. auto.
        -- destruct (step c (EPacket p) (w_sys w1)); [|discriminate ES]. injection ES as <-. auto.
        -- destruct (step c (EReadErr e) (w_sys w1)); [|discriminate ES]. injection ES as <-. auto.
      * destruct (take_chunk Tokio chk (w_net w1)) as [|r|p r|e|]; [discriminate ES| | | |destruct T2].
        -- rewrite HK in ES. injection ES as <-. auto.
        -- destruct (step c (EPacket p) (w_sys w1)); [|discriminate ES]. injection ES as <-. auto.
        -- destruct (step c (EReadErr e) (w_sys w1)); [|discriminate ES]. injection ES as <-. auto.
    + unfold wevents in ES. destruct (is_read e || _); [discriminate ES|]. destruct (step c e (w_sys w1)) as [s|]; [|discriminate ES]. injection ES as <-.
      destruct e; cbn [w_new w_net w_dead]; try (destruct (opens _ _ _)); auto using new_ok.
      * split; [exact H1|]. split; [|exact H3]. destruct (cf_rt c); [|exact H2]. split; [constructor|apply H2].
      * split; [exact H1|]. split; [|exact H3]. destruct (cf_rt c); [|exact H2]. split; [constructor|apply H2].
Qed.

(* smol keeps nothing in the future *)
Lemma put_torn rt chk r : match take_chunk rt chk r with SMore r' | SPacket _ r' => sr_torn r' = sr_torn r | _ => True end.
Proof.
  unfold take_chunk. destruct (sr_in r) as [|[|x ch] rest]; [exact I|exact I|]. destruct rt.
  - unfold tokio_take. destruct (aread_packet _); cbn; auto.
  - destruct (sr_need r).
    + unfold smol_answer. destruct (read_more _ _ _ _) as [|[]]; cbn; auto.
    + unfold smol_take. destruct (parse_message _ _); cbn; auto.
Qed.
Lemma smol_untorn c chk w : cf_rt c = Smol -> wreachable c chk w -> sr_torn (w_net w) = false.
Proof.
  intros HK HR. assert (sr_torn (w_new w) = false /\ sr_torn (w_net w) = false) as [_ HX]; [|exact HX].
  revert HR. revert w. apply (wreachable_ind c chk (fun w => sr_torn (w_new w) = false /\ sr_torn (w_net w) = false)).
  - auto.
  - intros x w w' _ [H1 H2] ES. destruct x as [[] ch| |e]; cbn [wstep] in ES.
    + injection ES as <-. auto.
    + injection ES as <-. auto.
    + unfold wread in ES. destruct (w_dead w); [discriminate ES|]. pose proof (put_torn (cf_rt c) chk (w_new w)) as T1. pose proof (put_torn (cf_rt c) chk (w_net w)) as T2.
      destruct (y_pc (w_sys w)) eqn:EP; try discriminate ES; unfold read_result in ES; rewrite HK in *; rewrite ?EP in ES.
      * destruct (take_chunk Smol chk (w_new w)) as [|r|p r|e|]; [discriminate ES| | | |].
        -- injection ES as <-. cbn. split; congruence.
        -- destruct (step c (EPacket p) (w_sys w)); [|discriminate ES]. injection ES as <-. cbn. split; congruence.
        -- destruct (step c (EReadErr e) (w_sys w)); [|discriminate ES]. injection ES as <-. auto.
        -- injection ES as <-. auto.
      * destruct (take_chunk Smol chk (w_net w)) as [|r|p r|e|]; [discriminate ES| | | |].
        -- destruct (step c EPartial (w_sys w)); [|discriminate ES]. injection ES as <-. cbn. split; congruence.
        -- destruct (step c (EPacket p) (w_sys w)); [|discriminate ES]. injection ES as <-. cbn. split; congruence.
        -- destruct (step c (EReadErr e) (w_sys w)); [|discriminate ES]. injection ES as <-. auto.
        -- injection ES as <-. auto.
    + unfold wevents in ES. destruct (is_read e || _); [discriminate ES|]. destruct (step c e (w_sys w)) as [s|]; [|discriminate ES]. injection ES as <-.
      destruct e; cbn [w_new w_net w_dead]; try (destruct (opens _ _ _)); try rewrite HK; auto.
Qed.
Lemma good_end c chk w w' ps bs fut : wreachable c chk w -> Forall2 sent ps bs -> sr_all (w_net w) ++ fut = concat bs -> sr_torn (w_net w) = false ->
  wread c chk w = Some w' -> trace (w_sys w') <> trace (w_sys w) ++ [ORunEnd (inr DeserializationError)].
Proof.
  intros HR HF E HT HW HX. pose proof (no_read_error _ _ _ _ _ _ HR HF E HT) as HN. pose proof (wire_refines _ _ _ HR) as HS.
  assert (forall e s, step c e (w_sys w) = Some s -> trace s = trace (w_sys w) ++ [ORunEnd (inr DeserializationError)] -> is_read e = true ->
    e = EReadErr DeserializationError /\ y_pc (w_sys w) <> PConnRead) as HE.
  { intros e s H1 H2 H3. destruct (step_tcase _ _ _ _ HS H1) as (l & st & q & ch & n & pc & t & HC & ->). rewrite next_trace in H2. apply app_inv_head in H2. subst l.
    inversion HC; subst; try discriminate H3; try (split; [reflexivity|congruence]). }
  assert (forall r, trace (w_sys w) <> trace (w_sys w) ++ [r]) as HL.
  { intros r H. apply (f_equal (@length out)) in H. rewrite app_length in H. cbn in H. lia. }
  unfold wread in HW. destruct (w_dead w); [discriminate HW|]. destruct (y_pc (w_sys w)) eqn:EP; try discriminate HW; unfold read_result in HW.
  - destruct (take_chunk (cf_rt c) chk (w_new w)) as [|r|p r|e|]; [discriminate HW| | | |].
    + rewrite EP in HW. destruct (cf_rt c); injection HW as <-; now apply HL in HX.
    + destruct (step c (EPacket p) (w_sys w)) as [s|] eqn:ES; [|discriminate HW]. injection HW as <-. now destruct (HE _ _ ES HX eq_refl).
    + destruct (step c (EReadErr e) (w_sys w)) as [s|] eqn:ES; [|discriminate HW]. injection HW as <-. now destruct (HE _ _ ES HX eq_refl).
    + injection HW as <-. now apply HL in HX.
  - destruct (take_chunk (cf_rt c) chk (w_net w)) as [|r|p r|e|]; [discriminate HW| | | |].
    + rewrite EP in HW. destruct (cf_rt c).
      * injection HW as <-. now apply HL in HX.
      * destruct (step c EPartial (w_sys w)) as [s|] eqn:ES; [|discriminate HW]. injection HW as <-. now destruct (HE _ _ ES HX eq_refl).
    + destruct (step c (EPacket p) (w_sys w)) as [s|] eqn:ES; [|discriminate HW]. injection HW as <-. now destruct (HE _ _ ES HX eq_refl).
    + destruct (step c (EReadErr e) (w_sys w)) as [s|] eqn:ES; [|discriminate HW]. injection HW as <-. destruct (HE _ _ ES HX eq_refl) as [X _]. injection X as ->. now apply HN.
    + injection HW as <-. now apply HL in HX.
Qed.

(* smol in release: whole packets in any pieces do not panic run *)
Lemma need_take chk r : match take_chunk Smol chk r with SMore r' => sr_got r' = sr_got r /\ (sr_need r = None -> sr_need r' = None) | SPacket _ r' => sr_need r' = None | _ => True end.
Proof.
  unfold take_chunk. destruct (sr_in r) as [|[|x ch] rest]; [exact I|exact I|]. destruct (sr_need r).
  - unfold smol_answer. destruct (read_more _ _ _ _) as [|[]]; cbn; auto. split; [reflexivity|discriminate].
  - unfold smol_take. destruct (parse_message _ _); cbn; auto.
Qed.
Definition answered (r : stream) : Prop := sr_got r <> [] -> sr_need r = None.
Lemma new_answered chk : answered (new_stream chk).
Proof. intros X. now elim X. Qed.
Lemma take_answered chk r : answered r -> match take_chunk Smol chk r with SMore r' | SPacket _ r' => answered r' | _ => True end.
Proof.
  intros H. pose proof (need_take chk r) as T. destruct (take_chunk Smol chk r) as [|r'|p r'|e|]; auto.
  - destruct T as [E T]. unfold answered in *. rewrite E. auto.
  - intros _. exact T.
Qed.
Lemma smol_answered c chk w : cf_rt c = Smol -> wreachable c chk w -> answered (w_new w) /\ answered (w_net w).
Proof.
  intros HK. revert w. apply (wreachable_ind c chk (fun w => answered (w_new w) /\ answered (w_net w))).
  - split; apply new_answered.
  - intros x w w' _ [H1 H2] ES. destruct x as [[] ch| |e]; cbn [wstep] in ES.
    + injection ES as <-. auto.
    + injection ES as <-. auto.
    + unfold wread in ES. destruct (w_dead w); [discriminate ES|]. pose proof (take_answered chk _ H1) as T1. pose proof (take_answered chk _ H2) as T2.
      destruct (y_pc (w_sys w)) eqn:EP; try discriminate ES; unfold read_result in ES; rewrite HK in *; rewrite ?EP in ES.
      * destruct (take_chunk Smol chk (w_new w)) as [|r|p r|e|]; [discriminate ES| | | |].
        -- injection ES as <-. auto.
        -- destruct (step c (EPacket p) (w_sys w)); [|discriminate ES]. injection ES as <-. auto.
        -- destruct (step c (EReadErr e) (w_sys w)); [|discriminate ES]. injection ES as <-. auto.
        -- injection ES as <-. auto.
      * destruct (take_chunk Smol chk (w_net w)) as [|r|p r|e|]; [discriminate ES| | | |].
        -- destruct (step c EPartial (w_sys w)); [|discriminate ES]. injection ES as <-. auto.
        -- destruct (step c (EPacket p) (w_sys w)); [|discriminate ES]. injection ES as <-. auto.
        -- destruct (step c (EReadErr e) (w_sys w)); [|discriminate ES]. injection ES as <-. auto.
        -- injection ES as <-. auto.
    + unfold wevents in ES. destruct (is_read e || _); [discriminate ES|]. destruct (step c e (w_sys w)) as [s|]; [|discriminate ES]. injection ES as <-.
      destruct e; cbn [w_new w_net w_dead]; try (destruct (opens _ _ _)); try rewrite HK; auto using new_answered.
Qed.
Lemma smol_no_panic c w w' ps bs fut : cf_rt c = Smol -> wreachable c false w -> nt_connected (y_net (w_sys w)) = true -> y_pc (w_sys w) <> PConnRead ->
  Forall2 sent ps bs -> sr_all (w_net w) ++ fut = concat bs -> wread c false w = Some w' -> w_dead w' = false.
Proof.
  intros HK HR HC HP HF E HW. pose proof (smol_untorn _ _ _ HK HR) as HT. destruct (wire_good _ _ _ HR) as [_ HG].
  pose proof (take_cases _ false _ _ _ _ HG HF E HT) as H. destruct (smol_answered _ _ _ HK HR) as [_ HA].
  destruct (wire_linked _ _ _ HR) as (HL & _). destruct (HL HC) as (a & _ & HGot). assert (sr_need (w_net w) = None) as HN by (apply HA; rewrite HGot; discriminate).
  unfold wread in HW. destruct (w_dead w); [discriminate HW|]. destruct (y_pc (w_sys w)) eqn:EP; try discriminate HW; [now elim HP|].
  unfold read_result in HW. rewrite EP in HW. destruct (take_chunk (cf_rt c) false (w_net w)) as [|r|p r|e|].
  - discriminate HW.
  - rewrite HK in HW. destruct (step c EPartial (w_sys w)); [|discriminate HW]. now injection HW as <-.
  - destruct (step c (EPacket p) (w_sys w)); [|discriminate HW]. now injection HW as <-.
  - destruct (step c (EReadErr e) (w_sys w)); [|discriminate HW]. now injection HW as <-.
  - destruct H as [_ H]. discriminate (H HN).
Qed.
