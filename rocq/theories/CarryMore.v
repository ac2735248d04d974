(* C78, C79: what follows from the simulation. *)
From Verif Require Import Base VarInt Prims Props Codes Packets BaseFacts Options Session Client System SpecSession SpecNet SpecTrace SpecCodec SpecRead SpecOut SpecEnd SmolStream TokioRead Wire SpecWire SpecPolite SpecSource SpecBytes SpecCarry
  SessionFacts SystemFacts Cases WireFacts WireMore OutFacts OutMore EndMore BytesFacts BytesMore BytesWorld CarryFacts PoliteAll PoliteEnd SourceAll.

(* a read fails only because the connection ends *)
Definition bad (o : out) : bool := match o with ORunEnd (inr DeserializationError) | OConnectEnd (Some DeserializationError) => true | _ => false end.
Lemma tokio_fine o ps : forall oks, existsb bad (tokio_writes o ps oks) = false.
Proof. induction ps as [|p ps IH]; intros oks; [reflexivity|]. cbn [tokio_writes]. destruct oks as [|b oks]; (destruct (write_result Tokio p _); cbn [existsb bad orb]; apply IH). Qed.
Lemma smol_fine o ps ok : existsb bad (smol_writes o ps ok) = false.
Proof. unfold smol_writes. destruct (smol_write_all ps ok); induction ps as [|p ps IH]; cbn [map existsb bad orb]; auto. Qed.
Lemma write_fine rt p ok : write_result rt p ok <> Some DeserializationError.
Proof. unfold write_result. destruct (ser_err rt p); [discriminate|]. destruct ok; discriminate. Qed.
Lemma writes_fine ps ok : smol_write_all ps ok <> Some DeserializationError.
Proof. unfold smol_write_all. destruct (find _ ps) as [p|]; [destruct (ser_err Smol p); discriminate|]. destruct ok; discriminate. Qed.
Lemma tcase_bad c s e l st w ch n q t : tcase c s e l st w ch n q t -> existsb bad l = true -> e = EReadErr DeserializationError.
Proof.
  intros H HB. destruct H; rewrite ?existsb_app, ?tokio_fine, ?smol_fine in HB; cbn [existsb bad orb] in HB; try discriminate HB.
  all: try (match goal with E : write_result _ _ _ = Some ?e |- _ => destruct e; try discriminate HB; now apply write_fine in E end).
  all: try (match goal with E : smol_write_all _ _ = Some ?e |- _ => destruct e; try discriminate HB; now apply writes_fine in E end).
  - destruct e; try discriminate HB. reflexivity.
  - unfold answer_err in *. destruct p; try (injection H0 as <-; discriminate HB). destruct (ca_rc c0); try discriminate H0; injection H0 as <-; discriminate HB.
  - destruct e; try discriminate HB. reflexivity.
Qed.
Lemma along_fine c chk x i i' l k u d : along c chk i k u d -> is_arrival x = false -> wstep c chk x i = Some i' -> trace (w_sys i') = trace (w_sys i) ++ l -> existsb bad l = false.
Proof.
  intros HA HX HS HL. destruct (existsb bad l) eqn:HI; [|reflexivity]. exfalso. pose proof (run_to_reachable _ _ _ (al_run _ _ _ _ _ _ HA)) as HR. pose proof (wire_refines _ _ _ HR) as HRS.
  destruct (wire_good _ _ _ HR) as [HG1 HG2]. destruct (wire_linked _ _ _ HR) as (_ & _ & HRun). destruct (al_down _ _ _ _ _ _ HA) as [HT HB].
  destruct (wstep_genuine _ _ _ _ _ HX HS) as [E|(e & _ & E & HE)].
  { rewrite E in HL. assert (l = []) as -> by (rewrite <- (app_nil_r (trace (w_sys i))) in HL at 1; now apply app_inv_head in HL). discriminate HI. }
  destruct (step_tcase _ _ _ _ HRS E) as (l0 & st & w & ch & n & q & t & HC & EN). rewrite EN, next_trace in HL. apply app_inv_head in HL. subst l0.
  apply (tcase_bad _ _ _ _ _ _ _ _ _ _ HC) in HI. destruct (HE _ HI) as [[EP ET]|[(t0 & EP) ET]]; unfold connecting, current in HB; rewrite EP in *; cbn [opening] in *.
  - rewrite (HT eq_refl) in HB. destruct (HB eq_refl) as (HT0 & bs & HF & EB). pose proof (take_cases _ chk _ _ _ _ HG1 HF EB HT0) as X. rewrite ET in X. now destruct X as [X _].
  - rewrite (HRun eq_refl) in HB. destruct (HB eq_refl) as (HT0 & bs & HF & EB). pose proof (take_cases _ chk _ _ _ _ HG2 HF EB HT0) as X. rewrite ET in X. now destruct X as [X _].
Qed.
(* any broker that encodes what it sends as MQTT 5 says *)
Lemma carried_along {W : Type} (note : W -> out -> W) (serves : pipe -> W -> list packet -> list packet -> bool -> W -> Prop) (leaves : pipe -> W -> list packet -> W -> Prop) w0 c chk i k w :
  config_ok c -> built c -> (forall k w q ps v w', serves k w q ps v w' -> pi_live k = false -> v = false) -> carried note serves leaves w0 c chk true i k w -> exists u d, along c chk i k u d.
Proof.
  intros HC HB HV H. destruct (carried_packets note serves leaves w0 c chk (fun _ _ => True) (fun _ _ _ _ _ => tt) HC HB) with (i := i) (k := k) (w := w) as (u & d & _ & HA); eauto.
Qed.
Lemma carried_fine {W : Type} (note : W -> out -> W) (serves : pipe -> W -> list packet -> list packet -> bool -> W -> Prop) (leaves : pipe -> W -> list packet -> W -> Prop) w0 c chk i k w :
  config_ok c -> built c -> (forall k w q ps v w', serves k w q ps v w' -> pi_live k = false -> v = false) -> carried note serves leaves w0 c chk true i k w -> existsb bad (trace (w_sys i)) = false.
Proof.
  intros HC HB HV H. induction H as [|x i k w i' l k' H IH HA HX HS HL HF HT|ch rest us u q v i w i' H IH HS|p b rest us q d v i w H IH HP HE|i k w q ps v w' bs H IH HBr HSe|i k w ps w' bs H IH HBr HSe]; trivial.
  - destruct (carried_along _ _ _ _ _ _ _ _ _ HC HB HV H) as (u & d & HAl). rewrite HL, existsb_app, IH. exact (along_fine _ _ _ _ _ _ _ _ _ HAl HA HS HL).
  - cbn [wstep] in HS. destruct (negb us); injection HS as <-; exact IH.
Qed.
Lemma bad_in l : existsb bad l = false -> ~ In (ORunEnd (inr DeserializationError)) l /\ ~ In (OConnectEnd (Some DeserializationError)) l.
Proof. intros H. split; intros X; (assert (existsb bad l = true) as Y by (apply existsb_exists; eexists; split; [exact X|reflexivity])); congruence. Qed.
Lemma carried_run {W : Type} (note : W -> out -> W) (serves : pipe -> W -> list packet -> list packet -> bool -> W -> Prop) (leaves : pipe -> W -> list packet -> W -> Prop) w0 c chk i k w :
  config_ok c -> built c -> (forall k w q ps v w', serves k w q ps v w' -> pi_live k = false -> v = false) -> carried note serves leaves w0 c chk true i k w -> run_to c chk i.
Proof. intros HC HB HV H. destruct (carried_along _ _ _ _ _ _ _ _ _ HC HB HV H) as (u & d & HAl). exact (al_run _ _ _ _ _ _ HAl). Qed.
Lemma polite_live k w q ps v w' : polite_serves k w q ps v w' -> pi_live k = false -> v = false.
Proof. intros (_ & ->). auto. Qed.
Lemma source_live k w q ps v w' : source_serves k w q ps v w' -> pi_live k = false -> v = false.
Proof. intros H. exact (proj1 (source_goes _ _ _ _ _ _ H)). Qed.

(* ---- C78 ---- *)
Lemma source_note_log l : forall w, of_client (so_log (fold_left source_note l w)) = of_client (so_log w) ++ l.
Proof.
  induction l as [|o l IH]; intros w; cbn [fold_left]; [now rewrite app_nil_r|]. rewrite IH. unfold source_note. cbn [so_log]. rewrite of_client_app, <- app_assoc. reflexivity.
Qed.
Lemma source_step_log k w w' : source_step (at_source k w) w' -> of_client (so_log w') = of_client (so_log w).
Proof. intros H. change (so_log w) with (so_log (at_source k w)). destruct H; cbn [so_log]; trivial; rewrite of_client_app; cbn; apply app_nil_r. Qed.
Lemma bytes_log c chk g i k w : sourced_bytes c chk g i k w -> of_client (so_log w) = trace (w_sys i).
Proof.
  intros H. induction H as [|x i k w i' l k' H IH HA HX HS HL HF HT|ch rest us u q v i w i' H IH HS|p b rest us q d v i w H IH HP HE|i k w q ps v w' bs H IH HBr HSe|i k w ps w' bs H IH HBr HSe]; trivial.
  - now rewrite source_note_log, HL, IH.
  - rewrite IH. cbn [wstep] in HS. destruct (negb us); injection HS as <-; reflexivity.
  - destruct HBr as [HBr _]. now rewrite (source_step_log _ _ _ HBr).
  - destruct HBr as [HBr _]. now rewrite (source_step_log _ _ _ HBr).
Qed.
Lemma bytes_once c chk g i0 k w l1 l2 y i : config_ok c -> built c -> g = true \/ cf_rt c = Smol -> sourced_bytes c chk g i0 k w ->
  so_log w = l1 ++ Client (OHandle (PPublish y)) :: l2 -> pb_qos y <> AtMostOnce -> pb_pkid y = Some i ->
  exists x m, since i l1 x m /\ copy_of x y /\
    (pb_qos y = ExactlyOnce -> forall y', In (Client (OHandle (PPublish y'))) m -> pb_pkid y' = Some i -> pb_qos y' = AtMostOnce).
Proof. intros HC HB HG H E. destruct (bytes_sourced _ _ _ _ _ _ HC HB HG H) as (w0 & HJ & EL). rewrite <- EL in E. exact (handed_meant c (w_sys i0) w0 l1 l2 y i HC HJ E). Qed.
Lemma bytes_acknowledged c chk g i0 k w l1 l2 x : config_ok c -> built c -> g = true \/ cf_rt c = Smol -> sourced_bytes c chk g i0 k w -> so_log w = l1 ++ Finish x :: l2 -> pb_qos x = AtLeastOnce ->
  exists i m y, since i l1 x m /\ copy_of x y /\ In (Client (OHandle (PPublish y))) m.
Proof. intros HC HB HG H E. destruct (bytes_sourced _ _ _ _ _ _ HC HB HG H) as (w0 & HJ & EL). rewrite <- EL in E. exact (finish_acknowledged c (w_sys i0) w0 l1 l2 x HC HJ E). Qed.
Lemma bytes_received c chk g i0 k w l1 l2 x : config_ok c -> built c -> g = true \/ cf_rt c = Smol -> sourced_bytes c chk g i0 k w -> so_log w = l1 ++ Finish x :: l2 -> pb_qos x = ExactlyOnce ->
  exists i m, since i l1 x m /\ (In (Client (ORead (PPublish x))) m \/ ~ In (Client OConnect) m -> exists y, copy_of x y /\ In (Client (OHandle (PPublish y))) m).
Proof. intros HC HB HG H E. destruct (bytes_sourced _ _ _ _ _ _ HC HB HG H) as (w0 & HJ & EL). rewrite <- EL in E. exact (finish_received c (w_sys i0) w0 l1 l2 x HC HJ E). Qed.

(* ---- C79 ---- *)
Lemma bytes_expected c chk g i k : config_ok c -> built c -> g = true \/ cf_rt c = Smol -> polite_bytes c chk g i k ->
  everywhere (fun l o => forall p, o = ORead p -> is_ack p = true -> awaited (ledger_of (op_clean_start (cf_opts c)) l) p = true) (trace (w_sys i)).
Proof. intros HC HB HG H. destruct (bytes_polite _ _ _ _ _ HC HB HG H) as (w & HJ & _). exact (acks_expected c (w_sys i) w HC HJ). Qed.
Lemma bytes_panics c chk g i k : config_ok c -> built c -> g = true \/ cf_rt c = Smol -> polite_bytes c chk g i k ->
  everywhere (fun l o => o = OPanic ->
    exists l0 x i, l = l0 ++ [OWrite FromClient (PPublish x)] /\ pb_pkid x = Some i /\ receive_max (cf_opts c) < i) (trace (w_sys i)).
Proof. intros HC HB HG H. destruct (bytes_polite _ _ _ _ _ HC HB HG H) as (w & HJ & _). exact (panics_only c (w_sys i) w HC HJ). Qed.
Lemma bytes_alive c chk g i k : config_ok c -> built c -> send_max (cf_opts c) <= receive_max (cf_opts c) -> g = true -> cf_rt c = Tokio -> polite_bytes c chk g i k ->
  ~ In OPanic (trace (w_sys i)) /\ w_dead i = false.
Proof.
  intros HC HB HM -> HK H. destruct (bytes_polite _ _ _ _ _ HC HB (or_introl eq_refl) H) as (w & HJ & _). split; [exact (no_panics c (w_sys i) w HC HM HJ)|].
  destruct (carried_run _ _ _ _ _ _ _ _ _ HC HB polite_live H) as (xs & HX & HR). apply no_panic with (c := c) (chk := chk) (xs := xs); auto.
  eapply Forall_impl; [|exact HX]. intros []; cbn; auto.
Qed.
Lemma bytes_errors c chk g i k : config_ok c -> built c -> g = true \/ cf_rt c = Smol -> polite_bytes c chk g i k ->
  everywhere (fun l o => forall e, o = ORunEnd (inr (HandlerErr e)) -> exists i, e = PacketIdChannelError i /\ In ODropClients l) (trace (w_sys i)).
Proof. intros HC HB HG H. destruct (bytes_polite _ _ _ _ _ HC HB HG H) as (w & HJ & _). exact (run_errors c (w_sys i) w HC HJ). Qed.
Lemma bytes_decoded c chk g i k : config_ok c -> built c -> g = true \/ cf_rt c = Smol -> polite_bytes c chk g i k ->
  ~ In (ORunEnd (inr DeserializationError)) (trace (w_sys i)) /\ ~ In (OConnectEnd (Some DeserializationError)) (trace (w_sys i)).
Proof. intros HC HB HG H. apply carried_gentle in H; [|exact HG]. apply bad_in. exact (carried_fine _ _ _ _ _ _ _ _ _ HC HB polite_live H). Qed.
