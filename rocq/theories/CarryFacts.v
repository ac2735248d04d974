(* C78, C79: over bytes as over packets. *)
From Verif Require Import Base VarInt Prims Props Codes Packets BaseFacts Options Session Client System SpecSession SpecNet SpecTrace SpecCodec SpecRead SpecOut SpecEnd SmolStream TokioRead Wire SpecWire SpecPolite SpecSource SpecBytes SpecCarry
  SessionFacts SystemFacts WireFacts WireMore OutFacts OutMore EndMore BytesFacts BytesMore BytesWorld.

Section Carried.
Context {W : Type} (note : W -> out -> W) (serves : pipe -> W -> list packet -> list packet -> bool -> W -> Prop) (leaves : pipe -> W -> list packet -> W -> Prop) (w0 : W) (c : config) (chk : bool).
Lemma carried_reachable g i k w : carried note serves leaves w0 c chk g i k w -> wreachable c chk i.
Proof.
  induction 1 as [|x i k w i' l k' H IH HA HX HS HL HF HT|ch rest us u q v i w i' H IH HS|p b rest us q d v i w H IH HP HE|i k w q ps v w' bs H IH HB HSe|i k w ps w' bs H IH HB HSe]; trivial.
  - exists []. reflexivity.
  - exact (wreachable_step _ _ _ _ _ IH HS).
  - exact (wreachable_step _ _ _ _ _ IH HS).
Qed.
Lemma carried_gentle g i k w : g = true \/ cf_rt c = Smol -> carried note serves leaves w0 c chk g i k w -> carried note serves leaves w0 c chk true i k w.
Proof.
  intros [-> |ER]; [auto|]. intros H.
  induction H as [|x i k w i' l k' H IH HA HX HS HL HF HT|ch rest us u q v i w i' H IH HS|p b rest us q d v i w H IH HP HE|i k w q ps v w' bs H IH HB HSe|i k w ps w' bs H IH HB HSe].
  - constructor.
  - eapply cy_client; eauto. intros _. eapply smol_untorn; [exact ER|]. eapply wreachable_step; [|exact HS]. now apply carried_reachable in H.
  - eapply cy_arrive; eauto.
  - eapply cy_decode; eauto.
  - eapply cy_broker; eauto.
  - eapply cy_close; eauto.
Qed.
End Carried.

(* an event of the client over bytes is one over packets *)
Lemma read_genuine rt chk r e : take_chunk rt chk r = SFail e -> e = Io \/ e = DeserializationError.
Proof.
  intros H. unfold take_chunk in H. destruct (sr_in r) as [|[|b ch] rest]; [discriminate|injection H as <-; auto|]. destruct rt.
  - unfold tokio_take in H. destruct (aread_packet _); try discriminate. injection H as <-. auto.
  - destruct (sr_need r).
    + unfold smol_answer in H. destruct (read_more _ _ _ _) as [|[]]; try discriminate. injection H as <-. auto.
    + unfold smol_take in H. destruct (parse_message _ _); try discriminate. injection H as <-. auto.
Qed.
Lemma wstep_genuine c chk x i i' : is_arrival x = false -> wstep c chk x i = Some i' ->
  w_sys i' = w_sys i \/ exists e, genuine e /\ step c e (w_sys i) = Some (w_sys i') /\
    (forall y, e = EReadErr y -> y_pc (w_sys i) = PConnRead /\ take_chunk (cf_rt c) chk (w_new i) = SFail y \/ (exists t, y_pc (w_sys i) = PSelect t) /\ take_chunk (cf_rt c) chk (w_net i) = SFail y).
Proof.
  intros HA. destruct x as [? ch| |e]; [discriminate HA| |]; cbn [wstep].
  - unfold wread. destruct (w_dead i); [discriminate|]. destruct (y_pc (w_sys i)) eqn:EP; try discriminate; unfold read_result.
    + destruct (take_chunk (cf_rt c) chk (w_new i)) as [|r|p r|e|] eqn:ET; [discriminate| | | |].
      * destruct (cf_rt c); rewrite ?EP; intros [= <-]; now left.
      * destruct (step c (EPacket p) (w_sys i)) eqn:ES; [|discriminate]. intros [= <-]. right. exists (EPacket p). repeat split; auto; discriminate.
      * destruct (step c (EReadErr e) (w_sys i)) eqn:ES; [|discriminate]. intros [= <-]. right. exists (EReadErr e). split; [exact (read_genuine _ _ _ _ ET)|]. split; [exact ES|]. intros y [= <-]. left. auto.
      * intros [= <-]. now left.
    + destruct (take_chunk (cf_rt c) chk (w_net i)) as [|r|p r|e|] eqn:ET; [discriminate| | | |].
      * rewrite EP. destruct (cf_rt c).
        -- intros [= <-]. now left.
        -- destruct (step c EPartial (w_sys i)) eqn:ES; [|discriminate]. intros [= <-]. right. exists EPartial. repeat split; auto; discriminate.
      * destruct (step c (EPacket p) (w_sys i)) eqn:ES; [|discriminate]. intros [= <-]. right. exists (EPacket p). repeat split; auto; discriminate.
      * destruct (step c (EReadErr e) (w_sys i)) eqn:ES; [|discriminate]. intros [= <-]. right. exists (EReadErr e). split; [exact (read_genuine _ _ _ _ ET)|]. split; [exact ES|].
        intros y [= <-]. right. eauto.
      * intros [= <-]. now left.
  - unfold wevents. destruct (is_read e || _) eqn:EI; [discriminate|]. apply orb_false_iff in EI as [EI _]. destruct (step c e (w_sys i)) as [s|] eqn:ES; [|discriminate].
    intros [= <-]. right. exists e. destruct e; try discriminate EI; cbn [genuine w_sys]; repeat split; auto; discriminate.
Qed.

(* The simulation.  [J]: the relation over packets, whose states are made from the state of the broker and the packets on the
   way. *)
Lemma carried_packets {W V : Type} (note : W -> out -> W) (serves : pipe -> W -> list packet -> list packet -> bool -> W -> Prop) (leaves : pipe -> W -> list packet -> W -> Prop) (w0 : W) c chk (J : sys -> V -> Prop) (whole : bool -> bool -> W -> list packet -> list packet -> V) :
  config_ok c -> built c ->
  J (init c) (whole false false w0 [] []) ->
  (forall s s' e l w us v us' v' u d u' d', J s (whole us v w u d) -> genuine e -> step c e s = Some s' -> trace s' = trace s ++ l -> notices l (Line us u d v) (Line us' u' d' v') ->
    J s' (whole us' v' (fold_left note l w) u' d')) ->
  (forall k w q ps v w', serves k w q ps v w' -> (pi_live k = false -> v = false) /\ forall s us d, J s (whole (pi_used k) (pi_live k) w (pi_queue k ++ us) d) -> J s (whole (pi_used k) v w' (q ++ us) (d ++ ps))) ->
  (forall k w ps w', leaves k w ps w' -> forall s us d, J s (whole (pi_used k) (pi_live k) w (pi_queue k ++ us) d) -> J s (whole (pi_used k) false w' [] (d ++ ps))) ->
  forall i k w, carried note serves leaves w0 c chk true i k w -> exists u d, J (w_sys i) (whole (pi_used k) (pi_live k) w u d) /\ along c chk i k u d.
Proof.
  intros HC HB H0 H1 H2 H3 i k w H.
  induction H as [|x i k w i' l k' H IH HA HX HS HL HF HT|ch rest us u q v i w i' H IH HS|p b rest us q d v i w H IH HP HE|i k w q ps v w' bs H IH HBr HSe|i k w ps w' bs H IH HBr HSe].
  - exists [], []. split; [exact H0|apply along_init].
  - destruct IH as (u & d & HJ & HAl). destruct (along_client _ _ _ _ _ _ _ _ _ _ HC HB HAl HA HX HS HL HF (HT eq_refl)) as (u' & d' & HAl' & HN & _). exists u', d'. split; [|exact HAl'].
    destruct (wstep_genuine _ _ _ _ _ HA HS) as [E|(e & EG & E & _)]; [|exact (H1 _ _ _ _ _ _ _ _ _ _ _ _ _ HJ EG E HL HN)].
    rewrite E in *. assert (l = []) as -> by (rewrite <- (app_nil_r (trace (w_sys i))) in HL at 1; now apply app_inv_head in HL). inversion HF; subst. inversion HN; subst. exact HJ.
  - destruct IH as (u' & d' & HJ & HAl). destruct (along_arrive _ _ _ _ _ _ _ _ _ _ _ _ HAl HS) as [E HAl']. exists u', d'. split; [rewrite E; exact HJ|exact HAl'].
  - destruct IH as (u' & d' & HJ & HAl). exists u', d'. split; [exact HJ|]. now apply along_decode with b.
  - destruct IH as (u & d & HJ & HAl). destruct (H2 _ _ _ _ _ _ HBr) as [HV HM]. destruct (along_keep _ _ _ _ _ _ q v _ _ HAl HV HSe) as (us & -> & HAl').
    exists (q ++ us), (d ++ ps). split; [|exact HAl']. cbn [pi_used pi_live]. now apply HM.
  - destruct IH as (u & d & HJ & HAl). destruct (al_up _ _ _ _ _ _ HAl) as (us & _ & _ & EU & _). exists [], (d ++ ps). split; [|now apply along_close with (u := u) (d := d)].
    rewrite EU in HJ. cbn [pi_used pi_live]. exact (H3 _ _ _ _ HBr _ _ _ HJ).
Qed.

(* ---- the broker of SpecSource.v ---- *)
Definition source_whole (us v : bool) (w : source) (u d : list packet) : source :=
  Source (Line us u d v) (so_in w) (so_session w) (so_out w) (so_again w) (so_log w).
Lemma notices_sees l : forall us v w u d us' v' u' d', notices l (Line us u d v) (Line us' u' d' v') -> sees_all l (source_whole us v w u d) (source_whole us' v' (fold_left source_note l w) u' d').
Proof.
  induction l as [|o l IH]; intros us v w u d us' v' u' d' H.
  - inversion H; subst. constructor.
  - inversion H as [|? ? ? x ? H1 H2]; subst. destruct x as [us1 u1 d1 v1]. cbn [fold_left]. econstructor; [|apply IH; exact H2].
    unfold sees, source_whole, source_note. cbn [so_line so_in so_session so_out so_again so_log]. repeat (split; [solve [auto]|]). destruct o; auto.
Qed.
Lemma source_goes k w q ps v w' : source_serves k w q ps v w' -> (pi_live k = false -> v = false) /\
  forall c s us d, sourced c s (source_whole (pi_used k) (pi_live k) w (pi_queue k ++ us) d) -> sourced c s (source_whole (pi_used k) v w' (q ++ us) (d ++ ps)).
Proof.
  intros (H & EL & HK). unfold at_source, source_whole in *. destruct k as [ku kp kq kd kl]. destruct w as [wl wi wh wo wa lg]. cbn [pi_used pi_queue pi_live so_in so_session so_out so_again so_log] in *.
  inversion H; subst; cbn [so_line so_in so_session so_out so_again so_log app] in *; injection EL as <- <- <-; (split; [solve [auto]|]); intros cf s us0 dd HJ; rewrite ?app_nil_r.
  - eapply sr_broker; [exact HJ|]. now apply so_accept.
  - exfalso. destruct HK as [HK|(_ & _ & HK & _)]; discriminate HK.
  - eapply sr_broker; [exact HJ|]. eapply so_start; eauto.
  - eapply sr_broker; [exact HJ|]. now apply so_resend.
  - eapply sr_broker; [exact HJ|]. now apply so_puback.
  - eapply sr_broker; [exact HJ|]. now apply so_pubrec.
  - eapply sr_broker; [exact HJ|]. now apply so_pubcomp.
  - eapply sr_broker; [exact HJ|]. apply so_ignore.
  - eapply sr_broker; [exact HJ|]. now apply so_send.
  - destruct HK as [HK|(E1 & E2 & _ & E4 & E5)]; [discriminate HK|]. subst. destruct E5 as [E5|[p E5]]; subst; cbn [app] in *; [exact HJ|]. eapply sr_broker; [exact HJ|]. apply so_ignore.
  - eapply sr_broker; [exact HJ|]. apply so_forget.
Qed.
Lemma source_drops c s us d v n h out ag l : forall u, sourced c s (Source (Line us u d v) n h out ag l) -> sourced c s (Source (Line us [] d v) n h out ag l).
Proof. induction u as [|p u IH]; auto. intros H. apply IH. eapply sr_broker; [exact H|]. apply so_ignore. Qed.
Lemma source_gone k w ps w' : source_leaves k w ps w' ->
  forall c s us d, sourced c s (source_whole (pi_used k) (pi_live k) w (pi_queue k ++ us) d) -> sourced c s (source_whole (pi_used k) false w' [] (d ++ ps)).
Proof.
  intros (H & EL & HK) cf s us0 dd HJ. unfold at_source, source_whole in *. destruct k as [ku kp kq kd kl]. destruct w as [wl wi wh wo wa lg]. cbn [pi_used pi_queue pi_live so_in so_session so_out so_again so_log] in *.
  inversion H; subst; cbn [so_line so_in so_session so_out so_again so_log app] in *; try discriminate HK; injection EL; intros; subst; rewrite ?app_nil_r.
  - eapply sr_broker; [exact HJ|]. now apply so_refuse.
  - now apply source_drops in HJ.
  - eapply sr_broker; [exact HJ|]. apply so_cut.
  - apply source_drops in HJ. eapply sr_broker; [exact HJ|]. apply so_forget.
Qed.
Lemma bytes_sourced c chk g i k w : config_ok c -> built c -> g = true \/ cf_rt c = Smol -> sourced_bytes c chk g i k w ->
  exists w0, sourced c (w_sys i) w0 /\ so_log w0 = so_log w.
Proof.
  intros HC HB HG H. apply carried_gentle in H; [|exact HG].
  destruct (carried_packets source_note source_serves source_leaves source0 c chk (sourced c) source_whole HC HB) with (i := i) (k := k) (w := w) as (u & d & HJ & _); auto.
  - constructor.
  - intros s s' e l w1 us v us' v' u d u' d' HJ _ HS HT HN. eapply sr_client; [exact HJ|exact HS|exact HT|]. now apply notices_sees.
  - intros k1 w1 q ps v w' HS. destruct (source_goes _ _ _ _ _ _ HS) as [H1 H2]. split; [exact H1|intros; now apply H2].
  - intros k1 w1 ps w' HS s us d HJ. exact (source_gone _ _ _ _ HS _ _ _ _ HJ).
  - exists (source_whole (pi_used k) (pi_live k) w u d). split; [exact HJ|reflexivity].
Qed.

(* ---- the broker of SpecPolite.v ---- *)
Definition polite_whole (us v : bool) (w : unit) (u d : list packet) : SpecPolite.line := Line us u d v.
Lemma polite_drops c s us d v u2 : forall u1, with_broker c s (Line us (u1 ++ u2) d v) -> with_broker c s (Line us u2 d v).
Proof. induction u1 as [|p u1 IH]; auto. intros H. apply IH. eapply wb_broker; [exact H|]. apply (po_silent p us []). Qed.
Lemma polite_goes k w q ps v w' : polite_serves k w q ps v w' -> (pi_live k = false -> v = false) /\
  forall c s us d, with_broker c s (polite_whole (pi_used k) (pi_live k) w (pi_queue k ++ us) d) -> with_broker c s (polite_whole (pi_used k) v w' (q ++ us) (d ++ ps)).
Proof.
  intros (H & ->). split; [auto|]. unfold polite_whole. destruct k as [ku kp kq kd kl]. cbn [pi_used pi_queue pi_live] in *. intros c s us d HJ. inversion H; subst; rewrite ?app_nil_r.
  - eapply wb_broker; [exact HJ|]. rewrite <- !app_assoc. cbn [app]. now apply po_answer.
  - eapply wb_broker; [exact HJ|]. rewrite <- !app_assoc. cbn [app]. now apply (po_silent p).
  - eapply wb_broker; [exact HJ|]. now apply po_send.
  - cbn [app]. now apply polite_drops in HJ.
Qed.
Lemma bytes_polite c chk g i k : config_ok c -> built c -> g = true \/ cf_rt c = Smol -> polite_bytes c chk g i k ->
  exists w, with_broker c (w_sys i) w /\ ln_used w = pi_used k.
Proof.
  intros HC HB HG H. apply carried_gentle in H; [|exact HG].
  destruct (carried_packets (fun w _ => w) polite_serves polite_leaves tt c chk (with_broker c) polite_whole HC HB) with (i := i) (k := k) (w := tt) as (u & d & HJ & _); auto.
  - constructor.
  - intros s s' e l w1 us v us' v' u d u' d' HJ HG1 HS HT HN. eapply wb_client; [exact HJ|exact HG1|exact HS|exact HT|exact HN].
  - intros k1 w1 q ps v w' HS. destruct (polite_goes _ _ _ _ _ _ HS) as [H1 H2]. split; [exact H1|intros; now apply H2].
  - intros k1 w1 ps w' -> s us d HJ. rewrite app_nil_r. eapply wb_broker; [exact HJ|]. apply po_cut.
  - eexists. split; [exact HJ|reflexivity].
Qed.
