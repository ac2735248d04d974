(* C80: the work over bytes is work over packets, and finite. *)
From Verif Require Import Base VarInt Prims Props Codes Packets BaseFacts Options Session Client System SpecSession SpecNet SpecTrace SpecCodec SpecRead SpecOut SpecEnd SmolStream TokioRead Wire SpecWire SpecPolite SpecSettle SpecBytes SpecCarry SpecLabour
  SessionFacts SystemFacts Cases WireFacts WireMore OutFacts OutMore EndMore BytesFacts BytesMore BytesWorld CarryFacts CarryMore SettleMore SettleEnd.

(* ---- the broker ---- *)
Definition line_of (k : pipe) (u d : list packet) : SpecPolite.line := Line (pi_used k) u d (pi_live k).
Lemma deals_more us v q q' ps u d : deals (Line us q [] v) (Line us q' ps v) -> deals (Line us (q ++ u) d v) (Line us (q' ++ u) (d ++ ps) v).
Proof.
  intros H. inversion H; subst; rewrite <- !app_assoc; cbn [app].
  - now constructor.
  - rewrite app_nil_r. now constructor.
Qed.
Lemma attentive_goes k w q ps v w' : attentive_serves k w q ps v w' -> (pi_live k = false -> v = false) /\
  forall c s us d, attended c s (Line (pi_used k) (pi_queue k ++ us) d (pi_live k)) -> attended c s (Line (pi_used k) (q ++ us) (d ++ ps) v).
Proof.
  intros (-> & H). split; [auto|]. intros c s us d HJ. eapply an_broker; [exact HJ|]. destruct H as [H|(-> & p & HP & ->)]; [|now apply at_sends].
  apply at_deals. now apply deals_more.
Qed.
Definition attended_whole (us v : bool) (w : unit) (u d : list packet) : SpecPolite.line := Line us u d v.
Lemma bytes_attended c chk g i k : config_ok c -> built c -> g = true \/ cf_rt c = Smol -> attended_bytes c chk g i k ->
  exists u d, attended c (w_sys i) (line_of k u d) /\ along c chk i k u d.
Proof.
  intros HC HB HG H. apply carried_gentle in H; [|exact HG].
  destruct (carried_packets (fun w _ => w) attentive_serves polite_leaves tt c chk (attended c) attended_whole HC HB) with (i := i) (k := k) (w := tt) as (u & d & HJ & HA); auto.
  - constructor.
  - intros s s' e l w1 us v us' v' u d u' d' HJ HG1 HS HT HN. eapply an_client; [exact HJ|exact HG1|exact HS|exact HT|exact HN].
  - intros k1 w1 q ps v w' HS. destruct (attentive_goes _ _ _ _ _ _ HS) as [H1 H2]. split; [exact H1|intros; now apply H2].
  - intros k1 w1 ps w' -> s us d HJ. rewrite app_nil_r. eapply an_broker; [exact HJ|]. apply at_cut.
  - exists u, d. split; [exact HJ|exact HA].
Qed.

(* ---- what is left of the bytes ---- *)
Local Open Scope nat_scope.
Definition bytes_left (i : wire) (k : pipe) : nat :=
  length (pi_up k) + 2 * length (pi_down k) + length (sr_in (w_new i)) + length (sr_in (w_net i)) + (if w_dead i then 0 else 1).
(* the client reads an end of the connection *)
Definition read_end (c : config) (s s' : sys) (w w' : SpecPolite.line) : Prop :=
  exists l, step c (EReadErr Io) s = Some s' /\ trace s' = trace s ++ l /\ notices l w w'.
Lemma more_in rt chk r r' : take_chunk rt chk r = SMore r' -> length (sr_in r') < length (sr_in r).
Proof.
  unfold take_chunk. destruct (sr_in r) as [|[|b ch] rest]; [discriminate|discriminate|]. destruct rt.
  - unfold tokio_take. destruct (aread_packet _); try discriminate. intros [= <-]. cbn. lia.
  - destruct (sr_need r).
    + unfold smol_answer. destruct (read_more _ _ _ _) as [|[]]; try discriminate. intros [= <-]. cbn. lia.
    + unfold smol_take. destruct (parse_message _ _); try discriminate. intros [= <-]. cbn. lia.
Qed.
Lemma no_news (s : sys) l : trace s = trace s ++ l -> l = [].
Proof. intros E. rewrite <- (app_nil_r (trace s)) in E at 1. now apply app_inv_head in E. Qed.
(* one step of the client *)
Lemma client_labour c chk x i i' l : is_arrival x = false -> match x with WRead => True | WEvent e => effort (w_sys i) e | WArrive _ _ => False end -> wstep c chk x i = Some i' ->
  trace (w_sys i') = trace (w_sys i) ++ l ->
  (exists e, effort (w_sys i) e /\ step c e (w_sys i) = Some (w_sys i')) \/ (exists e, genuine (EReadErr e) /\ step c (EReadErr e) (w_sys i) = Some (w_sys i') /\ (y_pc (w_sys i) = PConnRead \/ (exists t, y_pc (w_sys i) = PSelect t) /\ take_chunk (cf_rt c) chk (w_net i) = SFail e)) \/
  l = [] /\ (w_sys i' = w_sys i \/ step c EPartial (w_sys i) = Some (w_sys i') /\ cf_rt c = Smol) /\ forall k, bytes_left i' k < bytes_left i k.
Proof.
  intros HA HX HS HL. destruct x as [? ch| |e]; [discriminate HA| |]; cbn [wstep] in HS.
  - unfold wread in HS. destruct (w_dead i) eqn:ED; [discriminate|]. destruct (y_pc (w_sys i)) eqn:EP; try discriminate; unfold read_result in HS.
    + destruct (take_chunk (cf_rt c) chk (w_new i)) as [|r|p r|e|] eqn:ET; [discriminate| | | |].
      * right. right. assert (i' = Wire (w_sys i) r (w_net i) false) as -> by (destruct (cf_rt c); rewrite ?EP in HS; now injection HS as <-). cbn [w_sys] in *. split; [exact (no_news _ _ HL)|]. split; [auto|].
        intros k. apply more_in in ET. unfold bytes_left. cbn [w_new w_net w_dead]. rewrite ED. lia.
      * destruct (step c (EPacket p) (w_sys i)) eqn:ES; [|discriminate]. injection HS as <-. left. exists (EPacket p). split; [exact I|exact ES].
      * destruct (step c (EReadErr e) (w_sys i)) eqn:ES; [|discriminate]. injection HS as <-. right. left. exists e. split; [exact (read_genuine _ _ _ _ ET)|]. split; [exact ES|eauto].
      * injection HS as <-. right. right. cbn [w_sys] in *. split; [exact (no_news _ _ HL)|]. split; [auto|]. intros k. unfold bytes_left. cbn [w_new w_net w_dead]. rewrite ED. lia.
    + destruct (take_chunk (cf_rt c) chk (w_net i)) as [|r|p r|e|] eqn:ET; [discriminate| | | |].
      * right. right. apply more_in in ET. rewrite EP in HS. destruct (cf_rt c) eqn:ER.
        -- injection HS as <-. cbn [w_sys] in *. split; [exact (no_news _ _ HL)|]. split; [auto|]. intros k. unfold bytes_left. cbn [w_new w_net w_dead]. rewrite ED. lia.
        -- destruct (step c EPartial (w_sys i)) as [s|] eqn:ES; [|discriminate]. injection HS as <-. cbn [w_sys] in *.
           assert (s = again (w_sys i)) as -> by (cbn [step] in ES; rewrite EP, ER in ES; now injection ES as <-).
           split; [exact (no_news _ _ HL)|]. split; [auto|]. intros k. unfold bytes_left. cbn [w_new w_net w_dead]. rewrite ED. lia.
      * destruct (step c (EPacket p) (w_sys i)) eqn:ES; [|discriminate]. injection HS as <-. left. exists (EPacket p). split; [exact I|exact ES].
      * destruct (step c (EReadErr e) (w_sys i)) eqn:ES; [|discriminate]. injection HS as <-. right. left. exists e. split; [exact (read_genuine _ _ _ _ ET)|]. split; [exact ES|eauto].
      * injection HS as <-. right. right. cbn [w_sys] in *. split; [exact (no_news _ _ HL)|]. split; [auto|]. intros k. unfold bytes_left. cbn [w_new w_net w_dead]. rewrite ED. lia.
  - left. exists e. split; [exact HX|]. unfold wevents in HS. destruct (is_read e || _); [discriminate|]. destruct (step c e (w_sys i)) as [s|] eqn:ES; [|discriminate].
    injection HS as <-. destruct e; reflexivity.
Qed.
Lemma effort_ok s e : effort s e -> match e with EPacket _ => False | _ => True end -> event_ok e.
Proof. destruct e; cbn; tauto. Qed.
(* one step of the work *)
Lemma labour_step c chk i k u d i' k' : config_ok c -> built c -> along c chk i k u d -> labour c chk true i k i' k' ->
  exists u' d', along c chk i' k' u' d' /\
  (toil c (w_sys i) (line_of k u d) (w_sys i') (line_of k' u' d') \/
   read_end c (w_sys i) (w_sys i') (line_of k u d) (line_of k' u' d') /\ (y_pc (w_sys i) = PConnRead \/ In [] (sr_in (w_net i))) \/
   line_of k' u' d' = line_of k u d /\ (w_sys i' = w_sys i \/ step c EPartial (w_sys i) = Some (w_sys i') /\ cf_rt c = Smol) /\ bytes_left i' k' < bytes_left i k).
Proof.
  intros HC HB HA HL. destruct HL as [x i' l k' HX HS HT HF HG|ch rest i' HD HN HS|p b rest HU HP HE|q ps bs HQ HSe].
  - assert (is_arrival x = false) as HI by (destruct x; [contradiction HX| |]; reflexivity).
    assert (wire_ok x) as HO. { destruct x as [| |e]; [contradiction HX|exact I|]. cbn [wire_ok]. apply effort_ok with (w_sys i); [exact HX|]. destruct e; auto. cbn [wstep] in HS. unfold wevents in HS. discriminate HS. }
    destruct (along_client _ _ _ _ _ _ _ _ _ _ HC HB HA HI HO HS HT HF (HG eq_refl)) as (u' & d' & HA' & HNo & _). exists u', d'. split; [exact HA'|]. fold (line_of k u d) in HNo. fold (line_of k' u' d') in HNo.
    destruct (client_labour _ _ _ _ _ _ HI HX HS HT) as [(e & E1 & E2)|[(e & E0 & E1 & E4)|(E1 & E2 & E3)]].
    + left. now apply (to_client c _ _ e _ l).
    + right. left. pose proof (along_fine _ _ _ _ _ _ _ _ _ HA HI HS HT) as HBad. pose proof (run_to_reachable _ _ _ (al_run _ _ _ _ _ _ HA)) as HRW. pose proof (wire_refines _ _ _ HRW) as HRS.
      destruct E0 as [-> | ->].
      { split; [exists l; auto|]. destruct E4 as [E4|[(t & E4) E5]]; [now left|right]. destruct (wire_good _ _ _ HRW) as [_ HG2]. destruct (wire_linked _ _ _ HRW) as (_ & _ & HRun). destruct (al_down _ _ _ _ _ _ HA) as [_ HBy].
        unfold connecting, current in HBy. rewrite E4 in *. rewrite (HRun eq_refl) in HBy. destruct (HBy eq_refl) as (HT0 & bs & HF0 & EB). pose proof (take_cases _ chk _ _ _ _ HG2 HF0 EB HT0) as X. rewrite E5 in X.
        destruct X as (_ & rest & ->). now left. } exfalso. destruct (step_tcase _ _ _ _ HRS E1) as (l0 & st & w & ch & n & q & t & HTC & EN). rewrite EN, next_trace in HT. apply app_inv_head in HT. subst l0.
      inversion HTC; subst; discriminate HBad.
    + subst l. right. right. inversion HF; subst. inversion HNo. split; [congruence|]. auto.
  - destruct k as [us up q dn v]. cbn [pi_used pi_up pi_queue pi_down pi_live] in *. subst dn. destruct (along_arrive _ _ _ _ _ _ _ _ _ _ _ _ HA HS) as [E HA']. exists u, d. split; [exact HA'|]. right. right.
    split; [reflexivity|]. split; [auto|]. unfold bytes_left. cbn [pi_up pi_down]. rewrite app_length. cbn [wstep] in HS. destruct ch as [|b ch]; [congruence|]. cbn [length].
    destruct (negb us); injection HS as <-; cbn [w_new w_net w_dead Wire.arrive sr_in]; rewrite app_length; cbn [length]; lia.
  - destruct k as [us up q dn v]. cbn [pi_used pi_up pi_queue pi_down pi_live] in *. subst up. exists u, d. split; [now apply along_decode with b|]. right. right. split; [reflexivity|]. split; [auto|].
    unfold bytes_left. cbn [pi_up pi_down]. rewrite app_length. apply encodes_two in HE. destruct b; [rewrite len_nil in HE; lia|]. cbn [length]. lia.
  - destruct (along_keep _ _ _ _ _ _ q (pi_live k) _ _ HA (fun H => H) HSe) as (us & -> & HA'). exists (q ++ us), (d ++ ps). split; [exact HA'|]. left. apply to_broker. unfold line_of. cbn [pi_used pi_live].
    now apply deals_more.
Qed.

(* ---- the work is finite ---- *)
Lemma end_less c s s' w w' : config_ok c -> reachable c s -> read_end c s s' w w' -> remaining c s' w' < remaining c s w.
Proof.
  intros HC HR (l & HS & HT & HN). destruct (step_tcase _ _ _ _ HR HS) as (m & st & wt & ch & n & q & t & HTC & ->). rewrite next_trace in HT. apply app_inv_head in HT. subst m.
  pose proof (notices_work _ _ _ HN) as HW. clear HN HS. unfold remaining. rewrite ledger_next. cbn [next y_chan y_wait y_pc y_net]. inversion HTC; subst.
  - specialize (HW ltac:(intros [X|[]]; discriminate X)). unfold out_writes, out_reads, list_sum in HW. cbn in HW. match goal with H : y_pc s = _ |- _ => rewrite H end. cbn [pc_work].
    assert ((if nt_connected (y_net s) then 2 else 0) <= 2) by (destruct (nt_connected (y_net s)); lia). lia.
  - specialize (HW ltac:(intros [X|[]]; discriminate X)). unfold out_writes, out_reads, list_sum in HW. cbn in HW. match goal with H : y_pc s = _ |- _ => rewrite H end. cbn [pc_work].
    rewrite end_off. lia.
Qed.
Lemma partial_same c s s' w : step c EPartial s = Some s' -> remaining c s' w = remaining c s w.
Proof. cbn [step]. destruct (y_pc s) eqn:EP; try discriminate. destruct (cf_rt c); try discriminate; intros [= <-]; unfold remaining; cbn; now rewrite EP. Qed.
Lemma labour_less c chk i k u d i' k' u' d' : config_ok c -> along c chk i k u d ->
  (toil c (w_sys i) (line_of k u d) (w_sys i') (line_of k' u' d') \/
   read_end c (w_sys i) (w_sys i') (line_of k u d) (line_of k' u' d') /\ (y_pc (w_sys i) = PConnRead \/ In [] (sr_in (w_net i))) \/
   line_of k' u' d' = line_of k u d /\ (w_sys i' = w_sys i \/ step c EPartial (w_sys i) = Some (w_sys i') /\ cf_rt c = Smol) /\ bytes_left i' k' < bytes_left i k) ->
  remaining c (w_sys i') (line_of k' u' d') < remaining c (w_sys i) (line_of k u d) \/
  remaining c (w_sys i') (line_of k' u' d') = remaining c (w_sys i) (line_of k u d) /\ bytes_left i' k' < bytes_left i k.
Proof.
  intros HC HA H. pose proof (wire_refines _ _ _ (run_to_reachable _ _ _ (al_run _ _ _ _ _ _ HA))) as HR. destruct H as [H|[[H _]|(-> & H & HB)]].
  - left. now apply toil_less.
  - left. now apply end_less.
  - right. split; [|exact HB]. destruct H as [-> |[H _]]; [reflexivity|now apply partial_same].
Qed.
Definition before (c : config) (chk : bool) (b a : wire * pipe) : Prop := labour c chk true (fst a) (snd a) (fst b) (snd b).
Lemma along_acc c chk i k u d : config_ok c -> built c -> along c chk i k u d -> Acc (before c chk) (i, k).
Proof.
  intros HC HB. remember (remaining c (w_sys i) (line_of k u d)) as n eqn:EN. revert i k u d EN. induction n as [n IHn] using (well_founded_induction lt_wf).
  intros i k u d EN. remember (bytes_left i k) as m eqn:EM. revert i k u d EN EM. induction m as [m IHm] using (well_founded_induction lt_wf). intros i k u d EN EM HA.
  constructor. intros [i' k'] HL. unfold before in HL. cbn [fst snd] in HL. destruct (labour_step _ _ _ _ _ _ _ _ HC HB HA HL) as (u' & d' & HA' & HC').
  destruct (labour_less _ _ _ _ _ _ _ _ _ _ HC HA HC') as [X|[X Y]]; [apply (IHn _ ltac:(rewrite EN; exact X) i' k' u' d' eq_refl HA')|apply (IHm _ ltac:(rewrite EM; exact Y) i' k' u' d' ltac:(congruence) eq_refl HA')].
Qed.
Theorem bytes_ends c chk g i k : config_ok c -> built c -> g = true \/ cf_rt c = Smol -> attended_bytes c chk g i k -> Acc (before c chk) (i, k).
Proof. intros HC HB HG H. destruct (bytes_attended _ _ _ _ _ HC HB HG H) as (u & d & _ & HA). exact (along_acc _ _ _ _ _ _ HC HB HA). Qed.

(* no end of the connection arrives *)
Lemma take_in rt chk r r' p : take_chunk rt chk r = SMore r' \/ take_chunk rt chk r = SPacket p r' -> In [] (sr_in r') -> In [] (sr_in r).
Proof.
  unfold take_chunk. destruct (sr_in r) as [|[|x ch] rest]; [intros [H|H]; discriminate H|intros [H|H]; discriminate H|]. destruct rt; [|destruct (sr_need r) as [w|]]; intros H.
  - unfold tokio_take in H. destruct (aread_packet _) as [q n tl| | |]; destruct H as [H|H]; try discriminate H; injection H; intros; subst; cbn [sr_in] in *; [|now right].
    match goal with X : In [] (some_bytes ?t ++ _) |- _ => destruct t; cbn [some_bytes app] in X; [now right|destruct X as [X|X]; [discriminate X|now right]] end.
  - unfold smol_answer in H. destruct (read_more _ _ _ _) as [|[]]; destruct H as [H|H]; try discriminate H; injection H; intros; subst; now right.
  - unfold smol_take in H. destruct (parse_message _ _); destruct H as [H|H]; try discriminate H; injection H; intros; subst; now right.
Qed.
Lemma labour_chunks c chk g i k i' k' : linking (y_pc (w_sys i)) = false -> labour c chk g i k i' k' -> In [] (sr_in (w_net i')) -> In [] (sr_in (w_net i)).
Proof.
  intros HL H HI. destruct H as [x i' l k' HX HS HT HF HG|ch rest i' HD HN HS|p b rest HU HP HE|q ps bs HQ HSe]; auto.
  - assert (is_arrival x = false) as HA by (destruct x; [contradiction HX| |]; reflexivity). destruct (wstep_ctrans _ _ _ _ _ HA HS); cbn [w_net] in *; auto.
    + unfold drop_read in HI. destruct (cf_rt c); exact HI.
    + destruct (opens c e (w_sys i)) eqn:EO; [|exact HI]. unfold opens in EO. destruct e; try discriminate EO; destruct (y_pc (w_sys i)); try discriminate EO; discriminate HL.
    + exact (take_in _ _ _ _ PPingReq (or_introl H0) HI).
    + exact (take_in _ _ _ _ PPingReq (or_introl H0) HI).
    + exact (take_in _ _ _ _ p (or_intror H0) HI).
  - cbn [wstep] in HS. destruct (negb (pi_used k)); injection HS as <-; cbn [w_net Wire.arrive sr_in] in HI; auto. apply in_app_iff in HI as [HI|[HI|[]]]; [exact HI|congruence].
Qed.
