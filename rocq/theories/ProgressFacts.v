(* C70: lemmas. *)
From Verif Require Import Base BaseFacts VarInt Prims Props Codes Packets Options Session Client System SpecCodec SpecLenient SpecSession SpecWire SystemFacts Cases SmolStream TokioRead Wire WireFacts WireMore EndMore SpecDecode DecodeFacts SpecProgress.

(* --- nothing hangs --- *)
Lemma take_some rt chk r : sr_in r <> [] -> take_chunk rt chk r <> SNone.
Proof.
  intros H. unfold take_chunk. destruct (sr_in r) as [|[|x ch] rest]; [contradiction|discriminate|]. destruct rt.
  - unfold tokio_take. destruct (aread_packet _); discriminate.
  - destruct (sr_need r) as [w|].
    + unfold smol_answer, read_more. destruct (_ <? _); [discriminate|]. assert (forall h n b, match finish h n b with MMore _ => False | _ => True end) as HF.
      { intros h n b. unfold finish. destruct (_ <? _); [exact I|]. destruct (read_body _ _) as [[]|?|?]; exact I. }
      destruct (wt_head w) as [[h n]|].
      * specialize (HF h n (sr_buf r ++ x :: ch)). destruct (finish _ _ _); try discriminate. destruct HF.
      * unfold read_round. destruct (read_fixed_header _) as [[h n]|e|n]; try discriminate. destruct (_ <? _); [destruct (usize_sub _ _ _); discriminate|].
        specialize (HF h n (sr_buf r ++ x :: ch)). destruct (finish _ _ _); try discriminate. destruct HF.
    + unfold smol_take. destruct (parse_message _ _); discriminate.
Qed.
Definition works : list wevent := [WRead; WEvent EHandled; WEvent (EWrite true); WEvent (EWrites [] true); WEvent EOutgoing].
Lemma rests_works c chk w : (forall x, In x works -> wstep c chk x w = None) -> over w \/ waiting_for_more w.
Proof.
  intros H. unfold over, waiting_for_more, in_use. destruct (w_dead w) eqn:ED; [auto|].
  assert (forall e, In (WEvent e) works -> is_read e = false -> step c e (w_sys w) = None) as HE.
  { intros e HO HR. specialize (H _ HO). cbn [wstep] in H. unfold wevents in H. rewrite HR, ED in H. cbn in H. destruct (step c e (w_sys w)); [discriminate H|reflexivity]. }
  pose proof (HE EHandled ltac:(cbn; auto) eq_refl) as H1. pose proof (HE (EWrite true) ltac:(cbn; auto) eq_refl) as H2. pose proof (HE (EWrites [] true) ltac:(cbn; auto) eq_refl) as H3. pose proof (HE EOutgoing ltac:(cbn; auto 10) eq_refl) as H4.
  specialize (H WRead (or_introl eq_refl)). cbn [wstep] in H. unfold wread in H. rewrite ED in H. cbn [step] in *.
  assert (forall r, (exists t, y_pc (w_sys w) = PSelect t) \/ y_pc (w_sys w) = PConnRead -> forall put, read_result c (take_chunk (cf_rt c) chk r) put r (w_sys w) = None -> sr_in r = []) as HN.
  { intros r HP put HX. destruct (sr_in r) eqn:EI; [reflexivity|]. exfalso. assert (take_chunk (cf_rt c) chk r <> SNone) as HT by (apply take_some; congruence).
    unfold read_result in HX. destruct (take_chunk (cf_rt c) chk r); try contradiction; cbn [step] in HX;
      destruct HP as [[t HP]|HP]; rewrite ?HP in HX; destruct (cf_rt c); discriminate HX. }
  destruct (y_pc (w_sys w)) eqn:EP; try discriminate; cbn [connecting]; auto.
  - right. split; [|now left]. eapply HN; [now right|exact H].
  - right. split; [eapply HN; [eauto|exact H]|]. right. split; [eauto|]. unfold outgoing in H4. destruct (y_chan (w_sys w)); [|discriminate H4]. split; [reflexivity|]. destruct (pl_open _); [reflexivity|discriminate H4].
Qed.
Lemma works_own x : In x works -> own_work x.
Proof. intros [<-|[<-|[<-|[<-|[<-|[]]]]]]; exact I. Qed.
Lemma rests c chk w : (forall x, own_work x -> wstep c chk x w = None) -> over w \/ waiting_for_more w.
Proof. intros H. apply (rests_works c chk). auto using works_own. Qed.

(* --- nothing goes on for ever --- *)
Definition total (r : stream) : nat := (length (sr_buf r) + length (concat (sr_in r)) + length (sr_in r))%nat.
Definition rank (q : pc) : nat :=
  match q with PIdle | PCrash => 0 | PSelect _ => 1 | PReply _ | PFlush _ | PRequest _ | PPing | PBye => 2 | PHandle _ => 3 | PConnResend _ => 4 | PConnHandle _ => 5 | PConnRead => 6 | PConnWrite => 7 end.
Definition measure (w : wire) : nat :=
  if w_dead w then 0 else match y_pc (w_sys w) with PIdle | PCrash => 0 | q => 8 * total (in_use w) + 4 * length (y_chan (w_sys w)) + rank q end%nat.
Lemma frame_long rt p b : frame_of rt p b -> (1 <= length b)%nat.
Proof. destruct rt; [intros (? & ? & -> & _)|intros (? & ? & ? & -> & _)]; cbn; lia. Qed.
Lemma take_less rt chk r : known rt r -> match take_chunk rt chk r with SMore r' | SPacket _ r' => (total r' < total r)%nat | _ => (0 < total r \/ sr_in r = [])%nat end.
Proof.
  intros HK. pose proof (take_says rt chk r HK) as HS.
  assert (match take_chunk rt chk r with SMore r' => (length (sr_in r') < length (sr_in r))%nat | SPacket _ r' => (length (sr_in r') <= length (sr_in r))%nat | _ => (0 < total r \/ sr_in r = [])%nat end) as HL.
  { unfold take_chunk. destruct (sr_in r) as [|ch rest] eqn:EI; [now right|].
    assert (0 < total r)%nat as HT by (unfold total; rewrite EI; cbn [length]; lia).
    destruct ch as [|x ch]; [now left|]. destruct rt.
    - unfold tokio_take. destruct (aread_packet _) as [p n tl| | |]; cbn [sr_in length]; try lia. destruct tl; cbn; lia.
    - destruct (sr_need r).
      + unfold smol_answer. destruct (read_more _ _ _ _) as [|[]]; cbn [sr_in length]; lia.
      + unfold smol_take. destruct (parse_message _ _); cbn [sr_in length]; lia. }
  unfold total in *. destruct (take_chunk rt chk r) as [|r'|p r'|e|]; try exact HL.
  - destruct HS as (_ & _ & _ & E). apply (f_equal (@length N)) in E. rewrite !app_length in E. lia.
  - destruct HS as (_ & _ & _ & b & HF & E). apply (f_equal (@length N)) in E. rewrite !app_length in E. apply frame_long in HF. lia.
Qed.
Lemma drop_less rt r : (total (drop_read rt r) <= total r)%nat.
Proof. destruct rt; [|reflexivity]. unfold total. cbn. lia. Qed.
Lemma reply_rank rt r t : (rank (reply_pc rt r t) <= 2)%nat.
Proof. destruct rt, r; cbn; lia. Qed.
Lemma reply_running rt r t : connecting (reply_pc rt r t) = false /\ reply_pc rt r t <> PIdle.
Proof. destruct rt, r; split; cbn; congruence. Qed.
Definition measure1 (q : pc) (i n : nat) : nat := match q with PIdle | PCrash => 0 | q => 8 * i + 4 * n + rank q end%nat.
Lemma measure_eq w : measure w = if w_dead w then 0%nat else measure1 (y_pc (w_sys w)) (total (in_use w)) (length (y_chan (w_sys w))).
Proof. unfold measure, measure1. destruct (w_dead w); [reflexivity|]. now destruct (y_pc (w_sys w)). Qed.
Lemma measure1_le q i n : (measure1 q i n <= 8 * i + 4 * n + rank q)%nat.
Proof. destruct q; cbn; lia. Qed.
(* what one event does to the control point and the channel *)
Lemma event_less c s e s' : reachable c s -> step c e s = Some s' -> own_work (WEvent e) ->
  y_pc s <> PIdle /\ y_pc s <> PCrash /\
  (y_pc s' = PIdle \/ y_pc s' = PCrash \/ (connecting (y_pc s') = connecting (y_pc s) /\
    ((length (y_chan s') = length (y_chan s) /\ rank (y_pc s') < rank (y_pc s)) \/ (length (y_chan s) = S (length (y_chan s')) /\ rank (y_pc s') <= 2)))%nat).
Proof.
  intros HR HS HO. destruct (step_tcase _ _ _ _ HR HS) as (l & st & wt & ch & n & q & t & HT & ->). cbn [next y_pc y_chan].
  pose proof (fun o => reply_rank (cf_rt c) o (y_now s)) as HRK. pose proof (fun o => reply_running (cf_rt c) o (y_now s)) as HRR.
  destruct HT; cbn [own_work] in HO; try contradiction HO; match goal with H : y_pc _ = _ |- _ => rewrite H end; (split; [discriminate|]); (split; [discriminate|]); auto; right; right; cbn [connecting rank].
  all: try (split; [reflexivity|]; left; split; [reflexivity|lia]).
  all: try (split; [apply HRR|]; left; split; [reflexivity|]; specialize (HRK None); lia).
  all: try (split; [apply HRR|]; left; split; [reflexivity|]; specialize (HRK r); lia).
  all: try (split; [reflexivity|]; right; match goal with H : y_chan _ = _ |- _ => rewrite H end; cbn; lia).
Qed.
Lemma packet_less c s p s' : reachable c s -> step c (EPacket p) s = Some s' ->
  (y_pc s = PConnRead \/ exists t, y_pc s = PSelect t) /\ y_chan s' = y_chan s /\
  (y_pc s' = PIdle \/ y_pc s' = PCrash \/ (connecting (y_pc s') = connecting (y_pc s) /\ rank (y_pc s') <= rank (y_pc s) + 2)%nat).
Proof.
  intros HR HS. destruct (step_tcase _ _ _ _ HR HS) as (l & st & wt & ch & n & q & t & HT & ->). cbn [next y_pc y_chan].
  pose proof (fun o => reply_rank (cf_rt c) o (y_now s)) as HRK. pose proof (fun o => reply_running (cf_rt c) o (y_now s)) as HRR.
  inversion HT; subst; match goal with H : y_pc _ = _ |- _ => rewrite H end; (split; [eauto|]); (split; [reflexivity|]); auto; right; right; cbn [connecting rank]; (split; [try apply HRR; reflexivity|]); try lia. specialize (HRK reply). lia.
Qed.
Lemma rank_pos q : q <> PIdle -> q <> PCrash -> (1 <= rank q)%nat.
Proof. destruct q; try contradiction; cbn; lia. Qed.
Lemma measure1_pos q i n : q <> PIdle -> q <> PCrash -> measure1 q i n = (8 * i + 4 * n + rank q)%nat.
Proof. destruct q; try contradiction; reflexivity. Qed.
Lemma opens_connecting c e s : opens c e s = true -> connecting (y_pc s) = true.
Proof. destruct e; try discriminate; cbn; destruct (y_pc s); try discriminate; reflexivity. Qed.
Lemma read_err_over c s e s' : step c (EReadErr e) s = Some s' -> y_pc s' = PIdle.
Proof. cbn [step]. destruct (y_pc s); intros H; try discriminate H; injection H as <-; reflexivity. Qed.
Lemma partial_less c s s' : step c EPartial s = Some s' -> y_chan s' = y_chan s /\ exists t t', y_pc s = PSelect t /\ y_pc s' = PSelect t'.
Proof. cbn [step]. destruct (y_pc s) eqn:E; intros H; try discriminate H. injection H as <-. destruct (cf_rt c); cbn; eauto. Qed.
Lemma own_less c chk xs0 w x w' : Forall wbytes xs0 -> wexec c chk xs0 (winit c chk) = Some w -> own_work x -> wstep c chk x w = Some w' -> (measure w' < measure w)%nat.
Proof.
  intros HF HX HO HS. assert (reachable c (w_sys w)) as HR by (apply (wire_refines c chk); now exists xs0).
  destruct (wire_tracked _ _ _ _ HF HX) as ((K1 & _) & (K2 & _)). rewrite !measure_eq. destruct x as [f ch| |e]; [contradiction HO| |].
  - cbn [wstep] in HS. unfold wread in HS. destruct (w_dead w) eqn:ED; [discriminate HS|].
    assert (forall r put, known (cf_rt c) r -> in_use w = r -> (y_pc (w_sys w) = PConnRead \/ exists t, y_pc (w_sys w) = PSelect t) ->
      (forall r' s', w_sys (put r' s') = s' /\ w_dead (put r' s') = false /\ (connecting (y_pc s') = connecting (y_pc (w_sys w)) -> in_use (put r' s') = r')) ->
      read_result c (take_chunk (cf_rt c) chk r) put r (w_sys w) = Some w' ->
      ((if w_dead w' then 0 else measure1 (y_pc (w_sys w')) (total (in_use w')) (length (y_chan (w_sys w')))) < measure1 (y_pc (w_sys w)) (total (in_use w)) (length (y_chan (w_sys w))))%nat) as HG.
    { intros r put HK EU HP HPut HX2. assert (y_pc (w_sys w) <> PIdle /\ y_pc (w_sys w) <> PCrash) as [N1 N2] by (destruct HP as [-> | [t ->]]; split; discriminate).
      rewrite EU. rewrite (measure1_pos (y_pc (w_sys w)) _ _ N1 N2). pose proof (rank_pos _ N1 N2). pose proof (take_less _ chk r HK) as HT. unfold read_result in HX2.
      destruct (take_chunk (cf_rt c) chk r) as [|r'|p r'|e|]; [discriminate HX2| | | |].
      - assert (exists s', w' = put r' s' /\ y_chan s' = y_chan (w_sys w) /\ connecting (y_pc s') = connecting (y_pc (w_sys w)) /\ rank (y_pc s') = rank (y_pc (w_sys w))) as (s' & -> & E1 & E2 & E3).
        { assert (Some (put r' (w_sys w)) = Some w' \/ option_map (put r') (step c EPartial (w_sys w)) = Some w') as [HQ|HQ] by (destruct (cf_rt c), (y_pc (w_sys w)); auto).
          - injection HQ as <-. eauto.
          - destruct (step c EPartial (w_sys w)) as [s'|] eqn:ES; [|discriminate HQ]. injection HQ as <-. destruct (partial_less _ _ _ ES) as (E1 & t & t' & E2 & E3). exists s'. rewrite E2, E3. auto. }
        destruct (HPut r' s') as (-> & -> & HU). rewrite (HU E2), E1. pose proof (measure1_le (y_pc s') (total r') (length (y_chan (w_sys w)))). lia.
      - destruct (step c (EPacket p) (w_sys w)) as [s'|] eqn:ES; [|discriminate HX2]. injection HX2 as <-. destruct (HPut r' s') as (-> & -> & HU).
        destruct (packet_less _ _ _ _ HR ES) as (_ & E1 & [E2|[E2|[E2 E3]]]); [rewrite E2; cbn; lia|rewrite E2; cbn; lia|].
        rewrite (HU E2), E1. pose proof (measure1_le (y_pc s') (total r') (length (y_chan (w_sys w)))). lia.
      - destruct (step c (EReadErr e) (w_sys w)) as [s'|] eqn:ES; [|discriminate HX2]. injection HX2 as <-. destruct (HPut r s') as (-> & -> & _). rewrite (read_err_over _ _ _ _ ES). cbn. lia.
      - injection HX2 as <-. cbn [w_dead]. lia. }
    destruct (y_pc (w_sys w)) eqn:EP; try discriminate HS.
    + refine (HG _ _ K1 _ _ _ HS); [unfold in_use; rewrite EP; reflexivity|auto|]. intros r' s'. cbn. split; [reflexivity|]. split; [reflexivity|]. unfold in_use. cbn. now intros ->.
    + refine (HG _ _ K2 _ _ _ HS); [unfold in_use; rewrite EP; reflexivity|eauto|]. intros r' s'. cbn. split; [reflexivity|]. split; [reflexivity|]. unfold in_use. cbn. now intros ->.
  - cbn [wstep] in HS. unfold wevents in HS. assert (is_client e = false) as HC by (destruct e; try contradiction HO; reflexivity). rewrite HC in HS. destruct (is_read e); [discriminate HS|].
    destruct (w_dead w) eqn:ED; [discriminate HS|]. cbn [orb andb negb] in HS. destruct (step c e (w_sys w)) as [s'|] eqn:ES; [|discriminate HS].
    destruct (event_less _ _ _ _ HR ES HO) as (N1 & N2 & HC2). rewrite (measure1_pos _ _ _ N1 N2). pose proof (rank_pos _ N1 N2).
    assert (w_sys w' = s' /\ w_dead w' = false /\ (connecting (y_pc s') = connecting (y_pc (w_sys w)) -> (total (in_use w') <= total (in_use w))%nat)) as (E1 & E2 & HU).
    { split; [injection HS as <-; destruct e; reflexivity|]. split; [injection HS as <-; destruct e; reflexivity|]. intros HQ.
      assert (w_sys w' = s') as E by (injection HS as <-; destruct e; reflexivity). unfold in_use. rewrite E, HQ. destruct (connecting (y_pc (w_sys w))) eqn:EC.
      - destruct e; try contradiction HO; injection HS as <-; reflexivity.
      - assert (opens c e (w_sys w) = false) as EO by (destruct (opens c e (w_sys w)) eqn:EO; [apply opens_connecting in EO; congruence|reflexivity]). rewrite EO in HS.
        destruct e; try contradiction HO; injection HS as <-; cbn [w_net]; try apply drop_less; reflexivity. }
    rewrite E1, E2. destruct HC2 as [E|[E|[E [[E3 E4]|[E3 E4]]]]].
    + rewrite E. cbn. lia.
    + rewrite E. cbn. lia.
    + specialize (HU E). pose proof (measure1_le (y_pc s') (total (in_use w')) (length (y_chan s'))). lia.
    + specialize (HU E). pose proof (measure1_le (y_pc s') (total (in_use w')) (length (y_chan s'))). lia.
Qed.
Lemma own_wbytes x : own_work x -> wbytes x.
Proof. destruct x as [| |e]; try contradiction; try exact (fun _ => I). Qed.
Lemma bounded c chk xs0 w : Forall wbytes xs0 -> wexec c chk xs0 (winit c chk) = Some w ->
  forall xs w', Forall own_work xs -> wexec c chk xs w = Some w' -> (length xs + measure w' <= measure w)%nat.
Proof.
  intros HF HX xs. revert xs0 w HF HX. induction xs as [|x xs IH]; intros xs0 w HF HX w' HO HE; [injection HE as <-; cbn; lia|].
  cbn [wexec] in HE. destruct (wstep c chk x w) as [w1|] eqn:ES; [|discriminate HE]. apply Forall_cons_iff in HO as [HO1 HO2].
  pose proof (own_less _ _ _ _ _ _ HF HX HO1 ES). assert (wexec c chk (xs0 ++ [x]) (winit c chk) = Some w1) as HX1 by (rewrite wexec_app, HX; cbn; now rewrite ES).
  assert (Forall wbytes (xs0 ++ [x])) as HF1 by (apply Forall_app; split; [exact HF|constructor; [now apply own_wbytes|constructor]]).
  specialize (IH _ _ HF1 HX1 _ HO2 HE). cbn [length]. lia.
Qed.
Lemma works_dec c chk w : (forall x, In x works -> wstep c chk x w = None) \/ exists x w', In x works /\ wstep c chk x w = Some w'.
Proof.
  generalize works as l. induction l as [|x l [IH|(y & w' & H1 & H2)]].
  - left. contradiction.
  - destruct (wstep c chk x w) as [w'|] eqn:E; [right; exists x, w'; cbn; auto|]. left. intros y [<-|HI]; auto.
  - right. exists y, w'. cbn. auto.
Qed.
Lemma wexec_snoc c chk xs0 x w0 w w1 : wexec c chk xs0 w0 = Some w -> wstep c chk x w = Some w1 -> wexec c chk (xs0 ++ [x]) w0 = Some w1.
Proof. intros HX HS. rewrite wexec_app, HX. cbn. now rewrite HS. Qed.
Lemma wbytes_snoc xs x : Forall wbytes xs -> own_work x -> Forall wbytes (xs ++ [x]).
Proof. intros HF HO. apply Forall_app. split; [exact HF|]. constructor; [now apply own_wbytes|constructor]. Qed.
Lemma settles c chk xs0 w : Forall wbytes xs0 -> wexec c chk xs0 (winit c chk) = Some w ->
  exists xs w', Forall own_work xs /\ wexec c chk xs w = Some w' /\ (over w' \/ waiting_for_more w').
Proof.
  remember (measure w) as n eqn:En. revert xs0 w En. induction n as [n IH] using lt_wf_ind. intros xs0 w -> HF HX. destruct (works_dec c chk w) as [HN|(x & w1 & HI & HS)].
  - exists [], w. split; [constructor|]. split; [reflexivity|now apply (rests_works c chk)].
  - apply works_own in HI. destruct (IH (measure w1) (own_less _ _ _ _ _ _ HF HX HI HS) (xs0 ++ [x]) w1 eq_refl (wbytes_snoc _ _ HF HI) (wexec_snoc _ _ _ _ _ _ _ HX HS)) as (xs & w' & H1 & H2 & H3).
    exists (x :: xs), w'. split; [now constructor|]. split; [cbn; now rewrite HS|exact H3].
Qed.

(* --- the end of the stream --- *)
Lemma take_end rt chk r : In [] (sr_in r) -> match take_chunk rt chk r with SMore r' | SPacket _ r' => In [] (sr_in r') | _ => True end.
Proof.
  unfold take_chunk. destruct (sr_in r) as [|[|x ch] rest]; [contradiction|reflexivity|]. intros [HI|HI]; [discriminate HI|]. destruct rt.
  - unfold tokio_take. destruct (aread_packet _) as [p n tl| | |]; cbn [sr_in]; auto. apply in_or_app. now right.
  - destruct (sr_need r).
    + unfold smol_answer. destruct (read_more _ _ _ _) as [|[]]; cbn [sr_in]; auto.
    + unfold smol_take. destruct (parse_message _ _); cbn [sr_in]; auto.
Qed.
Lemma over_stuck c chk w x : reachable c (w_sys w) -> over w -> own_work x -> wstep c chk x w = None.
Proof.
  intros HR HV HO. destruct x as [| |e]; [contradiction HO| |]; cbn [wstep].
  - unfold wread. destruct (w_dead w) eqn:ED; [reflexivity|]. destruct HV as [-> |[-> |HV]]; try reflexivity. congruence.
  - destruct (wevents c chk e w) as [w'|] eqn:ES; [|reflexivity]. exfalso. unfold wevents in ES. assert (is_client e = false) as HC by (destruct e; try contradiction HO; reflexivity). rewrite HC in ES. destruct (is_read e); [discriminate ES|].
    destruct (w_dead w) eqn:ED; [discriminate ES|]. cbn in ES. destruct (step c e (w_sys w)) as [s'|] eqn:EE; [|discriminate ES].
    destruct (event_less _ _ _ _ HR EE HO) as (N1 & N2 & _). destruct HV as [HV|[HV|HV]]; congruence.
Qed.
Definition ends (w : wire) : Prop := over w \/ In [] (sr_in (in_use w)).
Lemma own_ends c chk w x w' : reachable c (w_sys w) -> own_work x -> wstep c chk x w = Some w' -> ends w -> ends w'.
Proof.
  intros HR HO HS HV. destruct HV as [HV|HI]; [rewrite (over_stuck c chk w x HR HV HO) in HS; discriminate HS|]. unfold ends. destruct x as [| |e]; [contradiction HO| |].
  - cbn [wstep] in HS. unfold wread in HS. destruct (w_dead w) eqn:ED; [discriminate HS|].
    assert (forall r put, in_use w = r -> (y_pc (w_sys w) = PConnRead \/ exists t, y_pc (w_sys w) = PSelect t) ->
      (forall r' s', w_sys (put r' s') = s' /\ (connecting (y_pc s') = connecting (y_pc (w_sys w)) -> in_use (put r' s') = r')) ->
      read_result c (take_chunk (cf_rt c) chk r) put r (w_sys w) = Some w' -> over w' \/ In [] (sr_in (in_use w'))) as HG.
    { intros r put EU HP HPut HX2. rewrite EU in HI. pose proof (take_end (cf_rt c) chk r HI) as HT. unfold read_result in HX2.
      destruct (take_chunk (cf_rt c) chk r) as [|r'|p r'|e|]; [discriminate HX2| | | |].
      - right. assert (exists s', w' = put r' s' /\ connecting (y_pc s') = connecting (y_pc (w_sys w))) as (s' & -> & E2).
        { assert (Some (put r' (w_sys w)) = Some w' \/ option_map (put r') (step c EPartial (w_sys w)) = Some w') as [HQ|HQ] by (destruct (cf_rt c), (y_pc (w_sys w)); auto).
          - injection HQ as <-. eauto.
          - destruct (step c EPartial (w_sys w)) as [s'|] eqn:ES; [|discriminate HQ]. injection HQ as <-. destruct (partial_less _ _ _ ES) as (E1 & t & t' & E2 & E3). exists s'. rewrite E2, E3. auto. }
        destruct (HPut r' s') as (_ & HU). now rewrite (HU E2).
      - destruct (step c (EPacket p) (w_sys w)) as [s'|] eqn:ES; [|discriminate HX2]. injection HX2 as <-. destruct (HPut r' s') as (E & HU). unfold over. rewrite E.
        destruct (packet_less _ _ _ _ HR ES) as (_ & E1 & [E2|[E2|[E2 E3]]]); [auto|auto|]. right. now rewrite (HU E2).
      - left. destruct (step c (EReadErr e) (w_sys w)) as [s'|] eqn:ES; [|discriminate HX2]. injection HX2 as <-. destruct (HPut r s') as (E & _). unfold over. rewrite E, (read_err_over _ _ _ _ ES). now left.
      - left. injection HX2 as <-. right. now right. }
    destruct (y_pc (w_sys w)) eqn:EP; try discriminate HS.
    + refine (HG _ _ _ _ _ HS); [unfold in_use; rewrite EP; reflexivity|auto|]. intros r' s'. cbn. split; [reflexivity|]. unfold in_use. cbn. now intros ->.
    + refine (HG _ _ _ _ _ HS); [unfold in_use; rewrite EP; reflexivity|eauto|]. intros r' s'. cbn. split; [reflexivity|]. unfold in_use. cbn. now intros ->.
  - cbn [wstep] in HS. unfold wevents in HS. assert (is_client e = false) as HC by (destruct e; try contradiction HO; reflexivity). rewrite HC in HS. destruct (is_read e); [discriminate HS|].
    destruct (w_dead w) eqn:ED; [discriminate HS|]. cbn [orb andb negb] in HS. destruct (step c e (w_sys w)) as [s'|] eqn:ES; [|discriminate HS].
    assert (w_sys w' = s') as E by (injection HS as <-; destruct e; reflexivity). unfold over. rewrite E. destruct (event_less _ _ _ _ HR ES HO) as (N1 & N2 & [HE|[HE|[HE _]]]); [auto|auto|]. right.
    unfold in_use in *. rewrite E, HE. destruct (connecting (y_pc (w_sys w))) eqn:EC.
    + destruct e; try contradiction HO; injection HS as <-; exact HI.
    + assert (opens c e (w_sys w) = false) as EO by (destruct (opens c e (w_sys w)) eqn:EO; [apply opens_connecting in EO; congruence|reflexivity]). rewrite EO in HS.
      destruct e; try contradiction HO; injection HS as <-; cbn [w_net]; try exact HI. destruct (cf_rt c); exact HI.
Qed.
Lemma end_ends c chk xs0 w xs w' : wexec c chk xs0 (winit c chk) = Some w -> In [] (sr_in (in_use w)) ->
  Forall own_work xs -> wexec c chk xs w = Some w' -> (forall x, own_work x -> wstep c chk x w' = None) -> over w'.
Proof.
  intros HX HI HO HE HN. assert (ends w') as [HV|HV]; [|exact HV|].
  - assert (ends w) as HV by now right. clear HI HN. revert xs0 w HX HO HE HV. induction xs as [|x xs IH]; intros xs0 w HX HO HE HV; [injection HE as <-; exact HV|].
    cbn [wexec] in HE. destruct (wstep c chk x w) as [w1|] eqn:ES; [|discriminate HE]. apply Forall_cons_iff in HO as [HO1 HO2].
    apply (IH (xs0 ++ [x]) w1); auto. { eapply wexec_snoc; eauto. } eapply own_ends; eauto. apply (wire_refines c chk). now exists xs0.
  - destruct (rests _ _ _ HN) as [H|[H _]]; [exact H|]. rewrite H in HV. destruct HV.
Qed.
Lemma bounded_work c chk xs0 w : Forall wbytes xs0 -> wexec c chk xs0 (winit c chk) = Some w ->
  exists n, forall xs w', Forall own_work xs -> wexec c chk xs w = Some w' -> (length xs <= n)%nat.
Proof. intros HF HX. exists (measure w). intros xs w' HO HE. pose proof (bounded _ _ _ _ HF HX _ _ HO HE). lia. Qed.
