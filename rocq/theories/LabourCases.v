(* C80: examples. *)
From Verif Require Import Base VarInt Prims Props Codes Packets BaseFacts Options Session Client System SpecSession SpecNet SpecTrace SpecCodec SpecRead SpecOut SpecEnd SmolStream TokioRead Wire SpecPolite SpecSettle SpecBytes SpecCarry SpecLabour
  SessionFacts SystemFacts Cases NetFacts WireFacts WireMore OptionsMore EndMore OutCases Scenario LoopCases PoliteCases BytesFacts BytesMore BytesWorld BytesPlay BytesCases CarryFacts CarryCases SettleMore SettleEnd SettleCases LabourFacts LabourMore.

(* BD: the broker deals with the n-th packet *)
Inductive bmove := BD (n : nat) (a : option packet) | BS (p : packet) | BX.
Definition bbroker (m : bmove) (k : pipe) (w : unit) : option (pipe * unit) :=
  let 'Pipe us u q d v := k in
  match m with
  | BD n a =>
    match skipn n q with
    | p :: q' =>
      match a with
      | Some a => if answer_to p a && sentb a then Some (Pipe us u (firstn n q ++ q') (d ++ concat [plain_bytes a]) v, tt) else None
      | None => if unanswerable p then Some (Pipe us u (firstn n q ++ q') (d ++ concat []) v, tt) else None
      end
    | [] => None
    end
  | BS p => if offers p && sentb p then Some (Pipe us u q (d ++ concat [plain_bytes p]) v, tt) else None
  | BX => Some (Pipe us [] [] (d ++ concat []) false, tt)
  end.
Lemma bbroker_deals n a k w k' w' : bbroker (BD n a) k w = Some (k', w') ->
  exists q ps bs, answering k q ps /\ Forall2 sent ps bs /\ k' = Pipe (pi_used k) (pi_up k) q (pi_down k ++ concat bs) (pi_live k).
Proof.
  destruct k as [us u q d v]. cbn [bbroker]. destruct (skipn n q) as [|p q'] eqn:ES; [discriminate|]. unfold answering. cbn [pi_used pi_queue pi_live pi_up pi_down]. destruct a as [a|].
  - destruct (answer_to p a && sentb a) eqn:EA; [|discriminate]. intros [= <- <-]. apply andb_true_iff in EA as [E1 E2]. exists (firstn n q ++ q'), [a], [plain_bytes a].
    split; [|split; [repeat constructor; now apply sentb_ok|reflexivity]]. rewrite <- (firstn_skipn n q) at 1. rewrite ES. now apply (de_answer p a us (firstn n q) q' [] v).
  - destruct (unanswerable p) eqn:EA; [|discriminate]. intros [= <- <-]. exists (firstn n q ++ q'), [], []. split; [|split; [constructor|reflexivity]]. rewrite <- (firstn_skipn n q) at 1. rewrite ES. now apply (de_none p us (firstn n q) q' [] v).
Qed.
Lemma bbroker_ok c chk g m i k w k' w' : carried nothing attentive_serves polite_leaves tt c chk g i k w -> bbroker m k w = Some (k', w') -> carried nothing attentive_serves polite_leaves tt c chk g i k' w'.
Proof.
  intros H E. destruct w'. destruct m as [n a|p|].
  - destruct (bbroker_deals _ _ _ _ _ _ E) as (q & ps & bs & E1 & E2 & ->). eapply cy_broker; [exact H| |exact E2]. split; [reflexivity|now left].
  - destruct k as [us u q d v]. cbn [bbroker] in E. destruct (offers p && sentb p) eqn:EA; [|discriminate]. injection E as <-. apply andb_true_iff in EA as [E1 E2].
    apply (cy_broker _ _ _ _ _ _ _ _ (Pipe us u q d v) _ _ [p] v tt [plain_bytes p] H); [|now repeat constructor; apply sentb_ok]. split; [reflexivity|]. right. split; [reflexivity|]. eauto.
  - destruct k as [us u q d v]. cbn [bbroker] in E. injection E as <-. apply (cy_close _ _ _ _ _ _ _ _ (Pipe us u q d v) w [] tt [] H); [reflexivity|constructor].
Qed.
Lemma bb_sound c chk g ms i k w : Forall asked ms -> pplay c chk g nothing bbroker ms (winit c chk) pipe0 tt = Some (i, k, w) -> attended_bytes c chk g i k.
Proof.
  intros HF H. destruct w. refine (pplay_sound c chk g nothing bbroker (carried nothing attentive_serves polite_leaves tt c chk g) _ _ _ _ _ ms _ _ _ _ _ _ (cy_init _ _ _ _ _ _ _) HF H).
  - intros i0 k0 w0 HL. exact (carried_reachable _ _ _ _ _ _ _ _ _ _ HL).
  - intros. eapply cy_client; eauto.
  - intros. eapply cy_arrive; eauto.
  - intros. eapply cy_decode; eauto.
  - intros. eapply bbroker_ok; eauto.
Qed.
(* the moves that are work *)
Definition busyb (m : pmove bmove) (k : pipe) : bool :=
  match m with
  | PC WRead => true | PC (WEvent e) => effort_fun e | PC (WArrive _ _) => false
  | PA n => match firstn n (pi_down k) with [] => false | _ => true end
  | PD => true | PB (BD _ _) => true | PB _ => false
  end.
Lemma busy_labour c chk g m i k i' k' w w' : wreachable c chk i -> busyb m k = true -> pstep c chk g nothing bbroker m i k w = Some (i', k', w') -> labour c chk g i k i' k'.
Proof.
  intros HR HB E. destruct m as [x|n| |m]; cbn [pstep] in E.
  - destruct (is_arrival x) eqn:EA; [discriminate|]. destruct (wstep c chk x i) as [i2|] eqn:ES; [|discriminate]. destruct (g && sr_torn (w_net i2)) eqn:ET; [discriminate|].
    destruct (felts _ _ _) as [k2|] eqn:EF; [|discriminate]. injection E as <- <- _. apply felts_ok in EF. eapply la_client; [|exact ES| |exact EF|].
    + destruct x as [| |e]; [discriminate HB|exact I|]. destruct e; try discriminate HB; exact I.
    + now apply (wstep_trace c chk x).
    + intros ->. exact ET.
  - destruct k as [us u q d v]. destruct (wstep _ _ _ _) as [i2|] eqn:ES; [|discriminate]. injection E as <- <- _. cbn [busyb pi_down] in HB.
    apply (la_arrive c chk g i (Pipe us u q d v) (firstn n d) (skipn n d)); [now rewrite firstn_skipn|intros X; now rewrite X in HB|exact ES].
  - unfold decode_fun in E. destruct k as [us u q d v]. destruct (read_packet u) as [p rest| | |] eqn:ER; try discriminate E. destruct (cleanb p && _) eqn:EC; [|discriminate].
    injection E as <- <- _. apply andb_true_iff in EC as [EC EE]. apply PanicFacts.eqb_eq in EE. destruct (cleanb_ok p EC) as ((W1 & _) & _ & _ & HE).
    apply (la_decode c chk g i (Pipe us u q d v) p (wire_bytes (cf_rt c) p) rest); [exact EE|exact W1|apply HE].
  - destruct m as [n a| |]; try discriminate HB. destruct (bbroker (BD n a) k w) as [[k2 w2]|] eqn:EB; [|discriminate]. injection E as <- <- _.
    destruct (bbroker_deals _ _ _ _ _ _ EB) as (q & ps & bs & E1 & E2 & ->). now apply la_deals with ps.
Qed.
Fixpoint bplay (c : config) (chk g : bool) (ms : list (pmove bmove)) (i : wire) (k : pipe) : option (wire * pipe) :=
  match ms with
  | [] => Some (i, k)
  | m :: ms => if busyb m k then match pstep c chk g nothing bbroker m i k tt with Some (i', k', _) => bplay c chk g ms i' k' | None => None end else None
  end.
Lemma bplay_ok c chk g ms : forall i k i' k', attended_bytes c chk g i k -> bplay c chk g ms i k = Some (i', k') -> labours c chk g i k i' k'.
Proof.
  induction ms as [|m ms IH]; intros i k i' k' HA H; cbn [bplay] in H; [injection H as <- <-; constructor|]. destruct (busyb m k) eqn:EB; [|discriminate].
  destruct (pstep c chk g nothing bbroker m i k tt) as [[[i1 k1] w1]|] eqn:E; [|discriminate]. pose proof (busy_labour _ _ _ _ _ _ _ _ _ _ (carried_reachable _ _ _ _ _ _ _ _ _ _ HA) EB E) as HL.
  econstructor; [exact HL|]. apply IH; [eapply labour_attended; eassumption|exact H].
Qed.

(* nothing is left to do *)
Definition quietb (i : wire) (k : pipe) : bool :=
  match pi_up k, pi_queue k, pi_down k, sr_in (w_net i), y_pc (w_sys i), y_wait (w_sys i), y_chan (w_sys i) with
  | [], [], [], [], PSelect _, [], [] => pl_open (st_pool (y_state (w_sys i)))
  | _, _, _, _, _, _, _ => false
  end.
Lemma quiet_done c chk g i k : wreachable c chk i -> quietb i k = true -> all_done c chk g i k.
Proof.
  unfold quietb. intros HR H i' k' HL. destruct (pi_up k) eqn:EU; [|discriminate]. destruct (pi_queue k) eqn:EQ; [|discriminate]. destruct (pi_down k) eqn:ED; [|discriminate]. destruct (sr_in (w_net i)) eqn:EI; [|discriminate].
  destruct (y_pc (w_sys i)) eqn:EP; try discriminate. destruct (y_wait (w_sys i)) eqn:EW; [|discriminate]. destruct (y_chan (w_sys i)) eqn:EC; [|discriminate].
  destruct HL as [x i' l k' HX HS HT HF HG|ch rest i' HD HN HS|p b rest HU HP HE|q ps bs HQ HSe].
  - destruct x as [| |e]; [contradiction HX| |].
    + cbn [wstep] in HS. unfold wread in HS. destruct (w_dead i); [discriminate|]. rewrite EP in HS. unfold take_chunk in HS. rewrite EI in HS. discriminate HS.
    + cbn [wstep] in HS. unfold wevents in HS. destruct (Wire.is_read e || _) eqn:ER; [discriminate|]. apply orb_false_iff in ER as [ER _]. destruct (step c e (w_sys i)) as [s|] eqn:ES; [|discriminate].
      pose proof (wire_refines _ _ _ HR) as HRS. destruct (can_do c (w_sys i) (Line true [] [] true) e s HRS HX ES) as (s1 & w1 & HTo); [destruct e; try exact I; discriminate ER|].
      exact (select_rest c (w_sys i) (Line true [] [] true) _ HRS eq_refl eq_refl EP EW EC H _ _ HTo).
  - rewrite ED in HD. symmetry in HD. apply app_eq_nil in HD as [HD _]. contradiction.
  - rewrite EU in HU. symmetry in HU. apply app_eq_nil in HU as [-> _]. apply encodes_two in HE. rewrite len_nil in HE. lia.
  - unfold answering in HQ. rewrite EQ in HQ. inversion HQ; subst; match goal with X : ?a ++ _ = [] |- _ => destruct a; discriminate X end.
Qed.

(* ---- cases ---- *)
Definition summary (c : config) (i : wire) (k : pipe) (i' : wire) (k' : pipe) :=
  (nt_connected (y_net (w_sys i)), in_flight (now_ledger c (w_sys i)), (pi_live k', unbroken (trace (w_sys i')), nt_connected (y_net (w_sys i'))), in_flight (now_ledger c (w_sys i')), quietb i' k').
Definition b_facts (rt : runtime) (g : bool) (ms work : list (pmove bmove)) :=
  match pplay (lc_cfg rt) false g nothing bbroker ms (winit (lc_cfg rt) false) pipe0 tt with
  | Some (i, k, _) => match bplay (lc_cfg rt) false g work i k with Some (i', k') => Some (summary (lc_cfg rt) i k i' k') | None => None end
  | None => None
  end.
Lemma b_runs rt g ms work v : Forall asked ms -> b_facts rt g ms work = Some v ->
  exists i k i' k', attended_bytes (lc_cfg rt) false g i k /\ labours (lc_cfg rt) false g i k i' k' /\ summary (lc_cfg rt) i k i' k' = v.
Proof.
  intros HF. unfold b_facts. destruct (pplay _ _ _ _ _ _ _ _ _) as [[[i k] w]|] eqn:E1; [|discriminate]. destruct (bplay _ _ _ _ _ _) as [[i' k']|] eqn:E2; [|discriminate].
  intros H. apply bb_sound in E1; [|exact HF]. pose proof (bplay_ok _ _ _ _ _ _ _ _ E1 E2) as HL. exists i, k, i', k'. split; [exact E1|]. split; [exact HL|]. congruence.
Qed.
Lemma b_found rt g ms work n f v u n' f' : Forall asked ms -> b_facts rt g ms work = Some (n, f, (v, u, n'), f', true) ->
  exists i k i' k', attended_bytes (lc_cfg rt) false g i k /\ labours (lc_cfg rt) false g i k i' k' /\ all_done (lc_cfg rt) false g i' k' /\
    nt_connected (y_net (w_sys i)) = n /\ in_flight (now_ledger (lc_cfg rt) (w_sys i)) = f /\ pi_live k' = v /\ unbroken (trace (w_sys i')) = u /\ nt_connected (y_net (w_sys i')) = n' /\
    in_flight (now_ledger (lc_cfg rt) (w_sys i')) = f'.
Proof.
  intros HF H. destruct (b_runs _ _ _ _ _ HF H) as (i & k & i' & k' & HA & HL & HS). exists i, k, i', k'. unfold summary in HS. split; [exact HA|]. split; [exact HL|].
  split; [apply quiet_done; [|congruence]; exact (carried_reachable _ _ _ _ _ _ _ _ _ _ (labours_attended _ _ _ _ _ _ _ HA HL))|]. repeat apply conj; congruence.
Qed.
Definition bp_connect (rt : runtime) : list (pmove bmove) := cp_connect rt (BD 0 (Some (sc_connack false))).
Definition bp_write (k : call) : list (pmove bmove) := [PC (WEvent (ECall k)); PC (WEvent (ESend 0)); PC (WEvent EOutgoing); PC (WEvent (EWrite true))].
(* a publish of QoS 1 and one of QoS 2 have been written, a subscribe waits, a message comes from the broker *)
Definition bc_start (rt : runtime) : list (pmove bmove) :=
  bp_connect rt ++ bp_write (sc_pub AtLeastOnce) ++ bp_write (sc_pub ExactlyOnce) ++ [PC (WEvent (ECall sc_sub)); PB (BS (PPublish (Publish false AtMostOnce false [116] None no_props [1])))].
Definition bp_take (rt : runtime) (n : nat) : list (pmove bmove) := [PA 3; PC WRead; PA (n - 3); PC WRead; PC (WEvent EHandled)] ++ match rt with Tokio => [] | Smol => [PC (WEvent (EWrite true))] end.
Definition bp_reply : list (pmove bmove) := [PA 3; PC WRead; PA 1; PC WRead; PC (WEvent EHandled); PC (WEvent (EWrite true))].
Definition bc_work (rt : runtime) : list (pmove bmove) :=
  [PD; PD; PB (BD 0 (Some (PPubAck (sc_ack 1)))); PB (BD 0 (Some (PPubRec (sc_ack 2)))); PC (WEvent (ESend 0))] ++ bp_take rt 7 ++ bp_take rt 4 ++ bp_reply ++
  [PC (WEvent EOutgoing); PC (WEvent (EWrite true)); PD; PD; PB (BD 0 (Some (PPubComp (sc_ack 2)))); PB (BD 0 (Some (pb_suback 3)))] ++ bp_take rt 4 ++ bp_take rt 6.
(* two packets arrive together *)
Definition bc_stall : list (pmove bmove) :=
  bp_connect Smol ++ bp_write (sc_pub AtLeastOnce) ++ bp_write (sc_pub AtLeastOnce) ++ [PD; PD; PB (BD 0 (Some (PPubAck (sc_ack 1)))); PB (BD 0 (Some (PPubAck (sc_ack 2)))); PA 8; PC WRead; PC (WEvent EHandled); PC (WEvent (EWrite true))].
(* A message of QoS 0 whose payload begins like a packet of 129 bytes.  The client abandons the read after the bytes before it. *)
Definition bc_torn : list (pmove bmove) :=
  bp_connect Tokio ++ [PB (BS (PPublish (Publish false AtMostOnce false [116] None no_props [48; 127]))); PA 6; PC WRead] ++ bp_write (sc_pub AtLeastOnce) ++
  [PD; PB (BD 0 (Some (PPubAck (sc_ack 1)))); PA 2; PC WRead; PA 4; PC WRead].

Lemma lc_ok rt : config_ok (lc_cfg rt).
Proof. split; [split; vm_compute; discriminate|vm_compute; discriminate]. Qed.
Lemma labour_case rt : exists i k i' k', attended_bytes (lc_cfg rt) false true i k /\ nt_connected (y_net (w_sys i)) = true /\ labours (lc_cfg rt) false true i k i' k' /\ all_done (lc_cfg rt) false true i' k' /\
  pi_live k' = true /\ unbroken (trace (w_sys i')) = true /\ nt_connected (y_net (w_sys i')) = true /\ in_flight (now_ledger (lc_cfg rt) (w_sys i)) = [3; 1; 2].
Proof.
  destruct (b_found rt true (bc_start rt) (bc_work rt) true [3; 1; 2] true true true []) as (i & k & i' & k' & H1 & H2 & H3 & H4 & H5 & H6 & H7 & H8 & _); [destruct rt; moves|destruct rt; vm_compute; reflexivity|].
  exists i, k, i', k'. auto 10.
Qed.
Lemma stall_case : exists i k, config_ok (lc_cfg Smol) /\ built (lc_cfg Smol) /\ attended_bytes (lc_cfg Smol) false true i k /\ nt_connected (y_net (w_sys i)) = true /\ all_done (lc_cfg Smol) false true i k /\
  pi_live k = true /\ unbroken (trace (w_sys i)) = true /\ In 2 (in_flight (now_ledger (lc_cfg Smol) (w_sys i))).
Proof.
  destruct (b_found Smol true bc_stall [] true [2] true true true [2]) as (i & k & i' & k' & H1 & H2 & H3 & H4 & H5 & H6 & H7 & H8 & H9); [moves|vm_compute; reflexivity|].
  exists i', k'. split; [apply lc_ok|]. split; [apply lc_built|]. split; [exact (labours_attended _ _ _ _ _ _ _ H1 H2)|]. rewrite H9. do 4 (split; [assumption|]). now left.
Qed.
Lemma torn_case : exists i k, config_ok (lc_cfg Tokio) /\ built (lc_cfg Tokio) /\ attended_bytes (lc_cfg Tokio) false false i k /\ nt_connected (y_net (w_sys i)) = true /\ all_done (lc_cfg Tokio) false false i k /\
  pi_live k = true /\ unbroken (trace (w_sys i)) = true /\ In 1 (in_flight (now_ledger (lc_cfg Tokio) (w_sys i))).
Proof.
  destruct (b_found Tokio false bc_torn [] true [1] true true true [1]) as (i & k & i' & k' & H1 & H2 & H3 & H4 & H5 & H6 & H7 & H8 & H9); [moves|vm_compute; reflexivity|].
  exists i', k'. split; [apply lc_ok|]. split; [apply lc_built|]. split; [exact (labours_attended _ _ _ _ _ _ _ H1 H2)|]. rewrite H9. do 4 (split; [assumption|]). now left.
Qed.
(* the end of the connection has arrived *)
Definition bc_end (rt : runtime) : list (pmove bmove) := bp_connect rt ++ bp_write (sc_pub AtLeastOnce) ++ [PB BX; PA 0].
Lemma end_case rt : exists i k i' k', attended_bytes (lc_cfg rt) false true i k /\ nt_connected (y_net (w_sys i)) = true /\ labours (lc_cfg rt) false true i k i' k' /\ nt_connected (y_net (w_sys i')) = false.
Proof.
  destruct (b_runs rt true (bc_end rt) [PC WRead] (true, [1], (false, true, false), [1], false)) as (i & k & i' & k' & H1 & H2 & H3); [destruct rt; moves|destruct rt; vm_compute; reflexivity|].
  exists i, k, i', k'. unfold summary in H3. split; [exact H1|]. split; [congruence|]. split; [exact H2|congruence].
Qed.
