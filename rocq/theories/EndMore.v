(* C60: serialisation errors, and executions that start from bytes. *)
From Verif Require Import Base VarInt Prims Props Codes Packets BaseFacts PacketFacts SpecCodec SpecOptions Options Session Client System SpecSession SpecNet SpecTrace SpecRead SpecWire SpecOut SpecEnd.
From Verif Require Import CodecFacts CodecMore SystemFacts Cases SmolStream TokioRead Wire WireFacts WireMore OutFacts OutMore EndFacts.
From Verif Require FrameMore.

(* ---- a packet that cannot be serialised has no encoding ------------------------------------------ *)
Definition asks (c : config) (o : out) : Prop := match o with OWriteFail FromConnect p => exists o', opts_of c o' /\ p = create_connect o' | _ => True end.
Lemma asks_writes c x m : x <> FromConnect -> Forall (attempts x) m -> Forall (asks c) m.
Proof. intros HX. apply Forall_impl. intros o [p [-> | ->]]; [exact I|]. now destruct x. Qed.
Lemma tried_all c s : config_ok c -> reachable c s -> Forall (asks c) (trace s).
Proof.
  intros HC HR. pattern s. revert s HR. apply reachable_ind2; [constructor|]. intros s e s' HR IH HS.
  destruct (written_all c s HC HR) as [HO _]. destruct (step_tcase _ _ _ _ HR HS) as (l & st & w & ch & n & q & t & HT & ->). rewrite next_trace. apply Forall_app. split; [exact IH|].
  inversion HT; subst; try (repeat apply Forall_cons; try apply Forall_nil; exact I).
  - apply Forall_cons; [cbn; eauto|]. apply Forall_cons; [exact I|constructor].
  - apply Forall_app. split; [apply (asks_writes c FromResend); [discriminate|apply tokio_attempts]|]. apply Forall_cons; [exact I|constructor].
  - apply Forall_app. split; [apply (asks_writes c FromResend); [discriminate|apply tokio_attempts]|]. apply Forall_cons; [exact I|constructor].
  - apply Forall_app. split; [apply (asks_writes c FromResend); [discriminate|apply smol_attempts]|]. apply Forall_cons; [exact I|constructor].
  - apply Forall_app. split; [apply (asks_writes c FromResend); [discriminate|apply smol_attempts]|]. apply Forall_cons; [exact I|constructor].
  - apply (asks_writes c FromReply); [discriminate|apply smol_attempts].
  - apply Forall_app. split; [apply (asks_writes c FromReply); [discriminate|apply smol_attempts]|]. apply Forall_cons; [exact I|constructor].
Qed.
Lemma no_encoding c es s o p x : config_ok c -> built c -> Forall event_ok es -> exec c es (init c) = Some s -> In (OWriteFail o p) (trace s) -> ser_err (cf_rt c) p = Some x ->
  forall b, ~ encodes p b.
Proof.
  intros HC HB HF HE HI HX b Hb. pose proof (lawful_tried _ _ _ _ _ HC HB HF HE HI) as HL.
  assert (no_empty_auth p /\ no_assigned_id p) as [N1 N2].
  { assert (o = FromConnect \/ o <> FromConnect) as [EX|EX] by (destruct o; auto; right; discriminate); [|now apply (lawful_plain o)].
    subst o. pose proof (tried_all c s HC (ex_intro _ es HE)) as HT. rewrite Forall_forall in HT. destruct (HT _ HI) as (o' & HO & ->). apply (connect_lawful c o' HB HO). }
  destruct HL as [HW _]. destruct (writers_accept p b HW N1 Hb) as [A1 A2]. unfold ser_err in HX. destruct (cf_rt c); [rewrite (A2 N2) in HX|rewrite A1 in HX]; discriminate HX.
Qed.

Lemma prefix_in (l l1 l2 : list out) (x y : out) : l = l1 ++ x :: l2 -> In y l1 -> In y l.
Proof. intros -> H. apply in_or_app. now left. Qed.
Lemma run_serialise c es s l1 x l2 : config_ok c -> built c -> Forall event_ok es -> Forall real es -> exec c es (init c) = Some s -> trace s = l1 ++ ORunEnd (inr (SerializationError x)) :: l2 ->
  exists o p, In (OWriteFail o p) l1 /\ lawful o p /\ forall b, ~ encodes p b.
Proof.
  intros HC HB HF HR HE HT. destruct (run_result _ _ _ _ _ _ HC HR HE HT) as (_ & o & p & HI & HS). exists o, p. pose proof (prefix_in _ _ _ _ _ HT HI) as HJ.
  split; [exact HI|]. split; [exact (lawful_tried _ _ _ _ _ HC HB HF HE HJ)|exact (no_encoding _ _ _ _ _ _ HC HB HF HE HJ HS)].
Qed.
Lemma connect_serialise c es s l1 x l2 : config_ok c -> built c -> Forall event_ok es -> Forall real es -> exec c es (init c) = Some s -> trace s = l1 ++ OConnectEnd (Some (SerializationError x)) :: l2 ->
  exists o p, In (OWriteFail o p) l1 /\ lawful o p /\ forall b, ~ encodes p b.
Proof.
  intros HC HB HF HR HE HT. destruct (connect_result _ _ _ _ _ _ HC HR HE HT) as (_ & o & p & HI & HS). exists o, p. pose proof (prefix_in _ _ _ _ _ HT HI) as HJ.
  split; [exact HI|]. split; [exact (lawful_tried _ _ _ _ _ HC HB HF HE HJ)|exact (no_encoding _ _ _ _ _ _ HC HB HF HE HJ HS)].
Qed.

(* ---- executions that start from bytes are executions on packets in the right range ------------------- *)
Lemma varint_more k : forall i a n b v m r x, read_varint_loop k i a n b = ViOk v m r -> read_varint_loop k i a n (b ++ x) = ViOk v m (r ++ x) /\ m <= n + len b.
Proof.
  induction k as [|k IH]; intros i a n b v m r x H; cbn in *; [discriminate|]. destruct b as [|y b]; [discriminate|]. cbn [app]. rewrite (@len_cons N).
  destruct (_ =? 0); [injection H as <- <- <-; split; [reflexivity|lia]|]. destruct (IH _ _ _ _ _ _ _ x H) as [H1 H2]. split; [exact H1|lia].
Qed.
Lemma header_more b h n x : read_fixed_header b = RbOk (h, n) -> read_fixed_header (b ++ x) = RbOk (h, n) /\ n <= len b.
Proof.
  unfold read_fixed_header. rewrite len_app. destruct (len b <? 2) eqn:E; [discriminate|]. replace (len b + len x <? 2) with false by lia.
  destruct b as [|y b]; [discriminate|]. cbn [app]. destruct (from_first_byte y) as [[t f]| |]; try discriminate. unfold read_rem_len.
  destruct (read_varint_loop 4 0 0 0 b) as [v m r| |] eqn:EV; try discriminate. destruct (varint_more _ _ _ _ _ _ _ _ x EV) as [-> HM]. intros [= <- <-]. rewrite (@len_cons N). split; [reflexivity|lia].
Qed.
Lemma finish_reads h n buf p rest : read_fixed_header buf = RbOk (h, n) -> finish h n buf = MPacket p rest -> read_packet buf = RPacket p rest /\ exists k, rest = drop k buf.
Proof.
  intros EH. destruct (header_more _ _ _ [] EH) as [_ HN]. unfold finish, read_packet. rewrite EH. rewrite len_drop.
  destruct (len buf - n <? fh_rem h) eqn:E1; [discriminate|]. replace (len buf <? fh_rem h + n) with false by lia.
  destruct (read_body h _) as [[q s0]| |]; try discriminate. intros [= <- <-]. split; [reflexivity|]. exists (n + fh_rem h). now rewrite drop_drop.
Qed.
Definition known (rt : runtime) (r : stream) : Prop :=
  bytes_ok r /\ (rt = Smol -> forall w h n, sr_need r = Some w -> wt_head w = Some (h, n) -> read_fixed_header (sr_buf r) = RbOk (h, n)).
Definition real_err (e : cerr) : Prop := e = Io \/ e = DeserializationError.
Lemma round_reads chk buf : all_bytes buf ->
  match read_round chk buf with
  | inl w => forall h n, wt_head w = Some (h, n) -> read_fixed_header buf = RbOk (h, n)
  | inr (MPacket p rest) => packet_ok p /\ all_bytes rest
  | _ => True
  end.
Proof.
  intros HA. unfold read_round. destruct (read_fixed_header buf) as [[h n]|e|n] eqn:E; [|exact I|discriminate].
  destruct (_ <? _).
  - destruct (usize_sub _ _ _); [|exact I]. cbn. intros ? ? [= <- <-]. reflexivity.
  - destruct (finish h n buf) as [p rest| | |] eqn:EF; try exact I. destruct (finish_reads _ _ _ _ _ E EF) as [HP (k & ->)].
    split; [exact (proj1 (FrameMore.decoded_ok _ HA) _ _ HP)|now apply all_bytes_drop].
Qed.
Lemma take_known rt chk r : known rt r ->
  match take_chunk rt chk r with
  | SMore r' => known rt r'
  | SPacket p r' => packet_ok p /\ known rt r'
  | SFail e => real_err e
  | _ => True
  end.
Proof.
  intros [HK HH]. destruct rt.
  - pose proof (tokio_take_ok chk _ HK) as HT. destruct (take_chunk Tokio chk r) as [|r'|p r'|e|] eqn:E; try exact I.
    + split; [exact HT|discriminate].
    + split; [|split; [exact HT|discriminate]]. unfold take_chunk in E. destruct HK as [H1 H2]. destruct (sr_in r) as [|[|x ch] rest]; try discriminate E. unfold tokio_take in E.
      destruct (aread_packet _) as [q m tl| | |] eqn:EA; try discriminate E. injection E as <- _. apply Forall_inv in H2.
      refine (proj2 (FrameMore.decoded_ok _ _) _ _ _ EA). now apply all_bytes_app.
    + unfold take_chunk in E. destruct (sr_in r) as [|[|x ch] rest]; try discriminate E; [injection E as <-; now left|]. unfold tokio_take in E.
      destruct (aread_packet _); try discriminate E. injection E as <-. now right.
  - specialize (HH eq_refl). destruct HK as [H1 H2]. unfold take_chunk. destruct (sr_in r) as [|[|x ch] rest]; [exact I|now left|].
    apply Forall_cons_iff in H2 as [H2 H3]. assert (all_bytes (sr_buf r ++ x :: ch)) as HA by now apply all_bytes_app.
    destruct (sr_need r) as [w|] eqn:EN.
    + unfold smol_answer, read_more. destruct (_ <? _).
      * split; [split; assumption|]. cbn. intros _ w0 h n [= <-] EW. cbn in EW. exact (proj1 (header_more _ _ _ _ (HH _ _ _ eq_refl EW))).
      * destruct (wt_head w) as [[h n]|] eqn:EW.
        -- pose proof (proj1 (header_more _ _ _ (x :: ch) (HH _ _ _ eq_refl EW))) as EH. destruct (finish h n _) as [p tl| | |] eqn:EF; try exact I; [|now left].
           destruct (finish_reads _ _ _ _ _ EH EF) as [HP (k & ->)]. split; [exact (proj1 (FrameMore.decoded_ok _ HA) _ _ HP)|].
           split; [split; [now apply all_bytes_drop|exact H3]|]. cbn. discriminate.
        -- pose proof (round_reads chk _ HA) as HR. destruct (read_round chk _) as [w'|[p tl| | |]]; try exact I; [| |now left].
           ++ split; [split; assumption|]. cbn. intros _ w0 h n [= <-]. apply HR.
           ++ destruct HR as [HP HB]. split; [exact HP|]. split; [split; assumption|]. cbn. discriminate.
    + unfold smol_take, parse_message. destruct (read_fixed_header (sr_buf r ++ x :: ch)) as [[h n]|e|n] eqn:EH; [|now right|].
      * destruct (_ <? _).
        -- destruct (usize_sub _ _ _); [|exact I]. split; [split; assumption|]. discriminate.
        -- destruct (finish h n _) as [p tl| | |] eqn:EF; try exact I; [| |now right].
           ++ destruct (finish_reads _ _ _ _ _ EH EF) as [HP (k & ->)]. split; [exact (proj1 (FrameMore.decoded_ok _ HA) _ _ HP)|].
              split; [split; [now apply all_bytes_drop|exact H3]|]. cbn. discriminate.
           ++ unfold finish in EF. destruct (_ <? _); [discriminate EF|]. destruct (read_body _ _) as [[]|?|?]; discriminate EF.
      * split; [split; assumption|]. discriminate.
Qed.
Lemma new_known rt chk : known rt (new_stream chk).
Proof. split; [apply WireMore.new_ok|]. intros _ w h n. cbn. intros [= <-]. discriminate. Qed.
Lemma arrive_known rt ch r : all_bytes ch -> known rt r -> known rt (arrive ch r).
Proof. intros H [H1 H2]. split; [now apply arrive_ok|exact H2]. Qed.
Lemma drop_known rt r : known rt r -> known rt (drop_read rt r).
Proof. intros [[H1 H2] H3]. destruct rt; [|now split]. split; [split; [constructor|exact H2]|discriminate]. Qed.
Lemma exec_snoc c es e s s' : exec c es (init c) = Some s -> step c e s = Some s' -> exec c (es ++ [e]) (init c) = Some s'.
Proof. intros H1 H2. rewrite exec_app, H1. cbn. now rewrite H2. Qed.
Definition sound (e : event) : Prop := event_ok e /\ real e.
Lemma sound_snoc es e : Forall sound es -> sound e -> Forall sound (es ++ [e]).
Proof. intros H1 H2. apply Forall_app. split; [exact H1|]. constructor; [exact H2|constructor]. Qed.
Lemma wire_events c chk xs w : Forall wire_ok xs -> wexec c chk xs (winit c chk) = Some w ->
  exists es, exec c es (init c) = Some (w_sys w) /\ Forall event_ok es /\ Forall real es.
Proof.
  intros HF H. assert (known (cf_rt c) (w_new w) /\ known (cf_rt c) (w_net w) /\ exists es, exec c es (init c) = Some (w_sys w) /\ Forall sound es) as (_ & _ & es & HE & HX).
  2:{ exists es. split; [exact HE|]. split; (eapply Forall_impl; [|exact HX]); now intros e []. }
  revert w H. induction xs as [|x xs IH] using rev_ind; intros w H.
  - injection H as <-. cbn. split; [apply new_known|]. split; [apply new_known|]. exists []. now split.
  - apply Forall_app in HF as [HF HX]. apply Forall_inv in HX. rewrite wexec_app in H. destruct (wexec c chk xs (winit c chk)) as [w1|] eqn:E; [|discriminate].
    destruct (IH HF w1 eq_refl) as (H1 & H2 & es & HE & HS). cbn [wexec] in H. destruct (wstep c chk x w1) as [w2|] eqn:ES; [|discriminate]. injection H as <-. clear IH E HF.
    destruct x as [[] ch| |e]; cbn [wstep] in ES.
    + injection ES as <-. cbn in *. split; [now apply arrive_known|]. eauto.
    + injection ES as <-. cbn in *. split; [exact H1|]. split; [now apply arrive_known|]. eauto.
    + unfold wread in ES. destruct (w_dead w1); [discriminate ES|]. pose proof (take_known _ chk _ H1) as T1. pose proof (take_known _ chk _ H2) as T2.
      destruct (y_pc (w_sys w1)) eqn:EP; try discriminate ES; unfold read_result in ES; rewrite ?EP in ES.
      * destruct (take_chunk (cf_rt c) chk (w_new w1)) as [|r|p r|e|]; [discriminate ES| | | |].
        -- assert (w2 = Wire (w_sys w1) r (w_net w1) false) as -> by (destruct (cf_rt c); now injection ES). cbn. eauto.
        -- destruct (step c (EPacket p) (w_sys w1)) as [s|] eqn:EQ; [|discriminate ES]. injection ES as <-. destruct T1 as [HP T1]. cbn. split; [exact T1|]. split; [exact H2|].
           exists (es ++ [EPacket p]). split; [exact (exec_snoc _ _ _ _ _ HE EQ)|]. apply sound_snoc; [exact HS|]. now split.
        -- destruct (step c (EReadErr e) (w_sys w1)) as [s|] eqn:EQ; [|discriminate ES]. injection ES as <-. cbn. split; [exact H1|]. split; [exact H2|].
           exists (es ++ [EReadErr e]). split; [exact (exec_snoc _ _ _ _ _ HE EQ)|]. apply sound_snoc; [exact HS|]. now split.
        -- injection ES as <-. cbn. eauto.
      * destruct (take_chunk (cf_rt c) chk (w_net w1)) as [|r|p r|e|]; [discriminate ES| | | |].
        -- destruct (cf_rt c) eqn:ER.
           ++ injection ES as <-. cbn. eauto.
           ++ destruct (step c EPartial (w_sys w1)) as [s|] eqn:EQ; [|discriminate ES]. injection ES as <-. cbn. split; [exact H1|]. split; [exact T2|].
              exists (es ++ [EPartial]). split; [exact (exec_snoc _ _ _ _ _ HE EQ)|]. apply sound_snoc; [exact HS|]. now split.
        -- destruct (step c (EPacket p) (w_sys w1)) as [s|] eqn:EQ; [|discriminate ES]. injection ES as <-. destruct T2 as [HP T2]. cbn. split; [exact H1|]. split; [exact T2|].
           exists (es ++ [EPacket p]). split; [exact (exec_snoc _ _ _ _ _ HE EQ)|]. apply sound_snoc; [exact HS|]. now split.
        -- destruct (step c (EReadErr e) (w_sys w1)) as [s|] eqn:EQ; [|discriminate ES]. injection ES as <-. cbn. split; [exact H1|]. split; [exact H2|].
           exists (es ++ [EReadErr e]). split; [exact (exec_snoc _ _ _ _ _ HE EQ)|]. apply sound_snoc; [exact HS|]. now split.
        -- injection ES as <-. cbn. eauto.
    + unfold wevents in ES. destruct (is_read e || _) eqn:EI; [discriminate ES|]. apply orb_false_elim in EI as [EI _]. destruct (step c e (w_sys w1)) as [s|] eqn:EQ; [|discriminate ES]. injection ES as <-.
      assert (exists es, exec c es (init c) = Some s /\ Forall sound es) as HY.
      { exists (es ++ [e]). split; [exact (exec_snoc _ _ _ _ _ HE EQ)|]. apply sound_snoc; [exact HS|]. destruct e; try discriminate EI; split; try exact I. exact HX. }
      destruct e; cbn [w_new w_net w_sys]; try (destruct (opens _ _ _)); auto using new_known, drop_known.
Qed.

Lemma wire_results c chk xs w : config_ok c -> Forall wire_ok xs -> wexec c chk xs (winit c chk) = Some w ->
  (forall l1 r l2, trace (w_sys w) = l1 ++ ORunEnd r :: l2 -> run_cause c l1 r) /\
  (forall l1 e l2, trace (w_sys w) = l1 ++ OConnectEnd (Some e) :: l2 -> connect_cause c l1 e).
Proof. intros HC HF HX. destruct (wire_events _ _ _ _ HF HX) as (es & HE & _ & HR). split; intros l1 x l2; [now apply (run_result c es)|now apply (connect_result c es)]. Qed.
Lemma wire_lawful c chk xs w x p : config_ok c -> built c -> Forall wire_ok xs -> wexec c chk xs (winit c chk) = Some w -> In (OWrite x p) (trace (w_sys w)) ->
  lawful x p /\ encodes p (wire_bytes (cf_rt c) p).
Proof. intros HC HB HF HX. destruct (wire_events _ _ _ _ HF HX) as (es & HE & HO & _). now apply (lawful_bytes c es). Qed.
