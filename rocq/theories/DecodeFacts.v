(* C69: lemmas. *)
From Verif Require Import Base BaseFacts VarInt Prims Props Codes Packets Options Session Client System SpecCodec SpecLenient SpecSession SpecWire SmolStream TokioRead Wire WireFacts WireMore EndMore LenientMore SpecDecode.

Lemma buffer_frame buf p rest : all_bytes buf -> read_packet buf = RPacket p rest -> exists b, frame_of Smol p b /\ buf = b ++ rest.
Proof.
  intros HA H. destruct (buffer_says _ _ _ HA H) as (enc & body & extra & -> & H1 & H2 & H3). exists (spec_first p :: enc ++ body ++ extra). split; [now exists enc, body, extra|].
  cbn. now rewrite <- !app_assoc.
Qed.
Lemma stream_frame s p n r : all_bytes s -> aread_packet s = AOk p n r -> exists b, frame_of Tokio p b /\ s = b ++ r.
Proof.
  intros HA H. destruct (stream_says _ _ _ _ HA H) as (enc & body & -> & H1 & _ & H2 & H3). exists (spec_first p :: enc ++ body). split; [now exists enc, body|].
  cbn. now rewrite <- !app_assoc.
Qed.
Lemma round_says chk buf p rest : all_bytes buf -> read_round chk buf = inr (MPacket p rest) -> read_packet buf = RPacket p rest.
Proof.
  intros HA. unfold read_round. destruct (read_fixed_header buf) as [[h n]|e|n] eqn:E; [|discriminate|discriminate].
  destruct (_ <? _); [destruct (usize_sub _ _ _); discriminate|]. intros [= H]. exact (proj1 (finish_reads _ _ _ _ _ E H)).
Qed.
Definition conserved (rt : runtime) (r r' : stream) (p : option packet) : Prop :=
  sr_all r' = sr_all r /\ sr_torn r' = sr_torn r /\ sr_got r' = sr_got r ++ opt_list p /\
  match p with
  | None => sr_buf r ++ concat (sr_in r) = sr_buf r' ++ concat (sr_in r')
  | Some q => exists b, frame_of rt q b /\ sr_buf r ++ concat (sr_in r) = b ++ sr_buf r' ++ concat (sr_in r')
  end.
Lemma take_says rt chk r : known rt r ->
  match take_chunk rt chk r with SMore r' => conserved rt r r' None | SPacket p r' => conserved rt r r' (Some p) | _ => True end.
Proof.
  intros [[H1 H2] HH]. unfold take_chunk. destruct (sr_in r) as [|[|x ch] rest] eqn:EI; [exact I|exact I|]. set (cc := x :: ch) in *.
  apply Forall_cons_iff in H2 as [H2 H3]. assert (all_bytes (sr_buf r ++ cc)) as HA by now apply all_bytes_app.
  assert (forall w all got torn, sr_all r = all -> sr_got r = got -> sr_torn r = torn -> conserved rt r (Stream (sr_buf r ++ cc) w rest all got torn) None) as HMore.
  { intros w all got torn <- <- <-. unfold conserved. cbn [sr_all sr_torn sr_got sr_buf sr_in opt_list]. rewrite app_nil_r, EI. cbn [concat]. now rewrite <- app_assoc. }
  destruct rt.
  - unfold tokio_take. destruct (aread_packet (sr_buf r ++ cc)) as [p n tl|e| |e] eqn:EA; try exact I; [|now apply HMore].
    destruct (stream_frame _ _ _ _ HA EA) as (b & HF & EB). unfold conserved. cbn [sr_all sr_torn sr_got sr_buf sr_in opt_list]. do 3 (split; [reflexivity|]).
    exists b. split; [exact HF|]. rewrite EI. cbn [concat app]. rewrite concat_app, concat_some, app_assoc, EB, <- app_assoc. reflexivity.
  - specialize (HH eq_refl).
    assert (forall p tl w, read_packet (sr_buf r ++ cc) = RPacket p tl -> conserved Smol r (Stream tl w rest (sr_all r) (sr_got r ++ [p]) (sr_torn r)) (Some p)) as HP.
    { intros p tl w HR. destruct (buffer_frame _ _ _ HA HR) as (b & HF & EB). unfold conserved. cbn [sr_all sr_torn sr_got sr_buf sr_in opt_list]. do 3 (split; [reflexivity|]).
      exists b. split; [exact HF|]. rewrite EI. cbn [concat]. rewrite app_assoc, EB, <- app_assoc. reflexivity. }
    destruct (sr_need r) as [w|] eqn:EN.
    + unfold smol_answer, read_more. destruct (_ <? _); [now apply HMore|]. destruct (wt_head w) as [[h n]|] eqn:EW.
      * pose proof (proj1 (header_more _ _ _ cc (HH _ _ _ eq_refl EW))) as EH. destruct (finish h n _) as [p tl| | |] eqn:EF; try exact I. apply HP. exact (proj1 (finish_reads _ _ _ _ _ EH EF)).
      * destruct (read_round chk _) as [w'|[p tl| | |]] eqn:ER; try exact I; [now apply HMore|]. apply HP. eapply round_says; eassumption.
    + unfold smol_take, parse_message. destruct (read_fixed_header (sr_buf r ++ cc)) as [[h n]|e|n] eqn:EH; [|exact I|now apply HMore].
      destruct (_ <? _); [destruct (usize_sub _ _ _); [now apply HMore|exact I]|]. destruct (finish h n _) as [p tl| | |] eqn:EF; try exact I.
      * apply HP. exact (proj1 (finish_reads _ _ _ _ _ EH EF)).
      * unfold finish in EF. destruct (_ <? _); [discriminate EF|]. destruct (read_body _ _) as [[]|?|?]; discriminate EF.
Qed.

Definition tracked (rt : runtime) (r : stream) : Prop := known rt r /\
  (sr_torn r = false -> exists bs, sr_all r = concat bs ++ sr_buf r ++ concat (sr_in r) /\ Forall2 (frame_of rt) (sr_got r) bs).
Lemma tracked_new rt chk : tracked rt (new_stream chk).
Proof. split; [apply new_known|]. intros _. exists []. split; [reflexivity|constructor]. Qed.
Lemma tracked_arrive rt ch r : all_bytes ch -> tracked rt r -> tracked rt (arrive ch r).
Proof.
  intros HA [H1 H2]. split; [now apply arrive_known|]. cbn [arrive sr_torn sr_all sr_buf sr_in sr_got]. intros HT. destruct (H2 HT) as (bs & -> & HF). exists bs. split; [|exact HF].
  unfold arrive; cbn [sr_in sr_all sr_buf]. now rewrite (@concat_snoc N), <- !app_assoc.
Qed.
Lemma tracked_drop rt r : tracked rt r -> tracked rt (drop_read rt r).
Proof.
  intros [H1 H2]. split; [now apply drop_known|]. destruct rt; [|exact H2]. cbn [drop_read sr_torn sr_all sr_buf sr_in sr_got]. intros HT. apply orb_false_iff in HT as [HT HB].
  destruct (H2 HT) as (bs & -> & HF). exists bs. split; [|exact HF]. destruct (sr_buf r); [reflexivity|discriminate].
Qed.
Lemma tracked_take rt chk r : tracked rt r -> match take_chunk rt chk r with SMore r' | SPacket _ r' => tracked rt r' | _ => True end.
Proof.
  intros [H1 H2]. pose proof (take_known rt chk r H1) as HK. pose proof (take_says rt chk r H1) as HS. destruct (take_chunk rt chk r) as [|r'|p r'|e|]; try exact I.
  - split; [exact HK|]. destruct HS as (S1 & S2 & S3 & S4). rewrite S1, S2, S3. intros HT. destruct (H2 HT) as (bs & E & HF). exists bs. rewrite <- S4. split; [exact E|]. now rewrite app_nil_r.
  - split; [exact (proj2 HK)|]. destruct HS as (S1 & S2 & S3 & b & S4 & S5). rewrite S1, S2, S3. intros HT. destruct (H2 HT) as (bs & E & HF). exists (bs ++ [b]).
    split; [now rewrite (@concat_snoc N), E, S5, <- !app_assoc|]. apply Forall2_app; [exact HF|]. now constructor.
Qed.
Lemma wire_tracked c chk xs w : Forall wbytes xs -> wexec c chk xs (winit c chk) = Some w -> tracked (cf_rt c) (w_new w) /\ tracked (cf_rt c) (w_net w).
Proof.
  intros HF. revert w. induction xs as [|x xs IH] using rev_ind; intros w H.
  - injection H as <-. split; apply tracked_new.
  - apply Forall_app in HF as [HF HX]. apply Forall_inv in HX. rewrite wexec_app in H. destruct (wexec c chk xs (winit c chk)) as [w1|] eqn:E; [|discriminate].
    destruct (IH HF w1 eq_refl) as (H1 & H2). cbn [wexec] in H. destruct (wstep c chk x w1) as [w2|] eqn:ES; [|discriminate]. injection H as <-.
    destruct x as [[] ch| |e].
    + injection ES as <-. cbn in *. split; [now apply tracked_arrive|exact H2].
    + injection ES as <-. cbn in *. split; [exact H1|now apply tracked_arrive].
    + cbn [wstep] in ES. unfold wread in ES. destruct (w_dead w1); [discriminate ES|]. pose proof (tracked_take _ chk _ H1) as T1. pose proof (tracked_take _ chk _ H2) as T2.
      destruct (y_pc (w_sys w1)) eqn:EP; try discriminate ES; unfold read_result in ES; rewrite ?EP in ES.
      * destruct (take_chunk (cf_rt c) chk (w_new w1)) as [|r|p r|e|]; [discriminate ES| | | |].
        -- assert (w2 = Wire (w_sys w1) r (w_net w1) false) as -> by (destruct (cf_rt c); now injection ES). now split.
        -- destruct (step c (EPacket p) (w_sys w1)) as [s|]; [|discriminate ES]. injection ES as <-. now split.
        -- destruct (step c (EReadErr e) (w_sys w1)) as [s|]; [|discriminate ES]. injection ES as <-. now split.
        -- injection ES as <-. now split.
      * destruct (take_chunk (cf_rt c) chk (w_net w1)) as [|r|p r|e|]; [discriminate ES| | | |].
        -- destruct (cf_rt c); [injection ES as <-; now split|]. destruct (step c EPartial (w_sys w1)) as [s|]; [|discriminate ES]. injection ES as <-. now split.
        -- destruct (step c (EPacket p) (w_sys w1)) as [s|]; [|discriminate ES]. injection ES as <-. now split.
        -- destruct (step c (EReadErr e) (w_sys w1)) as [s|]; [|discriminate ES]. injection ES as <-. now split.
        -- injection ES as <-. now split.
    + cbn [wstep] in ES. unfold wevents in ES. destruct (is_read e || _) eqn:EI; [discriminate ES|]. destruct (step c e (w_sys w1)) as [s|]; [|discriminate ES]. injection ES as <-.
      destruct e; cbn [w_new w_net]; try (destruct (opens _ _ _)); auto using tracked_new, tracked_drop.
Qed.
Lemma decoded_order c chk xs w : Forall wbytes xs -> wexec c chk xs (winit c chk) = Some w -> nt_connected (y_net (w_sys w)) = true -> sr_torn (w_net w) = false ->
  exists a bs, ca_rc a = RSuccess /\ sr_all (w_net w) = concat bs ++ sr_buf (w_net w) ++ concat (sr_in (w_net w)) /\ Forall2 (frame_of (cf_rt c)) (PConnAck a :: since_open (trace (w_sys w))) bs.
Proof.
  intros HF HX HC HT. assert (wreachable c chk w) as HR by now exists xs. destruct (wire_linked _ _ _ HR) as (HL & _). destruct (HL HC) as (a & Ha & EG).
  destruct (wire_tracked _ _ _ _ HF HX) as (_ & _ & H2). destruct (H2 HT) as (bs & E & HB). exists a, bs. rewrite <- EG. auto.
Qed.
