(* C16: over-long strings. *)
From Verif Require Import Base VarInt Prims Props Codes Packets SpecCodec SpecLong BaseFacts Utf8Facts VarIntFacts PrimFacts PacketFacts CodecFacts CodecMore FrameFacts FrameMore LimitMore Check Witness ExactFacts ExactMore.

(* ---- packet_ok = typed and short ---- *)
Lemma short_app a b : Forall short (a ++ b) <-> Forall short a /\ Forall short b.
Proof. apply Forall_app. Qed.
Lemma short_opt o : Forall short (opt_list o) <-> (forall x, o = Some x -> short x).
Proof. destruct o; cbn [opt_list]; split; intros H; try (constructor; try constructor; now apply H); intros x E; [injection E as <-; now inversion H|discriminate E]. Qed.
Lemma props_fields cfg p : props_ok cfg p <-> props_typed cfg p /\ Forall short (prop_fields p).
Proof.
  unfold props_ok, props_typed, prop_fields. rewrite !short_app, !short_opt. split.
  - intros (H1 & H2 & H3 & H4 & H5 & H6). split.
    + split; [|split; [|auto]].
      * intros t v E. destruct (H1 t v E) as [X Y]. split; [exact X|]. destruct v; cbn in *; unfold str_ok, bin_ok in Y; tauto.
      * eapply Forall_impl; [|exact H2]. unfold str_ok. cbn. tauto.
    + assert (forall t s, get_prop t p = Some (VStr s) -> short s) as HS by (intros t s E; exact (proj2 (proj2 (H1 _ _ E)))).
      assert (forall t s, get_prop t p = Some (VBin s) -> short s) as HN by (intros t s E; exact (proj2 (proj2 (H1 _ _ E)))).
      repeat apply conj.
      * intros x E. apply (HS ContentType). cbn. now rewrite E.
      * intros x E. apply (HS ResponseTopic). cbn. now rewrite E.
      * intros x E. apply (HN CorrelationData). cbn. now rewrite E.
      * intros x E. apply (HS AssignedClientIdentifier). cbn. now rewrite E.
      * intros x E. apply (HS AuthenticationMethod). cbn. now rewrite E.
      * intros x E. apply (HN AuthenticationData). cbn. now rewrite E.
      * intros x E. apply (HS ResponseInformation). cbn. now rewrite E.
      * intros x E. apply (HS ServerReference). cbn. now rewrite E.
      * intros x E. apply (HS ReasonString). cbn. now rewrite E.
      * clear - H2. induction H2 as [|[k v] l [X Y] H IH]; cbn [flat_map app]; [constructor|]. constructor; [exact (proj2 X)|]. constructor; [exact (proj2 Y)|exact IH].
  - intros ((H1 & H2 & H3 & H4 & H5 & H6) & F1 & F2 & F3 & F4 & F5 & F6 & F7 & F8 & F9 & F10). split; [|split; [|auto]].
    + intros t v E. destruct (H1 t v E) as [X Y]. split; [exact X|].
      destruct t; cbn [get_prop] in E; try discriminate E;
        match type of E with option_map _ ?o = _ => destruct o eqn:EO; [|discriminate E] end; cbn [option_map] in E; injection E as <-; cbn in *; trivial; (split; [exact Y|]); match goal with |- len ?b <= 65535 => change (short b) end; auto.
    + clear - H2 F10. induction H2 as [|[k v] l [X Y] H IH]; [constructor|]. cbn [flat_map app fst snd] in F10. inversion F10 as [|? ? A1 A2]; subst. inversion A2 as [|? ? A3 A4]; subst.
      constructor; [|now apply IH]. unfold str_ok. auto.
Qed.
Lemma ok_short p : packet_ok p -> Forall short (fields p).
Proof.
  assert (forall cfg q, props_ok cfg q -> Forall short (prop_fields q)) as HP by (intros cfg q H; now apply props_fields in H).
  unfold fields. intros H. apply short_app. destruct p; cbn [packet_ok packet_props] in *; split; try (now constructor).
  - destruct H as (_ & H & _). exact (HP _ _ H).
  - destruct H as (_ & _ & HW & HU & HX & HC). repeat (apply short_app; split).
    + constructor; [exact (proj2 HC)|constructor].
    + destruct (cn_will c) as [w|]; [|constructor]. destruct HW as (W1 & W2 & W3). constructor; [exact (proj2 W2)|]. constructor; [exact (proj2 W3)|]. exact (HP _ _ W1).
    + destruct (cn_username c); [|constructor]. constructor; [exact (proj2 HU)|constructor].
    + destruct (cn_password c); [|constructor]. constructor; [exact (proj2 HX)|constructor].
  - exact (HP _ _ (proj2 H)).
  - destruct H as (_ & _ & _ & H & _). exact (HP _ _ H).
  - destruct H as (H & _). constructor; [exact (proj2 H)|constructor].
  - exact (HP _ _ (proj2 (proj2 H))).
  - exact (HP _ _ (proj2 (proj2 H))).
  - exact (HP _ _ (proj2 (proj2 H))).
  - exact (HP _ _ (proj2 (proj2 H))).
  - exact (HP _ _ (proj1 (proj2 H))).
  - destruct H as (_ & _ & H & _). induction H as [|t l X H IH]; [constructor|]. constructor; [exact (proj2 X)|exact IH].
  - exact (HP _ _ (proj1 (proj2 H))).
  - exact (HP _ _ (proj1 (proj2 H))).
  - destruct H as (_ & _ & H & _). induction H as [|t l X H IH]; [constructor|]. constructor; [exact (proj2 X)|exact IH].
  - exact (HP _ _ (proj1 (proj2 H))).
  - exact (HP _ _ (proj2 H)).
  - exact (HP _ _ (proj2 H)).
Qed.
Lemma request_short r : typed (rq_packet r) -> Forall short (fields (rq_packet r)) -> rq_ok r.
Proof.
  assert (forall cfg q, props_typed cfg q -> Forall short (prop_fields q) -> props_ok cfg q) as HP by (intros cfg q H1 H2; apply props_fields; auto).
  destruct r; cbn [rq_packet rq_ok typed]; unfold fields; cbn [packet_props]; rewrite short_app; unfold pub_request, sub_request, unsub_request; intros H [F1 F2].
  - destruct H as (H1 & H2 & H3 & H4 & H5). pose proof (HP _ _ H4 F1). auto.
  - destruct H as (H1 & H2 & H3). pose proof (HP _ _ H2 F1). auto.
  - destruct H as (H1 & H2 & H3). pose proof (HP _ _ H2 F1). auto.
Qed.
(* no reader gives a packet with a long field *)
Lemma never_read p x b : In x (fields p) -> 65535 < len x -> all_bytes b -> (forall rest, read_packet b <> RPacket p rest) /\ (forall n rest, aread_packet b <> AOk p n rest).
Proof.
  intros HI HL HB. assert (packet_ok p -> False) as HN.
  { intros H. apply ok_short in H. rewrite Forall_forall in H. specialize (H _ HI). unfold short in H. lia. }
  destruct (decoded_ok b HB) as [D1 D2]. split; intros; intros E; apply HN; eauto.
Qed.

(* ---- writing is never refused because of a length of 65536 or more ---- *)
Definition fine (w : wr) : Prop := w_err w = None /\ all_bytes (w_bytes w).
Lemma fine_nil : fine w_nil.
Proof. split; [reflexivity|constructor]. Qed.
Lemma fine_put b : all_bytes b -> fine (w_put b).
Proof. now split. Qed.
Lemma fine_seq a b : fine a -> fine b -> fine (a >>> b).
Proof. intros [A1 A2] [B1 B2]. unfold fine, w_seq. rewrite A1. cbn. split; [exact B1|]. now apply all_bytes_app. Qed.
Ltac fseq := match goal with |- fine (w_seq _ _) => apply fine_seq; fseq | |- _ => assumption end.
Lemma fine_concat l : Forall fine l -> fine (w_concat l).
Proof. induction 1 as [|w l H _ IH]; cbn [w_concat fold_right]; [exact fine_nil|]. now apply fine_seq. Qed.
Lemma fine_map {A} (f : A -> wr) l : (forall x, In x l -> fine (f x)) -> fine (w_concat (map f l)).
Proof. intros H. apply fine_concat. apply Forall_forall. intros w X. apply in_map_iff in X as (x & <- & X). auto. Qed.
Lemma fine_opt {A} (f : A -> wr) o : opt_ok (fun x => fine (f x)) o -> fine (write_opt f o).
Proof. destruct o; cbn; auto. intros _. exact fine_nil. Qed.
Lemma byte_mod n : n mod 256 < 256.
Proof. now apply N.mod_lt. Qed.
Lemma bytes_be16 n : all_bytes (be16 n).
Proof. repeat constructor; apply byte_mod. Qed.
Lemma fine_varint n : n <= MAXVAR -> fine (write_varint n) /\ fine (awrite_varint n).
Proof. intros H. rewrite write_varint_spec, awrite_varint_spec by exact H. split; apply fine_put; now apply spec_varint_bytes. Qed.
Lemma fine_str s : all_bytes s -> fine (write_str s).
Proof. intros H. apply fine_put. apply all_bytes_app. split; [apply bytes_be16|exact H]. Qed.
Lemma fine_bin s : all_bytes s -> fine (write_bin s).
Proof. exact (fine_str s). Qed.
Lemma fine_val v : val_typed v -> fine (write_val v) /\ fine (awrite_val v).
Proof.
  destruct v; cbn [val_typed write_val awrite_val]; intros H.
  1-3: split; apply fine_put; repeat constructor; apply byte_mod.
  - now apply fine_varint.
  - split; apply fine_str; now apply utf8_bytes.
  - split; now apply fine_bin.
  - split; apply fine_put; destruct q; repeat constructor.
  - split; apply fine_put; destruct b; repeat constructor.
  - destruct H. split; apply fine_seq; apply fine_str; now apply utf8_bytes.
Qed.
Lemma items_typed cfg t p v : props_typed cfg p -> In v (items cfg t p) -> val_typed v.
Proof.
  intros (H1 & H2 & _ & H4 & _) HI. assert (forall t, In v (opt_list (get_prop t p)) -> val_typed v) as HG.
  { intros t0 X. destruct (get_prop t0 p) as [v0|] eqn:E; [|contradiction]. destruct X as [-> |[]]. exact (proj2 (H1 _ _ E)). }
  destruct t; cbn [items] in HI; try (exact (HG _ HI)).
  - destruct (c_sublist cfg); [|exact (HG _ HI)]. apply in_map_iff in HI as (n & <- & X). rewrite Forall_forall in H4. exact (H4 _ X).
  - apply in_map_iff in HI as (kv & <- & X). rewrite Forall_forall in H2. exact (H2 _ X).
Qed.
Lemma fine_ptype t : fine (write_ptype t).
Proof. apply fine_put. destruct t; repeat constructor. Qed.
Lemma fine_props cfg p : props_typed cfg p -> (c_auth_strict cfg = true -> auth_method_ok p) -> props_len cfg p <= MAXVAR -> fine (write_props cfg p) /\ fine (awrite_props cfg p).
Proof.
  intros HT HA HL. destruct (fine_varint _ HL) as [V1 V2].
  assert (forall t, fine (w_concat (map (fun v => write_ptype t >>> write_val v) (items cfg t p))) /\ fine (w_concat (map (fun v => write_ptype t >>> awrite_val v) (items cfg t p)))) as HI.
  { intros t. split; apply fine_map; intros v X; (apply fine_seq; [apply fine_ptype|]); apply fine_val; exact (items_typed _ _ _ _ HT X). }
  pose proof fine_nil as HN.
  split; (apply fine_seq; [assumption|]); apply fine_map; intros t _; destruct (HI t) as [I1 I2].
  - unfold write_type. destruct t; trivial. destruct (c_auth_strict cfg) eqn:E; [|now destruct (auth_data_written p)].
    specialize (HA eq_refl). unfold auth_method_ok in HA. destruct (authentication_data p) as [d|]; [|exact I1]. cbn [is_some andb].
    destruct (authentication_method p); [exact I1|]. exfalso. now apply HA.
  - unfold awrite_type. destruct t; trivial. now destruct (auth_data_written p).
Qed.
Lemma rc_byte c : rc_to_u8 c < 256.
Proof. destruct c; reflexivity. Qed.
Lemma fine_rc c : fine (write_rc c).
Proof. apply fine_put. constructor; [apply rc_byte|constructor]. Qed.
Lemma fine_flags c : fine (write_cflags (connect_flags c)).
Proof. apply fine_put. constructor; [|constructor]. unfold connect_flags, cflags_to_u8. destruct (cn_will c) as [[[] [] ? ? ?]|]; destruct (cn_clean_start c), (cn_username c), (cn_password c); reflexivity. Qed.
Lemma fine_sopts o : fine (write_sopts o).
Proof. apply fine_put. constructor; [|constructor]. destruct o as [[] [] [] []]; reflexivity. Qed.
Lemma fine_first p : all_bytes [first_byte p].
Proof. constructor; [|constructor]. destruct p; try reflexivity. cbn. unfold publish_first. destruct (pb_dup p), (pb_qos p), (pb_retain p); reflexivity. Qed.

Lemma section_fine cfg p n : props_typed cfg p -> (c_auth_strict cfg = true -> auth_method_ok p) -> section_len cfg p <= n -> n <= MAXVAR ->
  fine (write_props cfg p) /\ fine (awrite_props cfg p).
Proof. intros HT HA HL HN. apply fine_props; [exact HT|exact HA|]. unfold section_len in HL. lia. Qed.
Lemma will_fine w : will_typed w -> will_len w <= MAXVAR -> fine (write_will w) /\ fine (awrite_will w).
Proof.
  intros (H1 & H2 & H3) HL. unfold will_len in HL. destruct (section_fine will_cfg (wl_props w) MAXVAR H1) as [P1 P2]; [discriminate|lia|lia|].
  apply utf8_bytes in H2. pose proof (fine_str _ H2). pose proof (fine_bin _ H3). unfold write_will, awrite_will. split; fseq.
Qed.
Lemma ack_fine tbl cfg a : ack_typed tbl cfg a -> c_auth_strict cfg = false -> ack_len cfg a <= MAXVAR -> fine (write_ack cfg a) /\ fine (awrite_ack cfg a).
Proof.
  intros (H1 & H2 & H3) HC HL. unfold ack_len in HL. unfold write_ack, awrite_ack. pose proof (fine_rc (ak_rc a)) as HR. pose proof (bytes_be16 (ak_id a)) as HI.
  destruct (rc_eqb (ak_rc a) RSuccess && no_ack_props (ak_props a)); [split; (apply fine_seq; [now apply fine_put|apply fine_nil])|].
  destruct (no_ack_props (ak_props a)); [split; (apply fine_seq; [now apply fine_put|assumption])|].
  destruct (section_fine cfg (ak_props a) MAXVAR H3) as [P1 P2]; [now rewrite HC|lia|lia|].
  split; (apply fine_seq; [now apply fine_put|apply fine_seq; assumption]).
Qed.
Lemma suback_fine tbl cfg a : suback_typed tbl cfg a -> c_auth_strict cfg = false -> suback_len cfg a <= MAXVAR -> fine (write_suback cfg a) /\ fine (awrite_suback cfg a).
Proof.
  intros (H1 & H2 & H3) HC HL. unfold suback_len in HL. unfold write_suback, awrite_suback. pose proof (bytes_be16 (sa_id a)) as HI.
  destruct (section_fine cfg (sa_props a) MAXVAR H2) as [P1 P2]; [now rewrite HC|lia|lia|].
  assert (fine (w_concat (map write_rc (sa_codes a)))) by (apply fine_map; intros; apply fine_rc).
  pose proof (fine_put _ HI). split; fseq.
Qed.
Lemma connect_fine c : typed (PConnect c) -> auth_method_ok (cn_props c) -> connect_len c <= MAXVAR -> fine (write_connect c) /\ fine (awrite_connect c).
Proof.
  intros (H1 & H2 & H3 & H4 & H5 & H6) HA HL. unfold connect_len in HL. destruct (section_fine connect_cfg (cn_props c) MAXVAR H2) as [P1 P2]; [now intros _|lia|lia|].
  assert (fine (write_opt write_will (cn_will c)) /\ fine (write_opt awrite_will (cn_will c))) as [W1 W2].
  { destruct (cn_will c) as [w|]; cbn [write_opt opt_ok opt_len] in *; [apply will_fine; [exact H3|lia]|split; apply fine_nil]. }
  assert (fine (write_opt write_str (cn_username c))) as U by (apply fine_opt; destruct (cn_username c); cbn in *; [apply fine_str, utf8_bytes, H4|exact I]).
  assert (fine (write_opt write_str (cn_password c))) as W by (apply fine_opt; destruct (cn_password c); cbn in *; [apply fine_str, utf8_bytes, H5|exact I]).
  pose proof (fine_str _ (utf8_bytes _ H6)) as HC. pose proof (fine_flags c) as HF.
  assert (fine write_protocol_version) as HV by (apply fine_put; repeat constructor).
  assert (fine (write_str mqtt_name)) as HM by (apply fine_str; repeat constructor).
  assert (fine (w_put ([0; 4] ++ mqtt_name))) as HM' by (apply fine_put; repeat constructor).
  assert (fine (w_put (be16 (cn_keep_alive c)))) as HK by (apply fine_put, bytes_be16).
  unfold write_connect, awrite_connect. split; fseq.
Qed.
Lemma body_fine p : typed p -> auth_method_ok (packet_props p) -> body_len p <= MAXVAR -> fine (write_body p) /\ fine (awrite_body p).
Proof.
  destruct p; cbn [packet_props body_len write_body awrite_body]; intros HT HA HL; try (split; apply fine_nil);
    try (eapply ack_fine; [exact HT|reflexivity|exact HL]); try (eapply suback_fine; [exact HT|reflexivity|exact HL]).
  - now apply connect_fine.
  - destruct HT as [H1 H2]. unfold connack_len in HL. destruct (section_fine connack_cfg (ca_props c) MAXVAR H2) as [P1 P2]; [now intros _|lia|lia|].
    assert (fine (w_put [if ca_session_present c then 1 else 0])) as HS by (apply fine_put; destruct (ca_session_present c); repeat constructor).
    pose proof (fine_rc (ca_rc c)). unfold write_connack, awrite_connack. split; fseq.
  - destruct HT as (H1 & H2 & H3 & H4 & H5). unfold publish_len in HL. destruct (section_fine publish_cfg (pb_props p) MAXVAR H4) as [P1 P2]; [discriminate|lia|lia|].
    pose proof (fine_str _ (utf8_bytes _ H1)) as HS. pose proof (fine_put _ H5) as HY.
    assert (fine (write_opt (fun i => w_put (be16 i)) (pb_pkid p))) as HI by (apply fine_opt; destruct (pb_pkid p); [apply fine_put, bytes_be16|exact I]).
    unfold write_publish, awrite_publish. split; fseq.
  - destruct HT as (H1 & H2 & H3). unfold subscribe_len in HL. destruct (section_fine subscribe_cfg (sb_props s) MAXVAR H2) as [P1 P2]; [discriminate|lia|lia|].
    assert (fine (w_concat (map (fun t => write_str (fst t) >>> write_sopts (snd t)) (sb_topics s)))) as HC.
    { apply fine_map. intros t X. rewrite Forall_forall in H3. apply fine_seq; [apply fine_str, utf8_bytes, H3, X|apply fine_sopts]. }
    assert (fine (w_put (be16 (sb_id s)))) by (apply fine_put, bytes_be16).
    unfold write_subscribe, awrite_subscribe. split; fseq.
  - destruct HT as (H1 & H2 & H3). unfold unsubscribe_len in HL. destruct (section_fine unsubscribe_cfg (ub_props u) MAXVAR H2) as [P1 P2]; [discriminate|lia|lia|].
    assert (fine (w_concat (map write_str (ub_topics u)))) as HC.
    { apply fine_map. intros t X. rewrite Forall_forall in H3. apply fine_str, utf8_bytes, H3, X. }
    assert (fine (w_put (be16 (ub_id u)))) by (apply fine_put, bytes_be16).
    unfold write_unsubscribe, awrite_unsubscribe. split; fseq.
  - destruct HT as [H1 H2]. unfold disconnect_len in HL. unfold write_disconnect, awrite_disconnect. destruct (disconnect_body d); [|split; apply fine_nil].
    destruct (section_fine disconnect_cfg (dc_props d) MAXVAR H2) as [P1 P2]; [discriminate|lia|lia|]. pose proof (fine_rc (dc_rc d)). split; now apply fine_seq.
  - destruct HT as [H1 H2]. unfold auth_len in HL. unfold write_auth, awrite_auth.
    destruct (section_fine auth_cfg (dc_props a) MAXVAR H2) as [P1 P2]; [try discriminate; now intros _|lia|lia|]. pose proof (fine_rc (dc_rc a)). split; now apply fine_seq.
Qed.
Lemma packet_fine p : typed p -> auth_method_ok (packet_props p) -> body_len p <= MAXVAR -> fine (write_packet p) /\ fine (awrite_packet p).
Proof.
  intros HT HA HL. destruct (body_fine p HT HA HL) as [B1 B2]. destruct (fine_varint _ HL) as [V1 V2]. pose proof (fine_put _ (fine_first p)) as HF.
  assert (fine (w_put [0])) as HZ by (apply fine_put; repeat constructor).
  unfold write_packet, awrite_packet. destruct p; split; fseq.
Qed.

Lemma long_silent p x : typed p -> auth_method_ok (packet_props p) -> body_len p <= 268435455 -> In x (fields p) -> 65535 < len x ->
  forall w, w = write_packet p \/ w = awrite_packet p ->
  w_err w = None /\ forall b, all_bytes b -> (forall rest, read_packet (w_bytes w ++ b) <> RPacket p rest) /\ (forall n rest, aread_packet (w_bytes w ++ b) <> AOk p n rest).
Proof.
  intros HT HA HL HI HX w HW. destruct (packet_fine p HT HA HL) as [F1 F2]. assert (fine w) as [F3 F4] by (destruct HW as [-> | ->]; assumption).
  split; [exact F3|]. intros b HB. apply (never_read p x); trivial. now apply all_bytes_app.
Qed.
Lemma request_len max r : rq_valid max r = None -> body_len (rq_packet r) <= max.
Proof.
  destruct r; cbn [rq_valid rq_packet body_len]; unfold validate_publish, validate_subscribe, validate_unsubscribe; intros H;
    repeat match type of H with (if ?c then _ else _) = _ => destruct c eqn:?; try discriminate H | match ?c with _ => _ end = _ => destruct c eqn:?; try discriminate H end; lia.
Qed.
Lemma request_method r : typed (rq_packet r) -> auth_method_ok (packet_props (rq_packet r)).
Proof.
  intros H HD. exfalso. assert (exists cfg, props_typed cfg (packet_props (rq_packet r)) /\ ~ In AuthenticationData (c_decl cfg)) as (cfg & (X & _) & Y).
  { destruct r; cbn [rq_packet typed packet_props] in *; eexists; (split; [apply H|]); vm_compute; intuition discriminate. }
  destruct (authentication_data (packet_props (rq_packet r))) as [d|] eqn:E; [|now apply HD].
  apply Y. apply (X AuthenticationData (VBin d)). cbn. now rewrite E.
Qed.
Lemma request_exact max r : typed (rq_packet r) -> rq_valid max r = None -> max <= 268435455 -> rq_topics r <> [] ->
  let p := rq_packet r in
  forall w, w = write_packet p \/ w = awrite_packet p ->
  w_err w = None /\ ((forall rest, read_packet (w_bytes w ++ rest) = RPacket p rest) <-> Forall (fun x => len x <= 65535) (fields p)).
Proof.
  intros HT HV HM HN p w HW. pose proof (request_len _ _ HV) as HL. fold p in HT, HL. pose proof (request_method r HT) as HA. fold p in HA.
  assert (body_len p <= MAXVAR) as HL' by (change MAXVAR with 268435455; lia).
  destruct (packet_fine p HT HA HL') as [F1 F2]. assert (fine w) as [F3 F4] by (destruct HW as [-> | ->]; assumption). split; [exact F3|]. split.
  - intros H. specialize (H []). rewrite app_nil_r in H. exact (ok_short p (proj1 (decoded_ok _ F4) _ _ H)).
  - intros HS. destruct (transmit_exact max r (request_short r HT HS) HV HM) as [T1 T2]. destruct HW as [-> | ->]; [now apply T1|now apply T2].
Qed.

(* ---- cases ---- *)
Definition long_connect (s : bytes) : packet := PConnect (Connect true None (Some s_abc) (Some s) 60 no_props s_abc).
Lemma no_props_typed cfg : props_typed cfg no_props.
Proof.
  split; [intros t v E; destruct t; discriminate E|]. split; [constructor|]. split; [intros X; now elim X|]. split; [constructor|]. split; [intros X; now elim X|reflexivity].
Qed.
Lemma abc_utf8 : utf8 s_abc.
Proof. apply utf8_spec. reflexivity. Qed.
Lemma long_utf8 : utf8 long_string.
Proof. apply utf8_spec. vm_compute. reflexivity. Qed.
Lemma long_len : 65535 < len long_string.
Proof. vm_compute. reflexivity. Qed.
Lemma connect_typed s : utf8 s -> typed (long_connect s).
Proof. intros H. split; [reflexivity|]. split; [apply no_props_typed|]. split; [exact I|]. split; [exact abc_utf8|]. split; [exact H|exact abc_utf8]. Qed.
Lemma content_typed s : utf8 s -> typed (PPublish (Publish false AtMostOnce false s_abc None (mkp publish_cfg [(ContentType, VStr s)]) [])).
Proof.
  intros H. split; [exact abc_utf8|]. split; [exact I|]. split; [split; reflexivity|]. split; [|constructor].
  split; [|split; [constructor|split; [intros X; now elim X|split; [constructor|split; [intros X; now elim X|reflexivity]]]]].
  intros t v E. destruct t; cbn in E; try discriminate E. injection E as <-. split; [cbn; tauto|exact H].
Qed.
Lemma silent_case :
  let p := long_connect long_string in
  typed p /\ auth_method_ok (packet_props p) /\ body_len p <= 268435455 /\ In long_string (fields p) /\ 65535 < len long_string.
Proof.
  split; [exact (connect_typed _ long_utf8)|]. split; [intros H; now elim H|]. split; [vm_compute; discriminate|]. split; [|exact long_len].
  unfold fields, long_connect. cbn [packet_props cn_client_id cn_will cn_username cn_password opt_list app]. apply in_app_iff. right. right. right. left. reflexivity.
Qed.
Lemma exact_case :
  let long := RqPublish (Publish false AtMostOnce false s_abc None (mkp publish_cfg [(ContentType, VStr long_string)]) []) in
  (typed (rq_packet w_pub_max) /\ rq_valid 10 w_pub_max = None /\ rq_topics w_pub_max <> [] /\ Forall (fun x => len x <= 65535) (fields (rq_packet w_pub_max))) /\
  (typed (rq_packet long) /\ rq_valid 268435455 long = None /\ rq_topics long <> [] /\ In long_string (fields (rq_packet long)) /\ 65535 < len long_string).
Proof.
  split.
  - split; [|split; [reflexivity|split; [discriminate|]]].
    + split; [exact abc_utf8|]. split; [exact I|]. split; [split; reflexivity|]. split; [apply no_props_typed|]. repeat constructor.
    + repeat constructor; vm_compute; discriminate.
  - split; [exact (content_typed _ long_utf8)|]. split; [vm_compute; reflexivity|]. split; [discriminate|]. split; [|exact long_len].
    unfold fields. apply in_app_iff. left. unfold prop_fields. apply in_app_iff. left. left. reflexivity.
Qed.
