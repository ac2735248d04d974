(* Encodings are byte strings, frames, and different for different packets *)
From Verif Require Import Base VarInt Prims Props Codes Packets SpecCodec BaseFacts Utf8Facts VarIntFacts PrimFacts PropsFacts PacketFacts EncFacts CodecFacts GoodFacts SyncGood FrameFacts.

Lemma all_bytes_1 n : n < 256 -> all_bytes [n].
Proof. intros H. constructor; [exact H|constructor]. Qed.
Lemma rc_byte c : spec_rc c < 256.
Proof. destruct c; reflexivity. Qed.
Lemma spec_qos_lt q : spec_qos q < 3.
Proof. destruct q; reflexivity. Qed.
Lemma spec_bit_lt b : spec_bit b < 2.
Proof. destruct b; reflexivity. Qed.
Lemma spec_u32_bytes n : n < 4294967296 -> all_bytes (spec_u32 n).
Proof.
  intros H. unfold spec_u32. repeat constructor; unfold is_byte; try (apply N.mod_lt; lia).
  apply N.div_lt_upper_bound; lia.
Qed.
Lemma spec_data_bytes s : all_bytes s -> len s <= 65535 -> all_bytes (spec_data s).
Proof. intros H L. apply all_bytes_app. split; [apply spec_u16_bytes; lia|assumption]. Qed.
Lemma str_bytes s : str_ok s -> all_bytes (spec_data s).
Proof. intros [H1 H2]. apply spec_data_bytes; [now apply utf8_bytes|assumption]. Qed.
Lemma spec_val_bytes v : val_ok v -> all_bytes (spec_val v).
Proof.
  destruct v; cbn [val_ok spec_val]; intros H.
  - now apply all_bytes_1.
  - now apply spec_u16_bytes.
  - now apply spec_u32_bytes.
  - now apply spec_varint_bytes.
  - now apply str_bytes.
  - destruct H. now apply spec_data_bytes.
  - apply all_bytes_1. pose proof (spec_qos_lt q). lia.
  - apply all_bytes_1. pose proof (spec_bit_lt b). lia.
  - apply all_bytes_app. split; apply str_bytes; apply H.
Qed.
Lemma spec_id_byte t : spec_id t < 256.
Proof. destruct t; reflexivity. Qed.
Lemma spec_items_bytes cfg its : Forall (item_ok cfg) its -> all_bytes (spec_items its).
Proof.
  induction its as [|[t v] its IH]; intros H; [constructor|]. inversion H as [|? ? (_ & _ & Hv) H']; subst.
  rewrite spec_items_cons. apply all_bytes_app. split; [|auto]. constructor; [apply spec_id_byte|now apply spec_val_bytes].
Qed.
Lemma section_bytes cfg p sec : props_ok cfg p -> spec_section_of p sec -> all_bytes sec.
Proof.
  intros HP (its & HA & HL & ->). apply all_bytes_app. split; [now apply spec_varint_bytes|].
  eapply spec_items_bytes, arranges_items_ok; eassumption.
Qed.
Lemma will_bytes w b : will_ok w -> spec_will w b -> all_bytes b.
Proof.
  intros (HP & HT & HB1 & HB2) (sec & HS & ->). apply all_bytes_app. split; [eapply section_bytes; eassumption|].
  apply all_bytes_app. split; [now apply str_bytes|now apply spec_data_bytes].
Qed.
Lemma opt_bytes o : opt_ok str_ok o -> all_bytes (spec_opt o).
Proof. destruct o; cbn; intros H; [now apply str_bytes|constructor]. Qed.
Lemma codes_bytes l : all_bytes (map spec_rc l).
Proof. induction l; constructor; [apply rc_byte|assumption]. Qed.
Lemma ack_bytes tbl cfg a b : ack_ok tbl cfg a -> spec_ack a b -> all_bytes b.
Proof.
  intros (H1 & _ & HP) [(_ & _ & ->)|[(_ & ->)|(sec & HS & ->)]]; rewrite ?all_bytes_app; repeat split;
    auto using spec_u16_bytes, all_bytes_1, rc_byte. eapply section_bytes; eassumption.
Qed.
Lemma spec_cflags_byte c : spec_cflags c < 256.
Proof.
  unfold spec_cflags. destruct (cn_username c), (cn_password c), (cn_will c) as [w|], (cn_clean_start c); cbn;
    try destruct (wl_retain w), (wl_qos w); reflexivity.
Qed.
Lemma spec_sopts_byte o : spec_sopts o < 256.
Proof. unfold spec_sopts. destruct o as [[] [] [] []]; reflexivity. Qed.
Lemma spec_first_byte p : spec_first p < 256.
Proof. destruct p; try reflexivity. cbn. destruct (pb_dup p), (pb_qos p), (pb_retain p); reflexivity. Qed.

Lemma spec_body_bytes p b : packet_ok p -> spec_body p b -> all_bytes b.
Proof.
  destruct p; cbn [packet_ok spec_body].
  - intros (H1 & HP & HW & HU & HPw & HC) (sec & wl & HS & HWl & ->).
    rewrite !all_bytes_app. repeat split; auto using spec_u16_bytes, all_bytes_1, spec_cflags_byte, opt_bytes, str_bytes.
    + now apply spec_data_bytes; [repeat constructor|].
    + apply all_bytes_1. reflexivity.
    + eapply section_bytes; eassumption.
    + destruct (cn_will c); [eapply will_bytes; eassumption|subst; constructor].
  - intros (H1 & HP) (sec & HS & ->). apply all_bytes_app. split; [|eapply section_bytes; eassumption].
    constructor; [pose proof (spec_bit_lt (ca_session_present c)); unfold is_byte; lia|]. apply all_bytes_1, rc_byte.
  - intros (HT & HI & HQ & HP & HB) (sec & HS & ->). rewrite !all_bytes_app. repeat split; auto using str_bytes.
    + destruct (pb_pkid p); [now apply spec_u16_bytes|constructor].
    + eapply section_bytes; eassumption.
  - apply ack_bytes.
  - apply ack_bytes.
  - apply ack_bytes.
  - apply ack_bytes.
  - intros (HI & HP & HF & _) (sec & HS & ->). rewrite !all_bytes_app. repeat split; auto using spec_u16_bytes.
    + eapply section_bytes; eassumption.
    + induction HF as [|t l Ht _ IH]; [constructor|]. cbn [map concat]. rewrite !all_bytes_app.
      repeat split; auto using str_bytes. apply all_bytes_1, spec_sopts_byte.
  - intros (HI & HP & _) (sec & HS & ->). rewrite !all_bytes_app. repeat split; auto using spec_u16_bytes, codes_bytes.
    eapply section_bytes; eassumption.
  - intros (HI & HP & HF & _) (sec & HS & ->). rewrite !all_bytes_app. repeat split; auto using spec_u16_bytes.
    + eapply section_bytes; eassumption.
    + induction HF as [|t l Ht _ IH]; [constructor|]. cbn [map concat]. rewrite !all_bytes_app. auto using str_bytes.
  - intros (HI & HP & _) (sec & HS & ->). rewrite !all_bytes_app. repeat split; auto using spec_u16_bytes, codes_bytes.
    eapply section_bytes; eassumption.
  - intros _ ->. constructor.
  - intros _ ->. constructor.
  - intros (HI & HP) [(_ & _ & ->)|[(_ & ->)|(sec & HS & ->)]]; [constructor|apply all_bytes_1, rc_byte|].
    apply all_bytes_app. split; [apply all_bytes_1, rc_byte|eapply section_bytes; eassumption].
  - intros (HI & HP) [(_ & _ & ->)|(sec & HS & ->)]; [constructor|].
    apply all_bytes_app. split; [apply all_bytes_1, rc_byte|eapply section_bytes; eassumption].
Qed.
Lemma encodes_bytes p b : packet_ok p -> encodes p b -> all_bytes b.
Proof.
  intros HO (body & HS & HL & ->). constructor; [apply spec_first_byte|]. apply all_bytes_app.
  split; [now apply spec_varint_bytes|eapply spec_body_bytes; eassumption].
Qed.
Lemma encodes_frame p b : encodes p b -> is_frame b.
Proof.
  intros (body & HS & HL & ->). destruct (spec_varint_is_varint (len body) HL) as [HV HG].
  apply frame_intro; auto.
Qed.
Lemma spec_first_legal p : legal_first (spec_first p) = true.
Proof. destruct p; try reflexivity. cbn. destruct (pb_dup p), (pb_qos p), (pb_retain p); reflexivity. Qed.
Lemma spec_first_type p q : spec_first p = spec_first q -> type_of p = type_of q.
Proof.
  assert (E : forall p, type_of p = match spec_first p / 16 with
    | 1 => TConnect | 2 => TConnAck | 3 => TPublish | 4 => TPubAck | 5 => TPubRec | 6 => TPubRel | 7 => TPubComp
    | 8 => TSubscribe | 9 => TSubAck | 10 => TUnsubscribe | 11 => TUnsubAck | 12 => TPingReq | 13 => TPingResp
    | 14 => TDisconnect | _ => TAuth end).
  { intros []; try reflexivity. cbn. destruct (pb_dup p0), (pb_qos p0), (pb_retain p0); reflexivity. }
  intros H. rewrite (E p), (E q), H. reflexivity.
Qed.

Lemma section_pos p sec : spec_section_of p sec -> 1 <= len sec.
Proof. intros (its & _ & _ & ->). pose proof (spec_section_len its). lia. Qed.

Lemma rc_inj tbl c d : NoDup (map spec_rc tbl) -> In c tbl -> In d tbl -> spec_rc c = spec_rc d -> c = d.
Proof.
  intros ND. induction tbl as [|x tbl IH]; [easy|]. cbn in ND. inversion ND as [|? ? Hn ND']; subst.
  intros [->|H1] [->|H2] E; auto.
  - exfalso. apply Hn. rewrite E. now apply in_map.
  - exfalso. apply Hn. rewrite <- E. now apply in_map.
Qed.

(* three byte acknowledgements, which neither reader accepts *)
Lemma ack3_inj tbl cfg a b body : NoDup (map spec_rc tbl) -> ack_ok tbl cfg a -> ack_ok tbl cfg b ->
  spec_ack a body -> spec_ack b body -> len body = 3 -> a = b.
Proof.
  intros ND (A1 & A2 & A3) (B1 & B2 & B3) SA SB L.
  assert (K : forall x, ack_ok tbl cfg x -> spec_ack x body -> ak_props x = no_props /\ body = spec_u16 (ak_id x) ++ [spec_rc (ak_rc x)]).
  { intros x (_ & _ & HP) [(_ & _ & E)|[(HE & ->)|(sec & HS & E)]].
    - subst body. rewrite spec_u16_len in L. lia.
    - split; [|reflexivity]. eapply empty_props_eq; eassumption.
    - apply section_pos in HS. subst body. rewrite !len_app, spec_u16_len, (@len_cons N), (@len_nil N) in L. lia. }
  destruct (K a) as [PA EA]; [split; [assumption|split; assumption]|assumption|].
  destruct (K b) as [PB EB]; [split; [assumption|split; assumption]|assumption|].
  rewrite EA in EB. unfold spec_u16 in EB. cbn [app] in EB. injection EB as E1 E2 E3.
  assert (EI : ak_id a = ak_id b).
  { rewrite (N.div_mod (ak_id a) 256), (N.div_mod (ak_id b) 256) by lia. congruence. }
  pose proof (rc_inj tbl (ak_rc a) (ak_rc b) ND A2 B2 E3) as ER.
  destruct a, b; cbn in *; congruence.
Qed.

(* [p] has an encoding that one of the readers accepts, or is one of the short forms *)
Lemma body_inj p q body : packet_ok p -> packet_ok q -> spec_first p = spec_first q ->
  spec_body p body -> spec_body q body -> len body <= MAXVAR -> p = q.
Proof.
  intros HP HQ EF SP SQ HL. pose proof (spec_first_type _ _ EF) as ET.
  assert (S : sync_readable p body -> sync_readable q body -> p = q).
  { intros R1 R2. pose proof (read_packet_ok p body [] HP SP R1 HL) as A. pose proof (read_packet_ok q body [] HQ SQ R2 HL) as B.
    rewrite EF, B in A. congruence. }
  assert (AS : async_readable p body -> async_readable q body -> p = q).
  { intros R1 R2. pose proof (aread_packet_ok p body [] HP SP R1 HL) as A. pose proof (aread_packet_ok q body [] HQ SQ R2 HL) as B.
    rewrite EF, B in A. congruence. }
  destruct p, q; try discriminate ET; try (apply S; exact I); try (apply AS; exact I).
  - destruct (N.eq_dec (len body) 3) as [E|N]; [|apply S; exact N]. f_equal. eapply ack3_inj; eauto using pubrec_codes_nd.
  - destruct (N.eq_dec (len body) 3) as [E|N]; [|apply S; exact N]. f_equal. eapply ack3_inj; eauto using pubcomp_codes_nd.
  - destruct (N.eq_dec (len body) 1) as [E|N]; [|apply S; exact N].
    assert (K : forall x, packet_ok (PDisconnect x) -> spec_body (PDisconnect x) body -> dc_props x = no_props /\ body = [spec_rc (dc_rc x)]).
    { intros x (_ & HPx) [(_ & _ & E')|[(HE & E')|(sec & HS & E')]].
      - subst body. discriminate.
      - split; [|assumption]. eapply empty_props_eq; eassumption.
      - apply section_pos in HS. subst body. rewrite len_app, (@len_cons N), (@len_nil N) in E. lia. }
    destruct (K d HP SP) as [PA EA]. destruct (K d0 HQ SQ) as [PB EB]. rewrite EA in EB. injection EB as E3.
    pose proof (rc_inj disconnect_codes _ _ disconnect_codes_nd (proj1 HP) (proj1 HQ) E3) as ER.
    destruct d, d0; cbn in *; congruence.
  - destruct body as [|x body]; [|apply S; discriminate].
    assert (K : forall x, packet_ok (PAuth x) -> spec_body (PAuth x) [] -> dc_props x = no_props /\ dc_rc x = RSuccess).
    { intros x (_ & HPx) [(E1 & HE & E')|(sec & HS & E')]; [|discriminate]. split; [|assumption]. eapply empty_props_eq; eassumption. }
    destruct (K a HP SP) as [PA EA]. destruct (K a0 HQ SQ) as [PB EB].
    destruct a, a0; cbn in *; congruence.
Qed.

Lemma encodes_inj p q b r : packet_ok p -> packet_ok q -> encodes p b -> encodes q (b ++ r) -> p = q /\ r = [].
Proof.
  intros HP HQ E1 E2. pose proof (encodes_frame _ _ E1) as F1. pose proof (encodes_frame _ _ E2) as F2.
  destruct (frame_prefix b (b ++ r) r [] F1 F2) as [_ ->]; [now rewrite app_nil_r|]. split; [|reflexivity].
  rewrite app_nil_r in E2. destruct E1 as (b1 & S1 & L1 & ->). destruct E2 as (b2 & S2 & L2 & E).
  injection E as EF E. destruct (spec_varint_is_varint (len b1) L1) as [V1 _]. destruct (spec_varint_is_varint (len b2) L2) as [V2 _].
  apply varint_prefix in E as [_ ->]; auto. eapply body_inj; eassumption.
Qed.
