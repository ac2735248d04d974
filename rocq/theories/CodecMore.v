(* Consequences used by the codec theorems *)
From Verif Require Import Base VarInt Prims Props Codes Packets SpecCodec BaseFacts VarIntFacts PrimFacts PropsFacts PacketFacts EncFacts CodecFacts GoodFacts SyncGood FrameFacts InjFacts.

(* ---- variable byte integers ---- *)

Lemma varint_all n : n <= MAXVAR ->
  exists enc, is_varint enc /\ groups_value enc = n /\ 1 <= len enc <= 4 /\ variable_integer_len n = len enc /\
    (forall enc', is_varint enc' -> groups_value enc' = n -> len enc <= len enc') /\
    write_varint n = w_put enc /\ awrite_varint n = w_put enc /\
    (forall rest, read_rem_len (enc ++ rest) = RbOk (n, len enc) /\
                  read_varint (enc ++ rest) = Ok (n, len enc, rest) /\
                  aread_varint (enc ++ rest) = AOk n (len enc) rest).
Proof.
  intros H. exists (spec_varint n). destruct (spec_varint_is_varint n H) as [HV HG].
  split; [assumption|]. split; [assumption|]. split.
  { rewrite spec_varint_len. apply variable_integer_len_bounds. }
  split; [symmetry; apply spec_varint_len|]. split.
  { intros e He HE. now apply spec_varint_minimal. }
  split; [now apply write_varint_spec|]. split; [now apply awrite_varint_spec|].
  intros rest. split; [now apply read_rem_len_ok|]. split; [now apply read_varint_ok|now apply aread_varint_ok].
Qed.

Lemma varint_both n :
  (n <= 268435455 ->
     exists enc, is_varint enc /\ groups_value enc = n /\ 1 <= len enc <= 4 /\ variable_integer_len n = len enc /\
       (forall enc', is_varint enc' -> groups_value enc' = n -> len enc <= len enc') /\
       write_varint n = w_put enc /\ awrite_varint n = w_put enc /\
       (forall rest, read_rem_len (enc ++ rest) = RbOk (n, len enc) /\
                     read_varint (enc ++ rest) = Ok (n, len enc, rest) /\
                     aread_varint (enc ++ rest) = AOk n (len enc) rest)) /\
  (268435455 < n -> w_err (write_varint n) <> None /\ w_err (awrite_varint n) <> None /\
     w_bytes (write_varint n) = [] /\ w_bytes (awrite_varint n) = []).
Proof.
  split; [exact (varint_all n)|]. intros H. rewrite write_varint_over, awrite_varint_over by exact H. cbn.
  split; [discriminate|]. split; [discriminate|]. auto.
Qed.

Lemma varint_classify buf : all_bytes buf ->
  (exists enc rest, buf = enc ++ rest /\ is_varint enc /\ groups_value enc < 268435456 /\
     read_rem_len buf = RbOk (groups_value enc, len enc) /\
     read_varint buf = Ok (groups_value enc, len enc, rest) /\
     aread_varint buf = AOk (groups_value enc) (len enc) rest) \/
  (len buf < 4 /\ Forall (fun b => 128 <= b) buf /\
     read_rem_len buf = RbMore 1 /\ read_varint buf = Err MalformedPacket /\ aread_varint buf = AShort) \/
  (exists init rest, buf = init ++ rest /\ len init = 4 /\ Forall (fun b => 128 <= b) init /\
     read_rem_len buf = RbErr MalformedPacket /\ read_varint buf = Err MalformedPacket /\
     aread_varint buf = AErr MalformedPacket).
Proof.
  intros Hb. pose proof (read_varint_loop_classify buf Hb) as C. unfold read_rem_len, read_varint, aread_varint.
  destruct (read_varint_loop 4 0 0 0 buf) as [v n rest| |].
  - destruct C as (enc & HV & -> & -> & -> & HM). left. exists enc, rest. unfold MAXVAR in HM.
    split; [reflexivity|]. split; [assumption|]. split; [lia|]. auto.
  - destruct C as (i & r & -> & HL & HF). right. right. exists i, r. auto 10.
  - destruct C as [HF HL]. right. left. auto 10.
Qed.

(* ---- the writers accept every packet that has an MQTT 5 encoding ---- *)

Lemma ack_body_len t a b : In (ack_cfg t) all_cfgs -> props_ok (ack_cfg t) (ak_props a) -> spec_ack a b -> len b <= MAXVAR ->
  ack_len (ack_cfg t) a <= MAXVAR.
Proof.
  intros HI HP HS HL. unfold ack_len.
  destruct HS as [(E1 & E2 & ->)|[(E1 & ->)|(sec & HS & ->)]].
  - rewrite (empty_props_no_ack _ E2). destruct (_ && _); unfold MAXVAR; lia.
  - rewrite (empty_props_no_ack _ E1). destruct (_ && _); unfold MAXVAR; lia.
  - assert (HA : auth_ok (ak_props a)) by (ua HP).
    rewrite (section_len_any _ _ sec (cfg_good_in _ HI) HP HA HS).
    rewrite !len_app, spec_u16_len, (@len_cons N), (@len_nil N) in HL.
    destruct (_ && _); [unfold MAXVAR; lia|]. destruct (no_ack_props _); [unfold MAXVAR; lia|]. lia.
Qed.

Lemma topics_len (l : list (bytes * sopts)) :
  sum_len (fun t => str_len (fst t) + 1) l = len (concat (map (fun t => spec_data (fst t) ++ [spec_sopts (snd t)]) l)).
Proof.
  induction l as [|x l IH]; [reflexivity|]. unfold sum_len in *. cbn [map fold_right concat].
  rewrite IH, !len_app, str_len_spec, (@len_cons N), (@len_nil N). lia.
Qed.
Lemma utopics_len (l : list bytes) : sum_len str_len l = len (concat (map spec_data l)).
Proof.
  induction l as [|x l IH]; [reflexivity|]. unfold sum_len in *. cbn [map fold_right concat].
  rewrite IH, !len_app, str_len_spec. lia.
Qed.

Lemma map_len {A B} (f : A -> B) l : len (map f l) = len l.
Proof. unfold len. now rewrite map_length. Qed.

Lemma spec_body_len p b : packet_ok p -> packet_auth_ok p -> spec_body p b -> len b <= MAXVAR -> body_len p <= MAXVAR.
Proof.
  intros HO HA HS HL. destruct p; cbn [body_len packet_ok packet_auth_ok spec_body] in *.
  - destruct HO as (HK & HP & HW & HU & HPw & HC). destruct HS as (sec & wl & H1 & H2 & ->). unfold connect_len.
    rewrite (section_len_any connect_cfg _ sec) by (auto; apply cfg_good_in; in_cfgs).
    rewrite !opt_str_len, !str_len_spec.
    rewrite !len_app, spec_u16_len, !(@len_cons N), !(@len_nil N) in HL. change mqtt_name with [77; 81; 84; 84].
    assert (E : opt_len will_len (cn_will c) = len wl).
    { destruct (cn_will c) as [w|]; [|subst; reflexivity]. cbn [opt_len opt_ok] in *. destruct H2 as (s2 & Hs & ->).
      unfold will_len. rewrite (section_len_any will_cfg _ s2) by (auto using auth_will; try apply cfg_good_in; try in_cfgs; apply HW).
      rewrite !len_app, str_len_spec. change bin_len with str_len. rewrite str_len_spec. lia. }
    rewrite E. lia.
  - destruct HO as (HR & HP). destruct HS as (sec & H1 & ->). unfold connack_len.
    rewrite (section_len_any connack_cfg _ sec) by (auto; apply cfg_good_in; in_cfgs).
    rewrite !len_app, !(@len_cons N), !(@len_nil N) in HL. lia.
  - destruct HO as (HT & HI & HQ & HP & HB). destruct HS as (sec & H1 & ->). unfold publish_len.
    rewrite (section_len_any publish_cfg _ sec) by (auto; try (ua HP); apply cfg_good_in; in_cfgs).
    rewrite str_len_spec. rewrite !len_app in HL.
    assert (E : opt_len (fun _ => 2) (pb_pkid p) = len (match pb_pkid p with Some i => spec_u16 i | None => [] end))
      by (destruct (pb_pkid p); [now rewrite spec_u16_len|reflexivity]).
    rewrite E. lia.
  - destruct HO as (_ & _ & HP). eapply ack_body_len; eauto. in_cfgs.
  - destruct HO as (_ & _ & HP). eapply ack_body_len; eauto. in_cfgs.
  - destruct HO as (_ & _ & HP). eapply ack_body_len; eauto. in_cfgs.
  - destruct HO as (_ & _ & HP). eapply ack_body_len; eauto. in_cfgs.
  - destruct HO as (HI & HP & _). destruct HS as (sec & H1 & ->). unfold subscribe_len.
    rewrite (section_len_any subscribe_cfg _ sec) by (auto; try (ua HP); apply cfg_good_in; in_cfgs).
    rewrite topics_len. rewrite !len_app, spec_u16_len in HL. lia.
  - destruct HO as (HI & HP & _). destruct HS as (sec & H1 & ->). unfold suback_len.
    rewrite (section_len_any suback_cfg _ sec) by (auto; try (ua HP); apply cfg_good_in; in_cfgs).
    rewrite !len_app, spec_u16_len in HL. rewrite map_len in HL. lia.
  - destruct HO as (HI & HP & _). destruct HS as (sec & H1 & ->). unfold unsubscribe_len.
    rewrite (section_len_any unsubscribe_cfg _ sec) by (auto; try (ua HP); apply cfg_good_in; in_cfgs).
    rewrite utopics_len. rewrite !len_app, spec_u16_len in HL. lia.
  - destruct HO as (HI & HP & _). destruct HS as (sec & H1 & ->). unfold suback_len.
    rewrite (section_len_any unsuback_cfg _ sec) by (auto; try (ua HP); apply cfg_good_in; in_cfgs).
    rewrite !len_app, spec_u16_len in HL. rewrite map_len in HL. lia.
  - unfold MAXVAR. lia.
  - unfold MAXVAR. lia.
  - destruct HO as (_ & HP). assert (HA' : auth_ok (dc_props d)) by (ua HP). unfold disconnect_len.
    assert (G : empty_props (dc_props d) -> section_len disconnect_cfg (dc_props d) = 1).
    { intros E. assert (S : spec_section_of (dc_props d) (spec_section [])).
      { exists []. split; [|split; [discriminate|reflexivity]]. intros t. rewrite E. reflexivity. }
      rewrite (section_len_any disconnect_cfg _ _ ltac:(apply cfg_good_in; in_cfgs) HP HA' S). reflexivity. }
    destruct (disconnect_body d); [|unfold MAXVAR; lia].
    destruct HS as [(E1 & E2 & ->)|[(E1 & ->)|(sec & HS & ->)]].
    + rewrite (G E2). unfold MAXVAR. lia.
    + rewrite (G E1). unfold MAXVAR. lia.
    + rewrite (section_len_any disconnect_cfg _ sec) by (auto; apply cfg_good_in; in_cfgs).
      rewrite !len_app, (@len_cons N), (@len_nil N) in HL. lia.
  - destruct HO as (_ & HP). unfold auth_len.
    destruct HS as [(E1 & E2 & ->)|(sec & HS & ->)].
    + assert (S : spec_section_of (dc_props a) (spec_section [])).
      { exists []. split; [|split; [discriminate|reflexivity]]. intros t. rewrite E2. reflexivity. }
      rewrite (section_len_any auth_cfg _ _ ltac:(apply cfg_good_in; in_cfgs) HP HA S). change (len (spec_section [])) with 1. unfold MAXVAR. lia.
    + rewrite (section_len_any auth_cfg _ sec) by (auto; apply cfg_good_in; in_cfgs).
      rewrite !len_app, (@len_cons N), (@len_nil N) in HL. lia.
Qed.

Lemma writers_accept p b : well_formed p -> no_empty_auth p -> encodes p b ->
  w_err (write_packet p) = None /\ (no_assigned_id p -> w_err (awrite_packet p) = None).
Proof.
  intros HW HN (body & HS & HL & ->). pose proof (wf_auth _ HW HN) as HA. destruct HW as [HO _].
  pose proof (spec_body_len _ _ HO HA HS HL) as HB. split.
  - now rewrite write_packet_spec.
  - intros HI. apply (awrite_packet_spec p HO HA HB HI).
Qed.

(* ---- truncated packets ---- *)

Lemma truncated p b pre t : packet_ok p -> encodes p b -> b = pre ++ t -> t <> [] ->
  exists n, read_packet pre = RMore n pre /\ 1 <= n <= len t.
Proof.
  intros HO HE -> HT. eapply read_prefix; eauto using encodes_bytes, encodes_frame.
  - destruct HE as (body & _ & _ & E). exists (spec_varint (len body) ++ body). exact E.
  - apply spec_first_legal.
Qed.

(* ---- fragmentation ---- *)

Definition readable (p : packet) (b : bytes) : Prop :=
  packet_ok p /\ encodes p b /\ (forall rest, read_packet (b ++ rest) = RPacket p rest).

Lemma readable_written p : well_formed p -> w_err (write_packet p) = None -> no_empty_auth p -> not_short_ack p -> no_will_pfi p ->
  readable p (w_bytes (write_packet p)).
Proof.
  intros HW HE HN H1 H2. split; [apply HW|]. split; [now apply sync_encodes|]. intros rest. now apply sync_roundtrip.
Qed.

Lemma drain_readable : forall ps bs t, Forall2 readable ps bs -> all_bytes t ->
  drain (concat bs ++ t) = let (qs, o) := drain t in (ps ++ qs, o).
Proof.
  induction ps as [|p ps IH]; intros bs t H Ht; inversion H; subst.
  - cbn [concat app]. now destruct (drain t).
  - destruct H2 as (HO & HE & HR). cbn [concat]. rewrite <- app_assoc.
    rewrite (drain_frame p); [|apply all_bytes_app; split; [eauto using encodes_bytes|]|eauto using encodes_frame|apply HR].
    + rewrite IH by assumption. now destruct (drain t).
    + apply all_bytes_app. split; [|assumption]. clear - H4. induction H4; [constructor|]. cbn. apply all_bytes_app. split; [|assumption].
      destruct H as (A & B & _). eauto using encodes_bytes.
Qed.

Lemma readable_bytes ps bs : Forall2 readable ps bs -> all_bytes (concat bs).
Proof.
  intros H. induction H; [constructor|]. cbn. apply all_bytes_app. split; [|assumption].
  destruct H as (A & B & _). eauto using encodes_bytes.
Qed.

Lemma feed_readable ps bs chunks q b pre t : Forall2 readable ps bs -> readable q b -> b = pre ++ t -> t <> [] ->
  concat chunks = concat bs ++ pre -> feed [] chunks = (ps, Waiting pre).
Proof.
  intros HF (HO & HE & HR) EB HT EC.
  assert (Hp : all_bytes pre) by (pose proof (encodes_bytes _ _ HO HE) as A; rewrite EB in A; now apply all_bytes_app in A).
  rewrite feed_concat by (rewrite EC; apply all_bytes_app; split; [eauto using readable_bytes|assumption]).
  rewrite EC, (drain_readable ps) by assumption. rewrite drain_eq by assumption.
  destruct (truncated q b pre t HO HE EB HT) as (n & -> & _). now rewrite app_nil_r.
Qed.
