(* Round trips: composition of writers and readers *)
From Verif Require Import Base VarInt Prims Props Codes Packets SpecCodec BaseFacts VarIntFacts PrimFacts PropsFacts PacketFacts EncFacts.

Lemma wf_auth p : well_formed p -> no_empty_auth p -> packet_auth_ok p.
Proof.
  intros (_ & HM) HN. unfold no_empty_auth, auth_method_ok in *.
  destruct p; cbn [packet_auth_ok packet_props] in *; trivial; intros d E;
    (split; [intros ->; now apply HN|apply HM; rewrite E; discriminate]).
Qed.

Lemma w_seq_err a b : w_err (a >>> b) = None -> w_err a = None /\ w_err b = None.
Proof. unfold w_seq. destruct (w_err a) eqn:E; cbn; [congruence|auto]. Qed.

Lemma write_ok_len p : w_err (write_packet p) = None -> body_len p <= MAXVAR.
Proof.
  assert (E : w_err (w_put [first_byte p] >>> write_varint (body_len p) >>> write_body p) = None -> body_len p <= MAXVAR).
  { intros H. apply w_seq_err in H as [H _]. apply w_seq_err in H as [_ H].
    destruct (N.leb_spec (body_len p) MAXVAR); [assumption|]. rewrite write_varint_over in H by assumption. discriminate. }
  destruct p; try exact E; intros _; cbn; unfold MAXVAR; lia.
Qed.
Lemma awrite_ok_len p : w_err (awrite_packet p) = None -> body_len p <= MAXVAR.
Proof.
  assert (E : w_err (w_put [first_byte p] >>> awrite_varint (body_len p) >>> awrite_body p) = None -> body_len p <= MAXVAR).
  { intros H. apply w_seq_err in H as [H _]. apply w_seq_err in H as [_ H].
    destruct (N.leb_spec (body_len p) MAXVAR); [assumption|]. rewrite awrite_varint_over in H by assumption. discriminate. }
  destruct p; try exact E; intros _; cbn; unfold MAXVAR; lia.
Qed.

Lemma write_ok p : well_formed p -> no_empty_auth p -> w_err (write_packet p) = None ->
  body_len p <= MAXVAR /\ w_bytes (write_packet p) = enc_packet c_order p.
Proof.
  intros HW HN HE. pose proof (write_ok_len _ HE) as HL. split; [assumption|].
  rewrite write_packet_spec; auto using wf_auth. apply HW.
Qed.
Lemma awrite_ok p : well_formed p -> no_empty_auth p -> no_assigned_id p -> w_err (awrite_packet p) = None ->
  body_len p <= MAXVAR /\ w_bytes (awrite_packet p) = enc_packet c_decl p.
Proof.
  intros HW HN HI HE. pose proof (awrite_ok_len _ HE) as HL. split; [assumption|].
  apply awrite_packet_spec; auto using wf_auth. apply HW.
Qed.

Lemma empty_props_no_ack p : empty_props p -> no_ack_props p = true.
Proof.
  intros H. unfold no_ack_props. pose proof (H ReasonString) as H1. pose proof (H UserProperty) as H2. cbn in H1, H2.
  destruct (reason_string p); [discriminate|]. destruct (user_properties p); [reflexivity|discriminate].
Qed.

Lemma enc_ack_len3 sel t a : props_ok (ack_cfg t) (ak_props a) ->
  ak_rc a = RSuccess \/ ~ empty_props (ak_props a) -> len (enc_ack sel (ack_cfg t) a) <> 3.
Proof.
  intros HP H. unfold enc_ack. rewrite len_app, spec_u16_len.
  destruct (rc_eqb (ak_rc a) RSuccess) eqn:E1; cbn [andb]; destruct (no_ack_props (ak_props a)) eqn:E2.
  - rewrite (@len_nil N). lia.
  - rewrite len_app, (@len_cons N), (@len_nil N). pose proof (spec_section_len (its_of (sel (ack_cfg t)) (ak_props a))).
    unfold enc_sec. lia.
  - exfalso. destruct H as [H|H].
    + apply rc_eqb_eq in H. congruence.
    + apply H. eapply no_ack_props_ok; eauto.
  - rewrite len_app, (@len_cons N), (@len_nil N). pose proof (spec_section_len (its_of (sel (ack_cfg t)) (ak_props a))).
    unfold enc_sec. lia.
Qed.
Lemma enc_disconnect_len sel d : len (enc_body sel (PDisconnect d)) <> 1.
Proof.
  cbn [enc_body]. destruct (disconnect_body d); [|rewrite (@len_nil N); lia].
  rewrite len_app, (@len_cons N), (@len_nil N). pose proof (spec_section_len (its_of (sel disconnect_cfg) (dc_props d))).
  unfold enc_sec. lia.
Qed.

Lemma enc_sync_readable sel p : well_formed p -> not_short_ack p -> no_will_pfi p -> sync_readable p (enc_body sel p).
Proof.
  intros (HO & HM) HS HW. destruct p; cbn [sync_readable not_short_ack no_will_pfi packet_ok packet_props] in *; trivial.
  - split; [|assumption]. destruct (cn_will c); [|exact I]. now apply HW.
  - apply enc_ack_len3; [apply HO|assumption].
  - apply enc_ack_len3; [apply HO|assumption].
  - apply enc_disconnect_len.
  - discriminate.
Qed.
Lemma enc_async_readable sel p : well_formed p -> not_short_ack p -> one_topic p -> async_readable p (enc_body sel p).
Proof.
  intros (HO & HM) HS HW. destruct p; cbn [async_readable not_short_ack one_topic packet_ok packet_props] in *; trivial.
  - apply enc_ack_len3; [apply HO|assumption].
  - apply enc_ack_len3; [apply HO|assumption].
  - apply enc_disconnect_len.
  - discriminate.
Qed.

Lemma enc_read sel p rest : sel_ok sel -> well_formed p -> no_empty_auth p -> not_short_ack p -> no_will_pfi p ->
  body_len p <= MAXVAR -> read_packet (enc_packet sel p ++ rest) = RPacket p rest.
Proof.
  intros HS HW HN H1 H2 HL. pose proof (wf_auth _ HW HN) as HA. destruct (HW) as (HO & _).
  apply read_packet_ok; auto using enc_sync_readable.
  - now apply enc_body_spec.
  - now rewrite <- body_len_spec.
Qed.
Lemma enc_aread sel p rest : sel_ok sel -> well_formed p -> no_empty_auth p -> not_short_ack p -> one_topic p ->
  body_len p <= MAXVAR -> aread_packet (enc_packet sel p ++ rest) = AOk p (len (enc_body sel p)) rest.
Proof.
  intros HS HW HN H1 H2 HL. pose proof (wf_auth _ HW HN) as HA. destruct (HW) as (HO & _).
  apply aread_packet_ok; auto using enc_async_readable.
  - now apply enc_body_spec.
  - now rewrite <- body_len_spec.
Qed.

(* ---- C03 - C06 ---- *)

Lemma sync_roundtrip p rest : well_formed p -> w_err (write_packet p) = None ->
  no_empty_auth p -> not_short_ack p -> no_will_pfi p ->
  read_packet (w_bytes (write_packet p) ++ rest) = RPacket p rest.
Proof.
  intros HW HE HN H1 H2. destruct (write_ok p) as [HL ->]; auto. apply enc_read; auto. now left.
Qed.
Lemma async_roundtrip p rest : well_formed p -> w_err (awrite_packet p) = None ->
  no_empty_auth p -> no_assigned_id p -> not_short_ack p -> one_topic p ->
  aread_packet (w_bytes (awrite_packet p) ++ rest) = AOk p (body_len p) rest.
Proof.
  intros HW HE HN HI H1 H2. destruct (awrite_ok p) as [HL ->]; auto. rewrite (body_len_spec c_decl) by (auto using wf_auth; ((now right) || apply HW)). apply enc_aread; auto. now right.
Qed.
Lemma sync_to_async p rest : well_formed p -> w_err (write_packet p) = None ->
  no_empty_auth p -> not_short_ack p -> one_topic p ->
  aread_packet (w_bytes (write_packet p) ++ rest) = AOk p (body_len p) rest.
Proof.
  intros HW HE HN H1 H2. destruct (write_ok p) as [HL ->]; auto. rewrite (body_len_spec c_order) by (auto using wf_auth; ((now left) || apply HW)). apply enc_aread; auto. now left.
Qed.
Lemma async_to_sync p rest : well_formed p -> w_err (awrite_packet p) = None ->
  no_empty_auth p -> no_assigned_id p -> not_short_ack p -> no_will_pfi p ->
  read_packet (w_bytes (awrite_packet p) ++ rest) = RPacket p rest.
Proof.
  intros HW HE HN HI H1 H2. destruct (awrite_ok p) as [HL ->]; auto. apply enc_read; auto. now right.
Qed.

Lemma sync_encodes p : well_formed p -> w_err (write_packet p) = None -> no_empty_auth p ->
  encodes p (w_bytes (write_packet p)).
Proof.
  intros HW HE HN. destruct (write_ok p) as [HL ->]; auto. apply enc_packet_encodes; auto using wf_auth; [now left|apply HW].
Qed.
Lemma async_encodes p : well_formed p -> w_err (awrite_packet p) = None -> no_empty_auth p -> no_assigned_id p ->
  encodes p (w_bytes (awrite_packet p)).
Proof.
  intros HW HE HN HI. destruct (awrite_ok p) as [HL ->]; auto. apply enc_packet_encodes; auto using wf_auth; [now right|apply HW].
Qed.

Lemma sync_announced p : well_formed p -> w_err (write_packet p) = None -> no_empty_auth p ->
  exists body, w_bytes (write_packet p) = spec_first p :: spec_varint (len body) ++ body /\
    len body = body_len p /\ packet_len p = len (w_bytes (write_packet p)) /\
    w_cnt (write_packet p) = len (w_bytes (write_packet p)).
Proof.
  intros HW HE HN. destruct (write_ok p) as [HL EB]; auto. exists (enc_body c_order p).
  pose proof (wf_auth _ HW HN) as HA. destruct (HW) as (HO & _).
  rewrite (write_packet_spec p HO HA HL). cbn [w_bytes w_put w_cnt].
  repeat split.
  - symmetry. apply body_len_spec; auto. now left.
  - symmetry. apply enc_packet_len; auto. now left.
Qed.
Lemma async_announced p : well_formed p -> w_err (awrite_packet p) = None -> no_empty_auth p -> no_assigned_id p ->
  exists body, w_bytes (awrite_packet p) = spec_first p :: spec_varint (len body) ++ body /\
    len body = body_len p /\ packet_len p = len (w_bytes (awrite_packet p)) /\
    (no_server_ref p -> w_cnt (awrite_packet p) = len (w_bytes (awrite_packet p))).
Proof.
  intros HW HE HN HI. destruct (awrite_ok p) as [HL EB]; auto. exists (enc_body c_decl p).
  pose proof (wf_auth _ HW HN) as HA. destruct (HW) as (HO & _).
  destruct (awrite_packet_spec p HO HA HL HI) as (EB' & _ & EC). rewrite EB.
  repeat split.
  - symmetry. apply body_len_spec; auto. now right.
  - symmetry. apply enc_packet_len; auto. now right.
  - exact EC.
Qed.
