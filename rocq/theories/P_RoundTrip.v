(* C03 - C06, C49, C50: packets survive being written and read *)
From Verif Require Import Base VarInt Prims Props Codes Packets SpecCodec CodecFacts CodecMore Check FrameFacts Witness.

(* C03.  Full statement: the first conclusion without the three exclusions. *)
Theorem C03_sync_roundtrip_partial : forall p, well_formed p ->
  no_empty_auth p -> not_short_ack p -> no_will_pfi p ->
  (w_err (write_packet p) = None -> sync_rt p) /\
  ((exists b, encodes p b) -> w_err (write_packet p) = None).
Proof. exact sync_partial. Qed.
Print Assumptions C03_sync_roundtrip_partial.
Example C03_case : forall p, In p [s_connect; s_connack; s_publish; s_pubrec; s_subscribe; s_subscribe2; s_disconnect; s_auth] ->
  well_formed p /\ no_empty_auth p /\ not_short_ack p /\ no_will_pfi p /\ w_err (write_packet p) = None.
Proof. exact samples_sync. Qed.

Theorem C03_will_payload_format_refuted : exists p, well_formed p /\ no_empty_auth p /\ not_short_ack p /\
  w_err (write_packet p) = None /\ ~ sync_rt p.
Proof. exact (ex_intro _ w_will_pfi w_will_pfi_sync). Qed.
Print Assumptions C03_will_payload_format_refuted.
Theorem C03_short_ack_refuted : exists p, well_formed p /\ no_empty_auth p /\ no_will_pfi p /\
  w_err (write_packet p) = None /\ ~ sync_rt p.
Proof. exact (ex_intro _ w_short w_short_sync). Qed.
Print Assumptions C03_short_ack_refuted.
Theorem C03_empty_auth_refuted : exists p, well_formed p /\ not_short_ack p /\ no_will_pfi p /\
  w_err (write_packet p) = None /\ ~ sync_rt p.
Proof. exact (ex_intro _ w_empty_auth w_empty_auth_sync). Qed.
Print Assumptions C03_empty_auth_refuted.

(* C04.  Full statement: the first conclusion without the four exclusions. *)
Theorem C04_async_roundtrip_partial : forall p, well_formed p ->
  no_empty_auth p -> not_short_ack p -> no_assigned_id p -> one_topic p ->
  (w_err (awrite_packet p) = None -> async_rt p) /\
  ((exists b, encodes p b) -> w_err (awrite_packet p) = None).
Proof. exact async_partial. Qed.
Print Assumptions C04_async_roundtrip_partial.
Example C04_case : forall p, In p [s_connect; s_connack; s_publish; s_pubrec; s_subscribe; s_disconnect; s_auth] ->
  well_formed p /\ no_empty_auth p /\ not_short_ack p /\ no_assigned_id p /\ one_topic p /\ w_err (awrite_packet p) = None.
Proof. exact samples_async. Qed.

Theorem C04_empty_auth_refuted : exists p, well_formed p /\ not_short_ack p /\ no_assigned_id p /\ one_topic p /\
  w_err (awrite_packet p) = None /\ ~ async_rt p.
Proof. exact (ex_intro _ w_empty_auth w_empty_auth_async). Qed.
Print Assumptions C04_empty_auth_refuted.
Theorem C04_short_ack_refuted : exists p, well_formed p /\ no_empty_auth p /\ no_assigned_id p /\ one_topic p /\
  w_err (awrite_packet p) = None /\ ~ async_rt p.
Proof. exact (ex_intro _ w_short w_short_async). Qed.
Print Assumptions C04_short_ack_refuted.
Theorem C04_assigned_id_refuted : exists p, well_formed p /\ no_empty_auth p /\ not_short_ack p /\ one_topic p /\
  w_err (awrite_packet p) = None /\ ~ async_rt p.
Proof. exact (ex_intro _ w_assigned w_assigned_async). Qed.
Print Assumptions C04_assigned_id_refuted.
Theorem C04_two_topics_refuted : exists p, well_formed p /\ no_empty_auth p /\ not_short_ack p /\ no_assigned_id p /\
  w_err (awrite_packet p) = None /\ ~ async_rt p.
Proof. exact (ex_intro _ s_subscribe2 w_topics_async). Qed.
Print Assumptions C04_two_topics_refuted.

(* C05.  Full statement: both conclusions without exclusions. *)
Theorem C05_cross_runtime_partial : forall p, well_formed p -> no_empty_auth p -> not_short_ack p ->
  (one_topic p -> w_err (write_packet p) = None -> to_async p) /\
  (no_assigned_id p -> no_will_pfi p -> w_err (awrite_packet p) = None -> to_sync p).
Proof. exact cross_partial. Qed.
Print Assumptions C05_cross_runtime_partial.
Example C05_case : forall p, In p [s_connect; s_connack; s_publish; s_pubrec; s_subscribe; s_disconnect; s_auth] ->
  well_formed p /\ no_empty_auth p /\ not_short_ack p /\ one_topic p /\ no_assigned_id p /\ no_will_pfi p /\
  w_err (write_packet p) = None /\ w_err (awrite_packet p) = None.
Proof. exact samples_cross. Qed.
Theorem C05_refuted : exists p, well_formed p /\ w_err (write_packet p) = None /\ w_err (awrite_packet p) = None /\
  ~ to_async p /\ ~ to_sync p.
Proof. exact (ex_intro _ w_short w_short_cross). Qed.
Print Assumptions C05_refuted.

(* C06.  A written packet is one frame: fixed header and exactly as many bytes as the header says.
   Full statement: without the exclusions.  The last conjunct is about the count the stream writer returns. *)
Theorem C06_announced_length_partial : forall p, well_formed p -> no_empty_auth p ->
  (w_err (write_packet p) = None ->
     is_frame (w_bytes (write_packet p)) /\ packet_len p = len (w_bytes (write_packet p)) /\
     w_cnt (write_packet p) = len (w_bytes (write_packet p))) /\
  (no_assigned_id p -> w_err (awrite_packet p) = None ->
     is_frame (w_bytes (awrite_packet p)) /\ packet_len p = len (w_bytes (awrite_packet p)) /\
     (no_server_ref p -> w_cnt (awrite_packet p) = len (w_bytes (awrite_packet p)))).
Proof. exact announced_partial. Qed.
Print Assumptions C06_announced_length_partial.
Example C06_case : well_formed s_connect /\ no_empty_auth s_connect /\ w_err (write_packet s_connect) = None /\
  no_assigned_id s_connect /\ no_server_ref s_connect /\ w_err (awrite_packet s_connect) = None.
Proof. exact samples_announced. Qed.
Theorem C06_empty_auth_refuted : exists p, well_formed p /\
  w_err (write_packet p) = None /\ ~ is_frame (w_bytes (write_packet p)).
Proof. exact (ex_intro _ w_empty_auth_connack w_empty_auth_frame). Qed.
Print Assumptions C06_empty_auth_refuted.
Theorem C06_assigned_id_refuted : exists p, well_formed p /\ no_empty_auth p /\
  w_err (awrite_packet p) = None /\ ~ is_frame (w_bytes (awrite_packet p)).
Proof. exact (ex_intro _ w_assigned w_assigned_frame). Qed.
Print Assumptions C06_assigned_id_refuted.
Theorem C06_server_reference_count_refuted : exists p, well_formed p /\ no_empty_auth p /\ no_assigned_id p /\
  w_err (awrite_packet p) = None /\ w_cnt (awrite_packet p) <> len (w_bytes (awrite_packet p)).
Proof. exact (ex_intro _ w_server_ref w_server_ref_count). Qed.
Print Assumptions C06_server_reference_count_refuted.

(* C49.  Every MQTT 5 encoding of a packet, not only the one the crate writes, is read as that packet.
   Full statement: without the exclusions [not_short_form], [no_will_pfi], [one_topic]. *)
Theorem C49_reads_every_encoding_partial : forall p body rest, well_formed p ->
  spec_body p body -> len body <= 268435455 -> not_short_form p body ->
  let b := spec_first p :: spec_varint (len body) ++ body in
  (no_will_pfi p -> read_packet (b ++ rest) = RPacket p rest) /\
  (one_topic p -> aread_packet (b ++ rest) = AOk p (len body) rest).
Proof. exact reads_encodings. Qed.
Print Assumptions C49_reads_every_encoding_partial.
(* an encoding the crate would not write: reason code 0 and an empty property section *)
Example C49_case : let p := PPubAck (Ack 7 RSuccess no_props) in
  well_formed p /\ spec_body p [0; 7; 0; 0] /\ not_short_form p [0; 7; 0; 0] /\ no_will_pfi p /\ one_topic p /\
  w_bytes (write_packet p) <> [64; 4; 0; 7; 0; 0].
Proof. exact samples_encodes. Qed.
Theorem C49_short_forms_refuted : forall b,
  In b [[80; 3; 0; 7; 151]; [112; 3; 0; 7; 146]; [224; 1; 0]; [240; 0]] ->
  exists p, well_formed p /\ encodes p b /\ read_packet b <> RPacket p [] /\ aread_packet b <> AOk p (len b - 2) [].
Proof. exact short_forms. Qed.
Print Assumptions C49_short_forms_refuted.

(* C50.  What the writers produce is an MQTT 5 encoding of the packet. *)
Theorem C50_writes_mqtt5_partial : forall p, well_formed p -> no_empty_auth p ->
  (w_err (write_packet p) = None -> encodes p (w_bytes (write_packet p))) /\
  (no_assigned_id p -> w_err (awrite_packet p) = None -> encodes p (w_bytes (awrite_packet p))).
Proof. exact writes_encodings. Qed.
Print Assumptions C50_writes_mqtt5_partial.
Example C50_case : well_formed s_publish /\ no_empty_auth s_publish /\ no_assigned_id s_publish /\
  w_err (write_packet s_publish) = None /\ w_err (awrite_packet s_publish) = None.
Proof. exact samples_writes. Qed.
Theorem C50_refuted : exists p, well_formed p /\ w_err (write_packet p) = None /\ ~ encodes p (w_bytes (write_packet p)).
Proof. exact (ex_intro _ w_empty_auth_connack w_empty_auth_encodes). Qed.
Print Assumptions C50_refuted.
