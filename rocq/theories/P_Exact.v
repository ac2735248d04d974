(* C03 - C06, C08, C49, C50: exactly which packets survive.  C65: what the stream readers take *)
From Verif Require Import Base VarInt Prims Props Codes Packets SpecCodec Check Witness CountFacts ExactFacts.

(* The exclusions of the theorems in P_RoundTrip are exact: a packet survives if and only if it is
   none of the excluded ones. *)
Theorem C03_exact : forall p, well_formed p -> w_err (write_packet p) = None ->
  ((forall rest, read_packet (w_bytes (write_packet p) ++ rest) = RPacket p rest) <->
   no_empty_auth p /\ not_short_ack p /\ no_will_pfi p).
Proof. exact sync_exact. Qed.
Print Assumptions C03_exact.
Example C03_exact_case : well_formed s_connack /\ w_err (write_packet s_connack) = None /\
  well_formed w_short /\ w_err (write_packet w_short) = None /\ ~ not_short_ack w_short.
Proof. exact exact_case. Qed.

Theorem C04_exact : forall p, well_formed p -> w_err (awrite_packet p) = None ->
  ((forall rest, aread_packet (w_bytes (awrite_packet p) ++ rest) = AOk p (body_len p) rest) <->
   no_empty_auth p /\ not_short_ack p /\ no_assigned_id p /\ one_topic p).
Proof. exact stream_exact. Qed.
Print Assumptions C04_exact.

Theorem C05_to_stream_exact : forall p, well_formed p -> w_err (write_packet p) = None ->
  ((forall rest, aread_packet (w_bytes (write_packet p) ++ rest) = AOk p (body_len p) rest) <->
   no_empty_auth p /\ not_short_ack p /\ one_topic p).
Proof. exact to_async_exact. Qed.
Print Assumptions C05_to_stream_exact.
Theorem C05_to_buffer_exact : forall p, well_formed p -> w_err (awrite_packet p) = None ->
  ((forall rest, read_packet (w_bytes (awrite_packet p) ++ rest) = RPacket p rest) <->
   no_empty_auth p /\ not_short_ack p /\ no_assigned_id p /\ no_will_pfi p).
Proof. exact to_sync_exact. Qed.
Print Assumptions C05_to_buffer_exact.

(* AUTH alone survives empty authentication data as a frame: its writer leaves the property out. *)
Theorem C06_buffer_exact : forall p, well_formed p -> w_err (write_packet p) = None ->
  (is_frame (w_bytes (write_packet p)) <-> no_empty_auth p \/ type_of p = TAuth).
Proof. exact write_frame. Qed.
Print Assumptions C06_buffer_exact.
Theorem C06_stream_exact : forall p, well_formed p -> w_err (awrite_packet p) = None ->
  (is_frame (w_bytes (awrite_packet p)) <-> no_assigned_id p).
Proof. exact awrite_frame. Qed.
Print Assumptions C06_stream_exact.

(* Weaker hypotheses than those of C08_truncated_partial; by C06 they are the weakest for whole frames. *)
Theorem C08_truncated_frames : forall p pre t, well_formed p -> t <> [] ->
  (no_empty_auth p \/ type_of p = TAuth -> w_err (write_packet p) = None -> w_bytes (write_packet p) = pre ++ t ->
     exists n, read_packet pre = RMore n pre /\ 1 <= n <= len t) /\
  (no_assigned_id p -> w_err (awrite_packet p) = None -> w_bytes (awrite_packet p) = pre ++ t ->
     exists n, read_packet pre = RMore n pre /\ 1 <= n <= len t).
Proof. exact truncated_exact. Qed.
Print Assumptions C08_truncated_frames.
Example C08_frames_case : well_formed w_empty_auth_connack /\ no_assigned_id w_empty_auth_connack /\
  w_err (awrite_packet w_empty_auth_connack) = None /\ ~ no_empty_auth w_empty_auth_connack.
Proof. exact truncated_exact_case. Qed.

Theorem C49_exact : forall p body, well_formed p -> spec_body p body -> len body <= 268435455 ->
  let b := spec_first p :: spec_varint (len body) ++ body in
  ((forall rest, read_packet (b ++ rest) = RPacket p rest) <-> not_short_form p body /\ no_will_pfi p) /\
  ((forall rest, aread_packet (b ++ rest) = AOk p (len body) rest) <-> not_short_form p body /\ one_topic p).
Proof. exact reads_exact. Qed.
Print Assumptions C49_exact.

Theorem C50_buffer_exact : forall p, well_formed p -> w_err (write_packet p) = None ->
  (encodes p (w_bytes (write_packet p)) <-> no_empty_auth p).
Proof. exact write_exact. Qed.
Print Assumptions C50_buffer_exact.
Theorem C50_stream_exact : forall p, well_formed p -> w_err (awrite_packet p) = None ->
  (encodes p (w_bytes (awrite_packet p)) <-> no_empty_auth p /\ no_assigned_id p).
Proof. exact awrite_exact. Qed.
Print Assumptions C50_stream_exact.

(* C65.  Full statement: the last conjunct without the restriction to three types. *)
Theorem C65_stream_count_partial : forall s p n r, all_bytes s -> aread_packet s = AOk p n r ->
  exists first enc body, s = first :: enc ++ body ++ r /\ is_varint enc /\ len body = n /\
    (In (type_of p) [TPublish; TPubComp; TSubAck] -> is_frame (first :: enc ++ body)).
Proof. exact stream_count. Qed.
Print Assumptions C65_stream_count_partial.
Example C65_case : exists p r, aread_packet [48; 5; 0; 1; 97; 0; 7; 64; 2] = AOk p 5 r /\ type_of p = TPublish /\ r = [64; 2].
Proof. eexists _, _. split; [vm_compute; reflexivity|split; reflexivity]. Qed.
(* For each of the other twelve types there is a frame of which the reader takes too much or too little *)
Theorem C65_each_other_type_refuted : forall ty, ~ In ty [TPublish; TPubComp; TSubAck] ->
  exists first rem t p n r, all_bytes (first :: rem :: t) /\ rem < 128 /\ len t = N.max n rem /\
    aread_packet (first :: rem :: t) = AOk p n r /\ type_of p = ty /\ n <> rem.
Proof. exact odd_frames. Qed.
Print Assumptions C65_each_other_type_refuted.
