(* C16 - C18: size limits of what a client asks for *)
From Verif Require Import Base VarInt Prims Props Codes Packets SpecCodec Check Witness LimitMore.

(* C16.  Full statement: the conclusion for every string and binary field.  Only topics are checked,
   and only by the client's validation. *)
Theorem C16_long_topics_refused_partial : forall max r t, In t (rq_topics r) -> 65535 < len t -> rq_valid max r <> None.
Proof. exact long_topics_refused. Qed.
Print Assumptions C16_long_topics_refused_partial.
Example C16_case : In long_string (rq_topics (RqSubscribe (Subscribe 1 no_props [(s_abc, SOpts RhZero false false AtMostOnce);
    (long_string, SOpts RhZero false false AtMostOnce)]))) /\ 65535 < len long_string.
Proof. split; [right; left; reflexivity|vm_compute; reflexivity]. Qed.
(* a content type of 65537 bytes passes validation, both writers report success, no reader gets it back *)
Theorem C16_refuted : exists p s, content_type (packet_props p) = Some s /\ utf8 s /\ 65535 < len s /\
  rq_valid 268435455 (RqPublish (match p with PPublish q => q | _ => Publish false AtMostOnce false [] None no_props [] end)) = None /\
  w_err (write_packet p) = None /\ w_err (awrite_packet p) = None /\
  (forall rest, read_packet (w_bytes (write_packet p)) <> RPacket p rest) /\
  (forall n rest, aread_packet (w_bytes (awrite_packet p)) <> AOk p n rest).
Proof. exact long_refuted. Qed.
Print Assumptions C16_refuted.

(* C17.  Full statement: [<= max] instead of [<= max + 5].  Validation leaves out the fixed header. *)
Theorem C17_size_partial : forall max r, rq_ok r -> rq_valid max r = None -> rq_topics r <> [] -> max <= 268435455 ->
  let p := rq_packet r in
  len (w_bytes (write_packet p)) <= max + 5 /\ len (w_bytes (awrite_packet p)) <= max + 5 /\ body_len p <= max.
Proof. exact request_size. Qed.
Print Assumptions C17_size_partial.
Example C17_case : rq_ok w_pub_max /\ rq_valid 10 w_pub_max = None /\ rq_topics w_pub_max <> [] /\ rq_valid 9 w_pub_max <> None.
Proof. exact size_case. Qed.
Theorem C17_refuted : exists max r, rq_ok r /\ rq_valid max r = None /\ rq_topics r <> [] /\
  max < len (w_bytes (write_packet (rq_packet r))) /\ max < len (w_bytes (awrite_packet (rq_packet r))).
Proof. exact size_refuted. Qed.
Print Assumptions C17_refuted.

(* C18.  Full statement: without [rq_topics r <> []].  The maximum is at most 268435455 by C45.  That
   the stream reader misses all but the first topic of a SUBSCRIBE is C04. *)
Theorem C18_transmittable_partial : forall max r, rq_ok r -> rq_valid max r = None -> rq_topics r <> [] -> max <= 268435455 ->
  let p := rq_packet r in
  w_err (write_packet p) = None /\ w_err (awrite_packet p) = None /\
  encodes p (w_bytes (write_packet p)) /\ encodes p (w_bytes (awrite_packet p)) /\
  (forall rest, read_packet (w_bytes (write_packet p) ++ rest) = RPacket p rest /\
                read_packet (w_bytes (awrite_packet p) ++ rest) = RPacket p rest) /\
  (one_topic p -> forall rest, aread_packet (w_bytes (write_packet p) ++ rest) = AOk p (body_len p) rest /\
                aread_packet (w_bytes (awrite_packet p) ++ rest) = AOk p (body_len p) rest).
Proof. exact request_written. Qed.
Print Assumptions C18_transmittable_partial.
Example C18_case : rq_ok w_pub_max /\ rq_valid 10 w_pub_max = None /\ rq_topics w_pub_max <> [] /\ 10 <= 268435455.
Proof. destruct size_case as (A & B & C & _). split; [assumption|]. split; [assumption|]. split; [assumption|discriminate]. Qed.
Theorem C18_no_topics_refuted : exists r, rq_ok r /\ rq_valid 100 r = None /\
  w_err (write_packet (rq_packet r)) = None /\ w_err (awrite_packet (rq_packet r)) = None /\
  (exists e, read_packet (w_bytes (write_packet (rq_packet r))) = RBad e []) /\
  aread_packet (w_bytes (awrite_packet (rq_packet r))) = AShort.
Proof. exact transmit_refuted. Qed.
Print Assumptions C18_no_topics_refuted.
