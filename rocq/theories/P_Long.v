(* C16: strings and binary fields of more than 65535 bytes *)
From Verif Require Import Base VarInt Prims Props Codes Packets SpecCodec SpecLong LimitMore Check LongFacts.

(* C16.  A packet with such a field comes out of neither reader, whatever the bytes. *)
Theorem C16_never_read : forall p x b, In x (fields p) -> 65535 < len x -> all_bytes b ->
  (forall rest, read_packet b <> RPacket p rest) /\ (forall n rest, aread_packet b <> AOk p n rest).
Proof. exact never_read. Qed.
Print Assumptions C16_never_read.

(* C16.  Where C16_refuted gives one packet, this is every packet: with such a field, and a body that has a
   length MQTT can express, both writers report success, and from these bytes neither reader, whatever follows
   them, gets the packet back.  [typed] asks no length. *)
Theorem C16_silent : forall p x, typed p -> auth_method_ok (packet_props p) -> body_len p <= 268435455 -> In x (fields p) -> 65535 < len x ->
  forall w, w = write_packet p \/ w = awrite_packet p ->
  w_err w = None /\
  forall b, all_bytes b -> (forall rest, read_packet (w_bytes w ++ b) <> RPacket p rest) /\ (forall n rest, aread_packet (w_bytes w ++ b) <> AOk p n rest).
Proof. exact long_silent. Qed.
Print Assumptions C16_silent.
(* CONNECT with a password of 65537 bytes *)
Example C16_silent_case :
  let p := long_connect long_string in
  typed p /\ auth_method_ok (packet_props p) /\ body_len p <= 268435455 /\ In long_string (fields p) /\ 65535 < len long_string.
Proof. exact silent_case. Qed.

(* C16.  Of the requests that pass validation, exactly those without such a field are read back. *)
Theorem C16_exact : forall max r, typed (rq_packet r) -> rq_valid max r = None -> max <= 268435455 -> rq_topics r <> [] ->
  let p := rq_packet r in
  forall w, w = write_packet p \/ w = awrite_packet p ->
  w_err w = None /\ ((forall rest, read_packet (w_bytes w ++ rest) = RPacket p rest) <-> Forall (fun x => len x <= 65535) (fields p)).
Proof. exact request_exact. Qed.
Print Assumptions C16_exact.
Example C16_exact_case :
  let long := RqPublish (Publish false AtMostOnce false s_abc None (mkp publish_cfg [(ContentType, VStr long_string)]) []) in
  (typed (rq_packet w_pub_max) /\ rq_valid 10 w_pub_max = None /\ rq_topics w_pub_max <> [] /\ Forall (fun x => len x <= 65535) (fields (rq_packet w_pub_max))) /\
  (typed (rq_packet long) /\ rq_valid 268435455 long = None /\ rq_topics long <> [] /\ In long_string (fields (rq_packet long)) /\ 65535 < len long_string).
Proof. exact exact_case. Qed.
