(* C66: what the decoders return is what the bytes say *)
From Verif Require Import Base VarInt Prims Props Codes Packets SpecCodec SpecLenient Check Witness LenientMore LenientCases.

(* Full statement: a packet is returned only for an MQTT 5 encoding of it.  Proved: the bytes are one
   up to the liberties marked in SpecLenient; [extra] are bytes of the frame nobody looked at. *)
Theorem C66_buffer_partial : forall buf p rest, all_bytes buf -> read_packet buf = RPacket p rest ->
  exists enc body extra, buf = spec_first p :: enc ++ body ++ extra ++ rest /\ int_enc (len (body ++ extra)) enc /\
    lax_body FromBuffer p body /\
    (In (type_of p) [TPublish; TSubscribe; TUnsubscribe; TSubAck; TUnsubAck] -> extra = []).
Proof. exact buffer_says. Qed.
Print Assumptions C66_buffer_partial.
Example C66_buffer_case : all_bytes [64; 8; 0; 7; 0; 1; 31; 0; 1; 97; 5] /\
  read_packet [64; 8; 0; 7; 0; 1; 31; 0; 1; 97; 5] = RPacket (PPubAck (Ack 7 RSuccess (set_prop ReasonString (VStr [97]) no_props))) [5].
Proof. exact liberty_case. Qed.

(* The stream readers look at the remaining length in three types only: C65. *)
Theorem C66_stream_partial : forall s p n r, all_bytes s -> aread_packet s = AOk p n r ->
  exists enc body, s = spec_first p :: enc ++ body ++ r /\ is_varint enc /\ len body = n /\ lax_body FromStream p body /\
    (In (type_of p) [TPublish; TPubComp; TSubAck] -> groups_value enc = len body).
Proof. exact stream_says. Qed.
Print Assumptions C66_stream_partial.
Example C66_stream_case : all_bytes [64; 8; 0; 7; 0; 4; 31; 0; 1; 97; 5] /\
  aread_packet [64; 8; 0; 7; 0; 4; 31; 0; 1; 97; 5] = AOk (PPubAck (Ack 7 RSuccess (set_prop ReasonString (VStr [97]) no_props))) 8 [5].
Proof. exact liberty_acase. Qed.

(* The liberties are taken: a reserved flag in CONNACK, bytes behind its properties, a ping with a body,
   a length not in its shortest form, a wrong property length in PUBACK, reserved options in SUBSCRIBE. *)
Theorem C66_buffer_refuted : Forall (fun b => (exists p, read_packet b = RPacket p []) /\ forall q, ~ encodes q b)
  [[32; 3; 2; 0; 0]; [32; 4; 0; 0; 0; 9]; [208; 1; 0]; [64; 130; 0; 0; 7]; [64; 8; 0; 7; 0; 1; 31; 0; 1; 97]; [130; 7; 0; 1; 0; 0; 1; 97; 64]].
Proof. exact liberties_taken. Qed.
Print Assumptions C66_buffer_refuted.
Theorem C66_stream_refuted : Forall (fun b => (exists p n r, aread_packet b = AOk p n r) /\ forall q, ~ encodes q b)
  [[32; 3; 2; 0; 0]; [32; 4; 0; 0; 0; 9]; [208; 1; 0]; [64; 130; 0; 0; 7]; [130; 7; 0; 1; 0; 0; 1; 97; 64]].
Proof. exact liberties_atake. Qed.
Print Assumptions C66_stream_refuted.
