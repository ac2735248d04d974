(* C74: the bytes for which a packet is returned, exactly *)
From Verif Require Import Base VarInt Prims Props Codes Packets SpecCodec SpecLenient SpecAccept AcceptAll StreamTake AcceptCases.

Theorem C74_buffer : forall buf p rest, all_bytes buf -> (read_packet buf = RPacket p rest <->
  exists enc body extra, buf = spec_first p :: enc ++ body ++ extra ++ rest /\ int_enc (len (body ++ extra)) enc /\
    packet_ok p /\ lax_body FromBuffer p body /\ buffer_accepts p body extra).
Proof. exact buffer_exactly. Qed.
Print Assumptions C74_buffer.
(* a PUBACK with a property length of zero in two bytes and another byte behind *)
Example C74_buffer_case : all_bytes [64; 6; 0; 7; 0; 128; 0; 9; 5] /\
  let p := PPubAck (Ack 7 RSuccess no_props) in
  [64; 6; 0; 7; 0; 128; 0; 9; 5] = spec_first p :: [6] ++ [0; 7; 0; 128; 0] ++ [9] ++ [5] /\ int_enc (len ([0; 7; 0; 128; 0] ++ [9])) [6] /\
  packet_ok p /\ lax_body FromBuffer p [0; 7; 0; 128; 0] /\ buffer_accepts p [0; 7; 0; 128; 0] [9].
Proof. exact accept_case. Qed.

(* a frame the stream reader takes exactly; it does not look at every remaining length: C65 *)
Theorem C74_stream : forall first enc body r p, all_bytes (first :: enc ++ body ++ r) -> int_enc (len body) enc ->
  (aread_packet (first :: enc ++ body ++ r) = AOk p (len body) r <->
   first = spec_first p /\ packet_ok p /\ lax_body FromStream p body /\ stream_accepts p).
Proof. exact stream_exactly. Qed.
Print Assumptions C74_stream.
(* a SUBSCRIBE with a subscription identifier twice and a reserved bit in the options *)
Example C74_stream_case : let body := [0; 1; 4; 11; 3; 11; 5; 0; 1; 97; 64] in
  let p := PSubscribe (Subscribe 1 (set_prop SubscriptionIdentifier (VVar 5) no_props) [([97], SOpts RhZero false false AtMostOnce)]) in
  all_bytes (130 :: [11] ++ body ++ [5]) /\ int_enc (len body) [11] /\
  130 = spec_first p /\ packet_ok p /\ lax_body FromStream p body /\ stream_accepts p.
Proof. exact accept_acase. Qed.

(* any bytes: whatever remaining length is announced *)
Theorem C74_stream_any : forall s p n r, all_bytes s -> (aread_packet s = AOk p n r <->
  exists rem enc body, s = spec_first p :: enc ++ body ++ r /\ int_enc rem enc /\ n = len body /\
    packet_ok p /\ lax_body FromStream p body /\ stream_takes p rem body).
Proof. exact stream_any. Qed.
Print Assumptions C74_stream_any.
(* an UNSUBSCRIBE that announces one byte less than its two topics take: both are read *)
Example C74_stream_any_case : let s := [162; 8; 0; 1; 0; 0; 1; 97; 0; 1; 98; 5] in let p := PUnsubscribe (Unsubscribe 1 no_props [[97]; [98]]) in
  let body := [0; 1; 0; 0; 1; 97; 0; 1; 98] in
  all_bytes s /\ s = spec_first p :: [8] ++ body ++ [5] /\ int_enc 8 [8] /\ packet_ok p /\ lax_body FromStream p body /\ stream_takes p 8 body /\ 8 <> len body.
Proof. exact take_case. Qed.

(* SUBACK and UNSUBACK whose property length or properties are longer than need be: only the stream reader takes them. *)
Theorem C74_long_refused : forall first enc body r p, all_bytes (first :: enc ++ body ++ r) -> int_enc (len body) enc ->
  aread_packet (first :: enc ++ body ++ r) = AOk p (len body) r -> In (type_of p) [TSubAck; TUnsubAck] -> ~ spec_body p body ->
  forall q rest, read_packet (first :: enc ++ body ++ r) <> RPacket q rest.
Proof. exact refuses_long. Qed.
Print Assumptions C74_long_refused.
Example C74_long_case : let body := [0; 1; 128; 0; 1] in let p := PSubAck (SubAck 1 no_props [RGrantedQoS1]) in
  all_bytes (144 :: [5] ++ body ++ [7]) /\ int_enc (len body) [5] /\
  aread_packet (144 :: [5] ++ body ++ [7]) = AOk p (len body) [7] /\ In (type_of p) [TSubAck; TUnsubAck] /\ ~ spec_body p body.
Proof. exact refuses_case. Qed.
