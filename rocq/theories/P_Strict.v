(* C13 - C15, C46, C47, C51: what the decoders refuse, and the tables of the protocol *)
From Verif Require Import Base VarInt Prims Props Codes Packets SpecCodec SpecCodes SectionFacts CodeFacts Check StrictMore.

(* C13.  [carries s its first body]: a packet body whose property section lists the items [its].  Full
   statement: both conclusions from the hypotheses of the first, without the exception for SUBACK. *)
Theorem C13_strict_sections_partial : forall s its first body rest,
  carries s its first body -> Forall spec_typed its -> len body <= 268435455 ->
  let b := first :: spec_varint (len body) ++ body ++ rest in
  let foreign := exists t v, In (t, v) its /\ spec_allowed s t = false /\ ~ (s = SSubAck /\ t = SubscriptionIdentifier) in
  let repeated t := spec_repeatable s t = false /\ (2 <= length (vals t its))%nat in
  (foreign \/ (exists t, repeated t) -> exists e, read_packet b = RBad e rest) /\
  (foreign \/ (exists t, repeated t /\ t <> SubscriptionIdentifier) -> exists e, aread_packet b = AErr e).
Proof. exact strict_sections. Qed.
Print Assumptions C13_strict_sections_partial.
Example C13_case : exists first body, carries SConnAck [(ReceiveMaximum, V16 3); (ReceiveMaximum, V16 3)] first body /\
  Forall spec_typed [(ReceiveMaximum, V16 3); (ReceiveMaximum, V16 3)] /\
  spec_repeatable SConnAck ReceiveMaximum = false /\ spec_allowed SConnAck ReceiveMaximum = true.
Proof. exact strict_case. Qed.
Theorem C13_suback_refuted : exists its first body, carries SSubAck its first body /\ Forall spec_typed its /\
  (exists t v, In (t, v) its /\ spec_allowed SSubAck t = false) /\
  let b := first :: spec_varint (len body) ++ body in
  (exists p, read_packet b = RPacket p []) /\ (exists p n, aread_packet b = AOk p n []).
Proof. exact strict_refuted_suback. Qed.
Print Assumptions C13_suback_refuted.
Theorem C13_subscribe_refuted : exists its first body, carries SSubscribe its first body /\ Forall spec_typed its /\
  spec_repeatable SSubscribe SubscriptionIdentifier = false /\ (2 <= length (vals SubscriptionIdentifier its))%nat /\
  (exists p n, aread_packet (first :: spec_varint (len body) ++ body) = AOk p n []).
Proof. exact strict_refuted_subscribe. Qed.
Print Assumptions C13_subscribe_refuted.

(* C46.  Full statement: the equation for every section.  [cfg_of s] is the crate's table of the section. *)
Theorem C46_property_tables_partial : forall s t, s <> SSubAck -> (In t (c_decl (cfg_of s)) <-> spec_allowed s t = true).
Proof. exact tables_ok. Qed.
Print Assumptions C46_property_tables_partial.
Example C46_case : spec_allowed SConnAck ServerKeepAlive = true /\ spec_allowed SConnect ServerKeepAlive = false.
Proof. split; reflexivity. Qed.
Theorem C46_suback_refuted :
  (spec_allowed SSubAck ReasonString = true /\ ~ In ReasonString (c_decl (cfg_of SSubAck))) /\
  (spec_allowed SSubAck SubscriptionIdentifier = false /\ In SubscriptionIdentifier (c_decl (cfg_of SSubAck))) /\
  (exists its first body, carries SSubAck its first body /\ Forall spec_typed its /\
     (forall t v, In (t, v) its -> spec_allowed SSubAck t = true) /\
     exists e, read_packet (first :: spec_varint (len body) ++ body) = RBad e []).
Proof. exact tables_refuted. Qed.
Print Assumptions C46_suback_refuted.

(* C14.  [codes_of t] is the crate's reason-code enum of packet type t. *)
Theorem C14_reason_codes : forall t,
  (forall c rest, In c (codes_of t) -> exists v, v < 256 /\ write_rc c = w_put [v] /\
     read_rc (codes_of t) (v :: rest) = Ok (c, rest) /\ aread_rc (codes_of t) (v :: rest) = AOk c 1 rest) /\
  (forall c c', In c (codes_of t) -> In c' (codes_of t) -> write_rc c = write_rc c' -> c = c') /\
  (forall v rest, ~ In v (spec_codes t) -> exists e,
     read_rc (codes_of t) (v :: rest) = Err e /\ aread_rc (codes_of t) (v :: rest) = AErr e) /\
  (forall v first body rest, carries_code t v first body -> ~ In v (spec_codes t) -> len body <= 268435455 ->
     (exists e, read_packet (first :: spec_varint (len body) ++ body ++ rest) = RBad e rest) /\
     (exists e, aread_packet (first :: spec_varint (len body) ++ body ++ rest) = AErr e)).
Proof. exact reason_codes. Qed.
Print Assumptions C14_reason_codes.
Example C14_case : In RQuotaExceeded (codes_of TPubRec) /\ ~ In 5 (spec_codes TPubRec) /\
  carries_code TPubRec 5 80 [0; 7; 5; 0].
Proof. exact reason_case. Qed.

(* C47.  The numbers of MQTT 5: section 2.4 for the codes, the sections of the packets for the sets. *)
Theorem C47_reason_values : forall t,
  (forall c, write_rc c = w_put [spec_rc c]) /\
  (forall v, In v (spec_codes t) <-> exists c rest, read_rc (codes_of t) (v :: rest) = Ok (c, rest) /\ spec_rc c = v) /\
  (forall v, In v (spec_codes t) <-> exists c rest, aread_rc (codes_of t) (v :: rest) = AOk c 1 rest /\ spec_rc c = v).
Proof. exact reason_values. Qed.
Print Assumptions C47_reason_values.
Example C47_case : spec_codes TAuth = [0; 24; 25] /\ read_rc (codes_of TAuth) [24] = Ok (RContinueAuthentication, []).
Proof. split; reflexivity. Qed.

(* C15.  [legal_first], [spec_type]: MQTT 5, 2.1.2 and 2.1.3. *)
Theorem C15_fixed_headers :
  (forall b, b < 256 ->
     match spec_type (b / 16) with
     | Some t => if legal_first b then from_first_byte b = Ok (t, if b / 16 =? 3 then b mod 16 else 0)
                 else from_first_byte b = Err (UnknownFixedHeader b)
     | None => legal_first b = false /\ from_first_byte b = Err (UnknownFixedHeader b)
     end) /\
  (forall b rest, b < 256 -> legal_first b = false ->
     (1 <= len rest -> read_packet (b :: rest) = RBad (UnknownFixedHeader b) (b :: rest)) /\
     aread_packet (b :: rest) = AErr (UnknownFixedHeader b)) /\
  (forall p, (exists r, w_bytes (write_packet p) = spec_first p :: r) /\ (exists r, w_bytes (awrite_packet p) = spec_first p :: r) /\
     legal_first (spec_first p) = true /\ spec_type (spec_first p / 16) = Some (type_of p)) /\
  (forall p, type_of p = TPublish -> forall q, type_of q = TPublish -> spec_first p = spec_first q ->
     match p, q with
     | PPublish p, PPublish q => pb_dup p = pb_dup q /\ pb_qos p = pb_qos q /\ pb_retain p = pb_retain q
     | _, _ => False
     end).
Proof. exact fixed_headers. Qed.
Print Assumptions C15_fixed_headers.
Example C15_case : legal_first 98 = true /\ legal_first 96 = false /\ spec_first s_publish = 53.
Proof. repeat split. Qed.

(* C51.  [utf8]: RFC 3629, a sequence of encoded scalar values. *)
Theorem C51_strings_are_utf8 : forall s rest, len s <= 65535 ->
  (utf8 s -> read_str (spec_data s ++ rest) = Ok (s, rest) /\ aread_str (spec_data s ++ rest) = AOk s (2 + len s) rest) /\
  (~ utf8 s -> read_str (spec_data s ++ rest) = Err Utf8Error /\ aread_str (spec_data s ++ rest) = AErr Utf8Error).
Proof. exact strings_utf8. Qed.
Print Assumptions C51_strings_are_utf8.
Example C51_case : utf8 [116; 47; 195; 169] /\ ~ utf8 [237; 160; 128].
Proof. exact utf8_case. Qed.
