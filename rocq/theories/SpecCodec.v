(* Specification side of the codec: what well-formed packets are and what the MQTT 5 encodings of
   the primitive types are.  Nothing here refers to the readers or writers of the model. *)
From Verif Require Import Base Prims Props Codes Packets.

Definition MAXVAR : N := 268435455.

(* MQTT 5, 1.5.5: the variable byte integer of n *)
Definition spec_varint (n : N) : bytes :=
  if n <? 128 then [n]
  else if n <? 128 * 128 then [128 + n mod 128; n / 128]
  else if n <? 128 * 128 * 128 then [128 + n mod 128; 128 + n / 128 mod 128; n / 128 / 128]
  else [128 + n mod 128; 128 + n / 128 mod 128; 128 + n / 128 / 128 mod 128; n / 128 / 128 / 128].

(* the value of a sequence of 7-bit groups, least significant first *)
Fixpoint groups_value (l : bytes) : N :=
  match l with [] => 0 | b :: l' => b mod 128 + 128 * groups_value l' end.

(* a complete variable byte integer: all bytes but the last have the continuation bit, at most four *)
Definition is_varint (l : bytes) : Prop :=
  exists init last, l = init ++ [last] /\ Forall (fun b => 128 <= b < 256) init /\ last < 128 /\ len l <= 4.

(* ---- well-formed values ------------------------------------------------------------------------- *)

(* RFC 3629: UTF-8.  A scalar value is a code point that is not a surrogate. *)
Definition scalar (c : N) : Prop := c < 0xD800 \/ (0xDFFF < c /\ c <= 0x10FFFF).
Definition utf8_encode (c : N) : bytes :=
  if c <? 0x80 then [c]
  else if c <? 0x800 then [0xC0 + c / 64; 0x80 + c mod 64]
  else if c <? 0x10000 then [0xE0 + c / 4096; 0x80 + c / 64 mod 64; 0x80 + c mod 64]
  else [0xF0 + c / 262144; 0x80 + c / 4096 mod 64; 0x80 + c / 64 mod 64; 0x80 + c mod 64].
Definition utf8 (s : bytes) : Prop := exists cs, Forall scalar cs /\ s = concat (map utf8_encode cs).

Definition str_ok (s : bytes) : Prop := utf8 s /\ len s <= 65535.
Definition bin_ok (s : bytes) : Prop := all_bytes s /\ len s <= 65535.
Definition opt_ok {A} (P : A -> Prop) (o : option A) : Prop := match o with Some a => P a | None => True end.

Definition val_ok (v : pval) : Prop :=
  match v with
  | V8 n => n < 256
  | V16 n => n < 65536
  | V32 n => n < 4294967296
  | VVar n => n <= MAXVAR
  | VStr s => str_ok s
  | VBin s => bin_ok s
  | VQos _ => True
  | VBool _ => True
  | VPair k v => str_ok k /\ str_ok v
  end.

(* A property struct of a packet type: only declared properties occur (the Rust struct has no other
   fields), strings are UTF-8 and at most 65535 bytes long, integers are in range. *)
Definition props_ok (cfg : pcfg) (p : props) : Prop :=
  (forall t v, get_prop t p = Some v -> In t (c_decl cfg) /\ val_ok v) /\
  Forall (fun kv => str_ok (fst kv) /\ str_ok (snd kv)) (user_properties p) /\
  (user_properties p <> [] -> In UserProperty (c_decl cfg)) /\
  Forall (fun n => n <= MAXVAR) (subscription_identifiers p) /\
  (subscription_identifiers p <> [] -> In SubscriptionIdentifier (c_decl cfg) /\ c_sublist cfg = true) /\
  (c_sublist cfg = true -> subscription_identifier p = None).

(* MQTT 5, 3.1.2.11.10: authentication data only together with an authentication method.  The crate
   moreover treats empty data as absent. *)
Definition auth_ok (p : props) : Prop :=
  forall d, authentication_data p = Some d -> d <> [] /\ authentication_method p <> None.

Definition will_ok (w : will) : Prop :=
  props_ok will_cfg (wl_props w) /\ str_ok (wl_topic w) /\ bin_ok (wl_payload w).

Definition code_ok (tbl : list rc) (c : rc) : Prop := In c tbl.

Definition ack_ok (tbl : list rc) (cfg : pcfg) (a : ack) : Prop :=
  ak_id a < 65536 /\ code_ok tbl (ak_rc a) /\ props_ok cfg (ak_props a).

Definition suback_ok (tbl : list rc) (cfg : pcfg) (s : suback) : Prop :=
  sa_id s < 65536 /\ props_ok cfg (sa_props s) /\ Forall (code_ok tbl) (sa_codes s).

(* Well-formed packets: the invariants of the Rust types, plus: strings and binaries have at most
   65535 bytes, a PUBLISH has a packet identifier exactly when its QoS is not 0, SUBSCRIBE and
   UNSUBSCRIBE have at least one topic. *)
Definition packet_ok (p : packet) : Prop :=
  match p with
  | PConnect c =>
      cn_keep_alive c < 65536 /\ props_ok connect_cfg (cn_props c) /\ opt_ok will_ok (cn_will c) /\
      opt_ok str_ok (cn_username c) /\ opt_ok str_ok (cn_password c) /\ str_ok (cn_client_id c)
  | PConnAck c => code_ok connack_codes (ca_rc c) /\ props_ok connack_cfg (ca_props c)
  | PPublish p =>
      str_ok (pb_topic p) /\ opt_ok (fun i => i < 65536) (pb_pkid p) /\
      (pb_pkid p = None <-> pb_qos p = AtMostOnce) /\
      props_ok publish_cfg (pb_props p) /\ all_bytes (pb_payload p)
  | PPubAck a => ack_ok puback_codes puback_cfg a
  | PPubRec a => ack_ok pubrec_codes pubrec_cfg a
  | PPubRel a => ack_ok pubrel_codes pubrel_cfg a
  | PPubComp a => ack_ok pubcomp_codes pubcomp_cfg a
  | PSubscribe s =>
      sb_id s < 65536 /\ props_ok subscribe_cfg (sb_props s) /\
      Forall (fun t => str_ok (fst t)) (sb_topics s) /\ sb_topics s <> []
  | PSubAck s => suback_ok suback_codes suback_cfg s
  | PUnsubscribe u =>
      ub_id u < 65536 /\ props_ok unsubscribe_cfg (ub_props u) /\
      Forall str_ok (ub_topics u) /\ ub_topics u <> []
  | PUnsubAck u => suback_ok unsuback_codes unsuback_cfg u
  | PPingReq | PPingResp => True
  | PDisconnect d => code_ok disconnect_codes (dc_rc d) /\ props_ok disconnect_cfg (dc_props d)
  | PAuth a => code_ok auth_codes (dc_rc a) /\ props_ok auth_cfg (dc_props a)
  end.

(* the property section of a packet that can hold authentication data *)
Definition packet_auth_ok (p : packet) : Prop :=
  match p with
  | PConnect c => auth_ok (cn_props c)
  | PConnAck c => auth_ok (ca_props c)
  | PAuth a => auth_ok (dc_props a)
  | _ => True
  end.

(* ---- the MQTT 5 encoding ------------------------------------------------------------------------ *)

(* MQTT 5, 2.4, table 2-6 *)
Definition spec_rc (r : rc) : N :=
  match r with
  | RSuccess | RNormalDisconnection | RGrantedQoS0 => 0x00
  | RGrantedQoS1 => 0x01 | RGrantedQoS2 => 0x02 | RDisconnectWithWillMessage => 0x04
  | RNoMatchingSubscribers => 0x10 | RNoSubscriptionExisted => 0x11
  | RContinueAuthentication => 0x18 | RReAuthenticate => 0x19
  | RUnspecifiedError => 0x80 | RMalformedPacket => 0x81 | RProtocolError => 0x82
  | RImplementationSpecificError => 0x83 | RUnsupportedProtocolVersion => 0x84
  | RClientIdentifierNotValid => 0x85 | RBadUsernameOrPassword => 0x86 | RNotAuthorized => 0x87
  | RServerUnavailable => 0x88 | RServerBusy => 0x89 | RBanned => 0x8A | RServerShuttingDown => 0x8B
  | RBadAuthenticationMethod => 0x8C | RKeepAliveTimeout => 0x8D | RSessionTakenOver => 0x8E
  | RTopicFilterInvalid => 0x8F | RTopicNameInvalid => 0x90 | RPacketIdentifierInUse => 0x91
  | RPacketIdentifierNotFound => 0x92 | RReceiveMaximumExceeded => 0x93 | RTopicAliasInvalid => 0x94
  | RPacketTooLarge => 0x95 | RMessageRateTooHigh => 0x96 | RQuotaExceeded => 0x97
  | RAdministrativeAction => 0x98 | RPayloadFormatInvalid => 0x99 | RRetainNotSupported => 0x9A
  | RQosNotSupported => 0x9B | RUseAnotherServer => 0x9C | RServerMoved => 0x9D
  | RSharedSubscriptionsNotSupported => 0x9E | RConnectionRateExceeded => 0x9F
  | RMaximumConnectTime => 0xA0 | RSubscriptionIdentifiersNotSupported => 0xA1
  | RWildcardSubscriptionsNotSupported => 0xA2
  end.

(* 1.5.2, 1.5.3 *)
Definition spec_u16 (n : N) : bytes := [n / 256; n mod 256].
Definition spec_u32 (n : N) : bytes := [n / 16777216; n / 65536 mod 256; n / 256 mod 256; n mod 256].
(* 1.5.4, 1.5.6: two byte length and the data *)
Definition spec_data (s : bytes) : bytes := spec_u16 (len s) ++ s.
Definition spec_qos (q : qos) : N := match q with AtMostOnce => 0 | AtLeastOnce => 1 | ExactlyOnce => 2 end.
Definition spec_bit (b : bool) : N := if b then 1 else 0.

Definition spec_val (v : pval) : bytes :=
  match v with
  | V8 n => [n]
  | V16 n => spec_u16 n
  | V32 n => spec_u32 n
  | VVar n => spec_varint n
  | VStr s | VBin s => spec_data s
  | VQos q => [spec_qos q]
  | VBool b => [spec_bit b]
  | VPair k v => spec_data k ++ spec_data v
  end.

(* 2.2.2.2, table 2-4: property identifiers *)
Definition spec_id (t : ptype) : N :=
  match t with
  | PayloadFormatIndicator => 1 | MessageExpiryInterval => 2 | ContentType => 3 | ResponseTopic => 8
  | CorrelationData => 9 | SubscriptionIdentifier => 11 | SessionExpiryInterval => 17
  | AssignedClientIdentifier => 18 | ServerKeepAlive => 19 | AuthenticationMethod => 21
  | AuthenticationData => 22 | RequestProblemInformation => 23 | WillDelayInterval => 24
  | RequestResponseInformation => 25 | ResponseInformation => 26 | ServerReference => 28
  | ReasonString => 31 | ReceiveMaximum => 33 | TopicAliasMaximum => 34 | TopicAlias => 35
  | MaximumQos => 36 | RetainAvailable => 37 | UserProperty => 38 | MaximumPacketSize => 39
  | WildcardSubscriptionAvailable => 40 | SubscriptionIdentifierAvailable => 41
  | SharedSubscriptionAvailable => 42
  end.

(* Properties on the wire: a list of (identifier, value) in any order *)
Definition item : Type := ptype * pval.
Definition spec_item (i : item) : bytes := spec_id (fst i) :: spec_val (snd i).
Definition spec_items (its : list item) : bytes := concat (map spec_item its).
(* 2.2.2: property length and properties *)
Definition spec_section (its : list item) : bytes := spec_varint (len (spec_items its)) ++ spec_items its.

(* the values of one property in a list of items *)
Definition vals (t : ptype) (its : list item) : list pval :=
  map snd (filter (fun i => ptype_eqb (fst i) t) its).

(* the values of one property in a struct *)
Definition prop_vals (t : ptype) (p : props) : list pval :=
  match t with
  | UserProperty => map (fun kv => VPair (fst kv) (snd kv)) (user_properties p)
  | SubscriptionIdentifier => map VVar (subscription_identifiers p) ++ opt_list (get_prop t p)
  | _ => opt_list (get_prop t p)
  end.

(* [its] lists exactly the properties of [p]; the order of different properties is free, the order
   of repeated ones (user properties, subscription identifiers) is kept *)
Definition arranges (its : list item) (p : props) : Prop := forall t, vals t its = prop_vals t p.

Definition spec_section_of (p : props) (b : bytes) : Prop :=
  exists its, arranges its p /\ len (spec_items its) <= MAXVAR /\ b = spec_section its.

Definition empty_props (p : props) : Prop := forall t, prop_vals t p = [].

Definition spec_rh (r : rhandling) : N := match r with RhZero => 0 | RhOne => 1 | RhTwo => 2 end.
(* 3.8.3.1 *)
Definition spec_sopts (o : sopts) : N :=
  16 * spec_rh (so_rh o) + 8 * spec_bit (so_rap o) + 4 * spec_bit (so_nl o) + spec_qos (so_qos o).

(* 3.1.2.3 *)
Definition spec_cflags (c : connect) : N :=
  128 * spec_bit (is_some (cn_username c)) + 64 * spec_bit (is_some (cn_password c)) +
  match cn_will c with
  | Some w => 32 * spec_bit (wl_retain w) + 8 * spec_qos (wl_qos w) + 4
  | None => 0
  end + 2 * spec_bit (cn_clean_start c).

(* 3.1.3.2 - 3.1.3.4 *)
Definition spec_will (w : will) (b : bytes) : Prop :=
  exists sec, spec_section_of (wl_props w) sec /\
    b = sec ++ spec_data (wl_topic w) ++ spec_data (wl_payload w).

Definition spec_opt (o : option bytes) : bytes := match o with Some s => spec_data s | None => [] end.

(* 3.4.2 .. 3.7.2: reason code and properties may be left out when they say nothing *)
Definition spec_ack (a : ack) (b : bytes) : Prop :=
  (ak_rc a = RSuccess /\ empty_props (ak_props a) /\ b = spec_u16 (ak_id a)) \/
  (empty_props (ak_props a) /\ b = spec_u16 (ak_id a) ++ [spec_rc (ak_rc a)]) \/
  (exists sec, spec_section_of (ak_props a) sec /\
     b = spec_u16 (ak_id a) ++ [spec_rc (ak_rc a)] ++ sec).

(* The bodies MQTT 5 allows for a packet *)
Definition spec_body (p : packet) (b : bytes) : Prop :=
  match p with
  | PConnect c =>
      exists sec wl, spec_section_of (cn_props c) sec /\
        match cn_will c with Some w => spec_will w wl | None => wl = [] end /\
        b = spec_data [77; 81; 84; 84] ++ [5] ++ [spec_cflags c] ++ spec_u16 (cn_keep_alive c) ++ sec
            ++ spec_data (cn_client_id c) ++ wl ++ spec_opt (cn_username c) ++ spec_opt (cn_password c)
  | PConnAck c =>
      exists sec, spec_section_of (ca_props c) sec /\
        b = [spec_bit (ca_session_present c); spec_rc (ca_rc c)] ++ sec
  | PPublish p =>
      exists sec, spec_section_of (pb_props p) sec /\
        b = spec_data (pb_topic p) ++ match pb_pkid p with Some i => spec_u16 i | None => [] end
            ++ sec ++ pb_payload p
  | PPubAck a | PPubRec a | PPubRel a | PPubComp a => spec_ack a b
  | PSubscribe s =>
      exists sec, spec_section_of (sb_props s) sec /\
        b = spec_u16 (sb_id s) ++ sec
            ++ concat (map (fun t => spec_data (fst t) ++ [spec_sopts (snd t)]) (sb_topics s))
  | PSubAck s | PUnsubAck s =>
      exists sec, spec_section_of (sa_props s) sec /\
        b = spec_u16 (sa_id s) ++ sec ++ map spec_rc (sa_codes s)
  | PUnsubscribe u =>
      exists sec, spec_section_of (ub_props u) sec /\
        b = spec_u16 (ub_id u) ++ sec ++ concat (map spec_data (ub_topics u))
  | PPingReq | PPingResp => b = []
  | PDisconnect d =>
      (dc_rc d = RNormalDisconnection /\ empty_props (dc_props d) /\ b = []) \/
      (empty_props (dc_props d) /\ b = [spec_rc (dc_rc d)]) \/
      (exists sec, spec_section_of (dc_props d) sec /\ b = [spec_rc (dc_rc d)] ++ sec)
  | PAuth d =>
      (dc_rc d = RSuccess /\ empty_props (dc_props d) /\ b = []) \/
      (exists sec, spec_section_of (dc_props d) sec /\ b = [spec_rc (dc_rc d)] ++ sec)
  end.

(* 2.1.2, 2.1.3: type in the high half of the first byte, flags in the low half *)
Definition spec_first (p : packet) : N :=
  match p with
  | PConnect _ => 16 * 1
  | PConnAck _ => 16 * 2
  | PPublish p => 16 * 3 + 8 * spec_bit (pb_dup p) + 2 * spec_qos (pb_qos p) + spec_bit (pb_retain p)
  | PPubAck _ => 16 * 4
  | PPubRec _ => 16 * 5
  | PPubRel _ => 16 * 6 + 2
  | PPubComp _ => 16 * 7
  | PSubscribe _ => 16 * 8 + 2
  | PSubAck _ => 16 * 9
  | PUnsubscribe _ => 16 * 10 + 2
  | PUnsubAck _ => 16 * 11
  | PPingReq => 16 * 12
  | PPingResp => 16 * 13
  | PDisconnect _ => 16 * 14
  | PAuth _ => 16 * 15
  end.

(* [b] is an MQTT 5 encoding of [p] *)
Definition encodes (p : packet) (b : bytes) : Prop :=
  exists body, spec_body p body /\ len body <= MAXVAR /\
    b = spec_first p :: spec_varint (len body) ++ body.

(* 3.1.2.11.10, 3.2.2.3.18, 3.15.2.2.3: authentication data requires an authentication method *)
Definition auth_method_ok (p : props) : Prop := authentication_data p <> None -> authentication_method p <> None.

(* the properties of a packet (not those of a will) *)
Definition packet_props (p : packet) : props :=
  match p with
  | PConnect c => cn_props c | PConnAck c => ca_props c | PPublish p => pb_props p
  | PPubAck a | PPubRec a | PPubRel a | PPubComp a => ak_props a
  | PSubscribe s => sb_props s | PSubAck s | PUnsubAck s => sa_props s
  | PUnsubscribe u => ub_props u | PDisconnect d | PAuth d => dc_props d
  | PPingReq | PPingResp => no_props
  end.

Definition well_formed (p : packet) : Prop := packet_ok p /\ auth_method_ok (packet_props p).

(* Where the crate does not do what MQTT 5 says: each of these exclusions is shown necessary by a
   _refuted theorem. *)

(* authentication data that is present but empty *)
Definition no_empty_auth (p : packet) : Prop := authentication_data (packet_props p) <> Some [].
(* PUBREC and PUBCOMP that would be written in the three byte form: an error code and no properties *)
Definition not_short_ack (p : packet) : Prop :=
  match p with
  | PPubRec a | PPubComp a => ak_rc a = RSuccess \/ ~ empty_props (ak_props a)
  | _ => True
  end.
(* Forms of packets that leave out reason code or properties and that the crate does not read *)
Definition not_short_form (p : packet) (body : bytes) : Prop :=
  match p with
  | PPubRec _ | PPubComp _ => len body <> 3
  | PDisconnect _ => len body <> 1
  | PAuth _ => len body <> 0
  | _ => True
  end.
(* a will with a payload format indicator *)
Definition no_will_pfi (p : packet) : Prop :=
  match p with
  | PConnect c => forall w, cn_will c = Some w -> payload_format_indicator (wl_props w) = None
  | _ => True
  end.
(* a SUBSCRIBE with several topics *)
Definition one_topic (p : packet) : Prop :=
  match p with PSubscribe s => len (sb_topics s) = 1 | _ => True end.
(* an assigned client identifier (CONNACK) *)
Definition no_assigned_id (p : packet) : Prop := assigned_client_identifier (packet_props p) = None.
(* a server reference (CONNACK, DISCONNECT) *)
Definition no_server_ref (p : packet) : Prop := server_reference (packet_props p) = None.

(* A complete frame: type byte, remaining length, as many bytes as it says *)
Definition is_frame (f : bytes) : Prop :=
  exists first enc body, f = first :: enc ++ body /\ is_varint enc /\ len body = groups_value enc.

(* 2.1.2, 2.1.3: the first bytes MQTT 5 allows *)
Definition legal_first (b : N) : bool :=
  let ty := b / 16 in let fl := b mod 16 in
  match ty with
  | 0 => false
  | 3 => true
  | 6 | 8 | 10 => fl =? 2
  | _ => (ty <? 16) && (fl =? 0)
  end.

(* ---- a receiver ------------------------------------------------------------------------------------ *)

(* The outcome of reading packets from a buffer until it asks for more or fails *)
Inductive outcome := Waiting (buf : bytes) | Failed (e : derr) | Crashed (c : crash).

(* Read packets from a buffer until there is none; [fuel] bounds the number of packets *)
Fixpoint drain_n (fuel : nat) (buf : bytes) : list packet * outcome :=
  match fuel with
  | O => ([], Crashed OutOfFuel)
  | S fuel' =>
      match read_packet buf with
      | RPacket p rest => let (ps, o) := drain_n fuel' rest in (p :: ps, o)
      | RBad e _ => ([], Failed e)
      | RMore _ rest => ([], Waiting rest)
      | RCrash c => ([], Crashed c)
      end
  end.
Definition drain (buf : bytes) : list packet * outcome := drain_n (S (length buf)) buf.

(* A receiver that appends each arriving chunk to its buffer and then reads all packets it can *)
Fixpoint feed (buf : bytes) (chunks : list bytes) : list packet * outcome :=
  match chunks with
  | [] => ([], Waiting buf)
  | c :: chunks' =>
      match drain (buf ++ c) with
      | (ps, Waiting rest) => let (ps', o) := feed rest chunks' in (ps ++ ps', o)
      | (ps, o) => (ps, o)
      end
  end.

(* ---- property sections ------------------------------------------------------------------------------- *)

(* the places where MQTT 5 has a property section *)
Inductive section :=
| SConnect | SWill | SConnAck | SPublish | SPubAck | SPubRec | SPubRel | SPubComp | SSubscribe | SSubAck
| SUnsubscribe | SUnsubAck | SDisconnect | SAuth.

(* 2.2.2.2, table 2-4: the properties of each section *)
Definition spec_allowed (s : section) (t : ptype) : bool :=
  match t with
  | PayloadFormatIndicator | MessageExpiryInterval | ContentType | ResponseTopic | CorrelationData =>
      match s with SPublish | SWill => true | _ => false end
  | SubscriptionIdentifier => match s with SPublish | SSubscribe => true | _ => false end
  | SessionExpiryInterval => match s with SConnect | SConnAck | SDisconnect => true | _ => false end
  | AssignedClientIdentifier | ServerKeepAlive | ResponseInformation | MaximumQos | RetainAvailable
  | WildcardSubscriptionAvailable | SubscriptionIdentifierAvailable | SharedSubscriptionAvailable =>
      match s with SConnAck => true | _ => false end
  | AuthenticationMethod | AuthenticationData => match s with SConnect | SConnAck | SAuth => true | _ => false end
  | RequestProblemInformation | RequestResponseInformation => match s with SConnect => true | _ => false end
  | WillDelayInterval => match s with SWill => true | _ => false end
  | ServerReference => match s with SConnAck | SDisconnect => true | _ => false end
  | ReasonString =>
      match s with
      | SConnAck | SPubAck | SPubRec | SPubRel | SPubComp | SSubAck | SUnsubAck | SDisconnect | SAuth => true
      | _ => false
      end
  | ReceiveMaximum | TopicAliasMaximum | MaximumPacketSize => match s with SConnect | SConnAck => true | _ => false end
  | TopicAlias => match s with SPublish => true | _ => false end
  | UserProperty => true
  end.

(* 2.2.2.2 and 3.3.2.3.8: the properties that may occur more than once *)
Definition spec_repeatable (s : section) (t : ptype) : bool :=
  match t, s with
  | UserProperty, _ => true
  | SubscriptionIdentifier, SPublish => true
  | _, _ => false
  end.

(* 2.2.2.2, table 2-4: the types of the properties; MQTT 5 restricts some bytes to 0, 1 (2 for the maximum QoS) *)
Definition spec_typed (i : item) : Prop :=
  match fst i, snd i with
  | (PayloadFormatIndicator | RequestProblemInformation | RequestResponseInformation), V8 n => n < 256
  | (ServerKeepAlive | ReceiveMaximum | TopicAliasMaximum | TopicAlias), V16 n => n < 65536
  | (MessageExpiryInterval | SessionExpiryInterval | WillDelayInterval | MaximumPacketSize), V32 n => n < 4294967296
  | SubscriptionIdentifier, VVar n => n <= MAXVAR
  | (ContentType | ResponseTopic | AssignedClientIdentifier | AuthenticationMethod | ResponseInformation
     | ServerReference | ReasonString), VStr s => str_ok s
  | (CorrelationData | AuthenticationData), VBin s => bin_ok s
  | MaximumQos, VQos _ => True
  | (RetainAvailable | WildcardSubscriptionAvailable | SubscriptionIdentifierAvailable
     | SharedSubscriptionAvailable), VBool _ => True
  | UserProperty, VPair k v => str_ok k /\ str_ok v
  | _, _ => False
  end.

(* A packet body with first byte [first] in which the property section [s] lists the items [its];
   what precedes the section is a well-formed start of such a packet, what follows is arbitrary. *)
Inductive carries : section -> list item -> N -> bytes -> Prop :=
| CaConnect f ka its post : f < 256 -> ka < 65536 ->
    carries SConnect its 16 (spec_data [77; 81; 84; 84] ++ [5; f] ++ spec_u16 ka ++ spec_section its ++ post)
| CaWill f ka p0 sec0 cid its post : f < 256 -> f / 4 mod 2 = 1 -> ka < 65536 -> str_ok cid ->
    props_ok connect_cfg p0 -> auth_method_ok p0 -> spec_section_of p0 sec0 ->
    carries SWill its 16 (spec_data [77; 81; 84; 84] ++ [5; f] ++ spec_u16 ka ++ sec0 ++ spec_data cid ++ spec_section its ++ post)
| CaConnAck f c its post : f < 256 -> c < 256 -> carries SConnAck its 32 ([f; c] ++ spec_section its ++ post)
| CaPublish0 fl topic its post : fl < 16 -> fl / 2 mod 4 = 0 -> str_ok topic ->
    carries SPublish its (48 + fl) (spec_data topic ++ spec_section its ++ post)
| CaPublish12 fl topic i its post : fl < 16 -> fl / 2 mod 4 <> 0 -> str_ok topic -> i < 65536 ->
    carries SPublish its (48 + fl) (spec_data topic ++ spec_u16 i ++ spec_section its ++ post)
| CaPubAck i c its : i < 65536 -> c < 256 -> carries SPubAck its 64 (spec_u16 i ++ [c] ++ spec_section its)
| CaPubRec i c its : i < 65536 -> c < 256 -> carries SPubRec its 80 (spec_u16 i ++ [c] ++ spec_section its)
| CaPubRel i c its : i < 65536 -> c < 256 -> carries SPubRel its 98 (spec_u16 i ++ [c] ++ spec_section its)
| CaPubComp i c its : i < 65536 -> c < 256 -> carries SPubComp its 112 (spec_u16 i ++ [c] ++ spec_section its)
| CaSubscribe i its post : i < 65536 -> carries SSubscribe its 130 (spec_u16 i ++ spec_section its ++ post)
| CaSubAck i its post : i < 65536 -> carries SSubAck its 144 (spec_u16 i ++ spec_section its ++ post)
| CaUnsubscribe i its post : i < 65536 -> carries SUnsubscribe its 162 (spec_u16 i ++ spec_section its ++ post)
| CaUnsubAck i its post : i < 65536 -> carries SUnsubAck its 176 (spec_u16 i ++ spec_section its ++ post)
| CaDisconnect c its post : c < 256 -> carries SDisconnect its 224 ([c] ++ spec_section its ++ post)
| CaAuth c its post : c < 256 -> carries SAuth its 240 ([c] ++ spec_section its ++ post).
