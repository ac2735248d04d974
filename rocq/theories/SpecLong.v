(* C16: the strings and binary fields of a packet, of any length. *)
From Verif Require Import Base VarInt Prims Props Codes Packets SpecCodec.

Definition prop_fields (p : props) : list bytes :=
  opt_list (content_type p) ++ opt_list (response_topic p) ++ opt_list (correlation_data p) ++ opt_list (assigned_client_identifier p) ++
  opt_list (authentication_method p) ++ opt_list (authentication_data p) ++ opt_list (response_info p) ++ opt_list (server_reference p) ++
  opt_list (reason_string p) ++ flat_map (fun kv => [fst kv; snd kv]) (user_properties p).
Definition will_fields (w : will) : list bytes := wl_topic w :: wl_payload w :: prop_fields (wl_props w).
(* the payload of PUBLISH is not one of them: it has no length of its own *)
Definition fields (p : packet) : list bytes :=
  prop_fields (packet_props p) ++
  match p with
  | PConnect c => [cn_client_id c] ++ match cn_will c with Some w => will_fields w | None => [] end ++ opt_list (cn_username c) ++ opt_list (cn_password c)
  | PPublish x => [pb_topic x]
  | PSubscribe s => map fst (sb_topics s)
  | PUnsubscribe u => ub_topics u
  | _ => []
  end.
Definition short (x : bytes) : Prop := len x <= 65535.

(* packet_ok (SpecCodec.v) without the lengths: what the Rust types say *)
Definition val_typed (v : pval) : Prop :=
  match v with
  | V8 n => n < 256
  | V16 n => n < 65536
  | V32 n => n < 4294967296
  | VVar n => n <= MAXVAR
  | VStr s => utf8 s
  | VBin s => all_bytes s
  | VPair k v => utf8 k /\ utf8 v
  | VQos _ | VBool _ => True
  end.
Definition props_typed (cfg : pcfg) (p : props) : Prop :=
  (forall t v, get_prop t p = Some v -> In t (c_decl cfg) /\ val_typed v) /\
  Forall (fun kv => utf8 (fst kv) /\ utf8 (snd kv)) (user_properties p) /\
  (user_properties p <> [] -> In UserProperty (c_decl cfg)) /\
  Forall (fun n => n <= MAXVAR) (subscription_identifiers p) /\
  (subscription_identifiers p <> [] -> In SubscriptionIdentifier (c_decl cfg) /\ c_sublist cfg = true) /\
  (c_sublist cfg = true -> subscription_identifier p = None).
Definition will_typed (w : will) : Prop := props_typed will_cfg (wl_props w) /\ utf8 (wl_topic w) /\ all_bytes (wl_payload w).
Definition ack_typed (tbl : list rc) (cfg : pcfg) (a : ack) : Prop := ak_id a < 65536 /\ In (ak_rc a) tbl /\ props_typed cfg (ak_props a).
Definition suback_typed (tbl : list rc) (cfg : pcfg) (s : suback) : Prop := sa_id s < 65536 /\ props_typed cfg (sa_props s) /\ Forall (fun c => In c tbl) (sa_codes s).
Definition typed (p : packet) : Prop :=
  match p with
  | PConnect c =>
      cn_keep_alive c < 65536 /\ props_typed connect_cfg (cn_props c) /\ opt_ok will_typed (cn_will c) /\
      opt_ok utf8 (cn_username c) /\ opt_ok utf8 (cn_password c) /\ utf8 (cn_client_id c)
  | PConnAck c => In (ca_rc c) connack_codes /\ props_typed connack_cfg (ca_props c)
  | PPublish x =>
      utf8 (pb_topic x) /\ opt_ok (fun i => i < 65536) (pb_pkid x) /\ (pb_pkid x = None <-> pb_qos x = AtMostOnce) /\
      props_typed publish_cfg (pb_props x) /\ all_bytes (pb_payload x)
  | PPubAck a => ack_typed puback_codes puback_cfg a
  | PPubRec a => ack_typed pubrec_codes pubrec_cfg a
  | PPubRel a => ack_typed pubrel_codes pubrel_cfg a
  | PPubComp a => ack_typed pubcomp_codes pubcomp_cfg a
  | PSubscribe s => sb_id s < 65536 /\ props_typed subscribe_cfg (sb_props s) /\ Forall (fun t => utf8 (fst t)) (sb_topics s)
  | PSubAck s => suback_typed suback_codes suback_cfg s
  | PUnsubscribe u => ub_id u < 65536 /\ props_typed unsubscribe_cfg (ub_props u) /\ Forall utf8 (ub_topics u)
  | PUnsubAck u => suback_typed unsuback_codes unsuback_cfg u
  | PPingReq | PPingResp => True
  | PDisconnect d => In (dc_rc d) disconnect_codes /\ props_typed disconnect_cfg (dc_props d)
  | PAuth a => In (dc_rc a) auth_codes /\ props_typed auth_cfg (dc_props a)
  end.
