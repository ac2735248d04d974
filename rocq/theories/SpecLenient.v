(* What the decoders take for a packet: MQTT 5 with the liberties of this crate.  The definitions follow
   those of SpecCodec; each liberty is marked. *)
From Verif Require Import Base VarInt Prims Props Codes Packets SpecCodec.

(* 1.5.5 asks for the shortest form: a liberty *)
Definition int_enc (n : N) (e : bytes) : Prop := is_varint e /\ groups_value e = n.

Definition lax_val (v : pval) (b : bytes) : Prop :=
  match v with VVar n => int_enc n b | _ => b = spec_val v end.
Inductive lax_items : list item -> bytes -> Prop :=
| lax_nil : lax_items [] []
| lax_cons t v vb its b : lax_val v vb -> lax_items its b -> lax_items ((t, v) :: its) (spec_id t :: vb ++ b).

Inductive reader := FromBuffer | FromStream.

(* The items are those of the struct.  A liberty of the stream readers: of several subscription
   identifiers where one is allowed the last counts. *)
Definition holds (rd : reader) (its : list item) (p : props) : Prop :=
  (forall t, t <> SubscriptionIdentifier -> vals t its = prop_vals t p) /\
  match rd with
  | FromBuffer => vals SubscriptionIdentifier its = prop_vals SubscriptionIdentifier p
  | FromStream => exists l, vals SubscriptionIdentifier its = map VVar l ++ prop_vals SubscriptionIdentifier p /\
                            (subscription_identifier p = None -> l = [])
  end.

(* A liberty of the buffer readers of PUBACK, PUBREC, PUBREL and PUBCOMP ([ack]): the properties go to
   the end of the packet, whatever the property length, if it is not zero or too large. *)
Definition lax_section (rd : reader) (ack : bool) (p : props) (b : bytes) : Prop :=
  exists its e ib, lax_items its ib /\ holds rd its p /\ b = e ++ ib /\ is_varint e /\
    match rd, ack with
    | FromBuffer, true => groups_value e <= len ib /\ (groups_value e = 0 -> ib = [])
    | _, _ => groups_value e = len ib
    end.

(* Bit 0 and, without a will, bits 3 to 5 are not looked at: a liberty.  But 3 is no QoS. *)
Definition lax_cflags (c : connect) (f : N) : Prop :=
  N.testbit f 7 = is_some (cn_username c) /\ N.testbit f 6 = is_some (cn_password c) /\
  N.testbit f 2 = is_some (cn_will c) /\ N.testbit f 1 = cn_clean_start c /\ f / 8 mod 4 <= 2 /\ f < 256 /\
  forall w, cn_will c = Some w -> N.testbit f 5 = wl_retain w /\ f / 8 mod 4 = spec_qos (wl_qos w).

Definition lax_will (rd : reader) (w : will) (b : bytes) : Prop :=
  exists sec, lax_section rd false (wl_props w) sec /\ b = sec ++ spec_data (wl_topic w) ++ spec_data (wl_payload w).

Definition lax_ack (rd : reader) (t : pkt_type) (a : ack) (b : bytes) : Prop :=
  (ak_rc a = RSuccess /\ empty_props (ak_props a) /\ b = spec_u16 (ak_id a)) \/
  (In t [TPubAck; TPubRel] /\ empty_props (ak_props a) /\ b = spec_u16 (ak_id a) ++ [spec_rc (ak_rc a)]) \/
  (exists sec, lax_section rd true (ak_props a) sec /\ b = spec_u16 (ak_id a) ++ [spec_rc (ak_rc a)] ++ sec).

(* bits 6 and 7 are not looked at: a liberty *)
Inductive lax_topics : list (bytes * sopts) -> bytes -> Prop :=
| lax_none : lax_topics [] []
| lax_topic t o v l b : v < 256 -> v mod 64 = spec_sopts o -> lax_topics l b ->
    lax_topics ((t, o) :: l) (spec_data t ++ [v] ++ b).

Definition lax_body (rd : reader) (p : packet) (b : bytes) : Prop :=
  match p with
  | PConnect c =>
      exists sec wl f, lax_section rd false (cn_props c) sec /\ lax_cflags c f /\
        match cn_will c with Some w => lax_will rd w wl | None => wl = [] end /\
        b = spec_data [77; 81; 84; 84] ++ [5] ++ [f] ++ spec_u16 (cn_keep_alive c) ++ sec
            ++ spec_data (cn_client_id c) ++ wl ++ spec_opt (cn_username c) ++ spec_opt (cn_password c)
  | PConnAck c => (* bits 1 to 7 of the flags are not looked at: a liberty *)
      exists sec f, lax_section rd false (ca_props c) sec /\ f < 256 /\ f mod 2 = spec_bit (ca_session_present c) /\
        b = [f; spec_rc (ca_rc c)] ++ sec
  | PPublish p =>
      exists sec, lax_section rd false (pb_props p) sec /\
        b = spec_data (pb_topic p) ++ match pb_pkid p with Some i => spec_u16 i | None => [] end
            ++ sec ++ pb_payload p
  | PPubAck a | PPubRec a | PPubRel a | PPubComp a => lax_ack rd (type_of p) a b
  | PSubscribe s =>
      exists sec tb, lax_section rd false (sb_props s) sec /\ lax_topics (sb_topics s) tb /\
        b = spec_u16 (sb_id s) ++ sec ++ tb
  | PSubAck s | PUnsubAck s =>
      exists sec, lax_section rd false (sa_props s) sec /\
        b = spec_u16 (sa_id s) ++ sec ++ map spec_rc (sa_codes s)
  | PUnsubscribe u =>
      exists sec, lax_section rd false (ub_props u) sec /\
        b = spec_u16 (ub_id u) ++ sec ++ concat (map spec_data (ub_topics u))
  | PPingReq | PPingResp => b = []
  | PDisconnect d =>
      (dc_rc d = RNormalDisconnection /\ empty_props (dc_props d) /\ b = []) \/
      (exists sec, lax_section rd false (dc_props d) sec /\ b = [spec_rc (dc_rc d)] ++ sec)
  | PAuth d => exists sec, lax_section rd false (dc_props d) sec /\ b = [spec_rc (dc_rc d)] ++ sec
  end.
