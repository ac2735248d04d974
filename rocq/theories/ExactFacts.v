(* The exclusions of the codec theorems are exact: a packet outside of them does not survive. *)
From Verif Require Import Base VarInt Prims Props Codes Packets SpecCodec BaseFacts VarIntFacts PrimFacts PropsFacts PacketFacts EncFacts CodecFacts CodecMore Check FrameFacts InjFacts GoodFacts CountFacts Witness.

(* ---- the packet without its authentication data ---- *)
Definition clear (p : props) : props :=
  Props (payload_format_indicator p) (message_expiry_interval p) (content_type p) (response_topic p)
    (correlation_data p) (subscription_identifier p) (session_expiry_interval p)
    (assigned_client_identifier p) (server_keep_alive p) (authentication_method p) None
    (request_problem_information p) (will_delay_interval p) (request_response_information p)
    (response_info p) (server_reference p) (reason_string p) (receive_maximum p) (topic_alias_maximum
    p) (topic_alias p) (maximum_qos p) (retain_available p) (user_properties p) (maximum_packet_size
    p) (wildcards_available p) (subscription_ids_available p) (shared_subscription_available p)
    (subscription_identifiers p).
Definition cleared (p : packet) : packet :=
  match p with
  | PConnect c => PConnect (Connect (cn_clean_start c) (cn_will c) (cn_username c) (cn_password c) (cn_keep_alive c) (clear (cn_props c)) (cn_client_id c))
  | PConnAck c => PConnAck (ConnAck (ca_session_present c) (ca_rc c) (clear (ca_props c)))
  | PAuth d => PAuth (Disconnect (dc_rc d) (clear (dc_props d)))
  | _ => p
  end.

Lemma clear_get t p : t <> AuthenticationData -> get_prop t (clear p) = get_prop t p.
Proof. destruct t; intros H; try reflexivity. congruence. Qed.
Lemma clear_items cfg t p : t <> AuthenticationData -> items cfg t (clear p) = items cfg t p.
Proof. destruct t; intros H; try reflexivity. congruence. Qed.
Lemma empty_unwritten p : authentication_data p = Some [] -> auth_data_written p = false.
Proof. unfold auth_data_written. now intros ->. Qed.
Lemma clear_len_t cfg p t : authentication_data p = Some [] -> type_len cfg (clear p) t = type_len cfg p t.
Proof.
  intros H. destruct t; try reflexivity. unfold type_len. now rewrite (empty_unwritten p H).
Qed.
Lemma clear_len cfg p : authentication_data p = Some [] -> props_len cfg (clear p) = props_len cfg p.
Proof. intros H. unfold props_len. f_equal. apply map_ext. intros t. now apply clear_len_t. Qed.
Lemma clear_section cfg p : authentication_data p = Some [] -> section_len cfg (clear p) = section_len cfg p.
Proof. intros H. unfold section_len. now rewrite clear_len. Qed.
Lemma clear_ok cfg p : props_ok cfg p -> props_ok cfg (clear p).
Proof.
  intros (A & B & C & D & E & F). split; [|now repeat apply conj]. intros t v H. apply A.
  rewrite <- (clear_get t p); [assumption|]. intros ->. discriminate.
Qed.
Lemma awrite_type_clear cfg p t : authentication_data p = Some [] -> awrite_type cfg (clear p) t = awrite_type cfg p t.
Proof. intros H. destruct t; try reflexivity. unfold awrite_type. now rewrite (empty_unwritten p H). Qed.
Lemma awrite_props_clear cfg p : authentication_data p = Some [] -> awrite_props cfg (clear p) = awrite_props cfg p.
Proof.
  intros H. unfold awrite_props. rewrite clear_len by assumption. f_equal. f_equal. apply map_ext. intros t.
  now apply awrite_type_clear.
Qed.
Lemma write_type_clear cfg p t : c_auth_strict cfg = false -> authentication_data p = Some [] -> write_type cfg (clear p) t = write_type cfg p t.
Proof. intros S H. destruct t; try reflexivity. unfold write_type. now rewrite S, (empty_unwritten p H). Qed.
Lemma write_props_clear cfg p : c_auth_strict cfg = false -> authentication_data p = Some [] -> write_props cfg (clear p) = write_props cfg p.
Proof.
  intros S H. unfold write_props. rewrite clear_len by assumption. f_equal. f_equal. apply map_ext. intros t.
  now apply write_type_clear.
Qed.


Lemma auth_types p : packet_ok p -> authentication_data (packet_props p) = Some [] ->
  (exists c, p = PConnect c) \/ (exists c, p = PConnAck c) \/ (exists d, p = PAuth d).
Proof.
  intros HO H.
  assert (U : forall cfg q, props_ok cfg q -> ~ In AuthenticationData (c_decl cfg) -> authentication_data q <> Some []).
  { intros cfg q HP HN E. pose proof (undeclared_none _ _ _ HP HN) as U. cbn in U. rewrite E in U. discriminate U. }
  destruct p; cbn [packet_ok packet_props] in *; eauto; exfalso; try discriminate H;
    (eapply U; [|shelve|exact H]); eapply HO.
  Unshelve. all: cbn; intuition discriminate.
Qed.
Lemma cleared_wf p : well_formed p -> well_formed (cleared p).
Proof.
  intros (HO & HM). split.
  - destruct p; cbn [cleared packet_ok] in *; try assumption.
    + destruct HO as (A & B & C). exact (conj A (conj (clear_ok _ _ B) C)).
    + destruct HO as (A & B). exact (conj A (clear_ok _ _ B)).
    + destruct HO as (A & B). exact (conj A (clear_ok _ _ B)).
  - destruct p; cbn [cleared packet_props] in *; try assumption; unfold auth_method_ok; cbn; congruence.
Qed.
Lemma cleared_no_auth p : packet_ok p -> authentication_data (packet_props p) = Some [] -> no_empty_auth (cleared p) /\ cleared p <> p.
Proof.
  intros HO H. destruct (auth_types p HO H) as [(c & ->)|[(c & ->)|(d & ->)]]; (split; [unfold no_empty_auth; cbn; discriminate|]);
    intros E; apply (f_equal packet_props) in E; cbn [cleared packet_props cn_props ca_props dc_props] in *;
    rewrite <- E in H; discriminate H.
Qed.
Lemma cleared_len p : authentication_data (packet_props p) = Some [] -> body_len (cleared p) = body_len p.
Proof.
  intros H. destruct p; try reflexivity; cbn [cleared body_len packet_props] in *;
    unfold connect_len, connack_len, auth_len; cbn [cn_props ca_props dc_props cn_client_id cn_will cn_username cn_password];
    now rewrite clear_section.
Qed.
Lemma cleared_first p : first_byte (cleared p) = first_byte p.
Proof. destruct p; reflexivity. Qed.
Lemma cleared_awrite p : authentication_data (packet_props p) = Some [] -> awrite_packet (cleared p) = awrite_packet p.
Proof.
  intros H. pose proof (cleared_len p H) as L. pose proof (cleared_first p) as F.
  destruct p; try reflexivity; unfold awrite_packet; cbn [cleared packet_props] in *; rewrite L; f_equal; cbn [awrite_body].
  - unfold awrite_connect. cbn [cn_props]. now rewrite awrite_props_clear.
  - unfold awrite_connack. cbn [ca_props ca_rc ca_session_present]. now rewrite awrite_props_clear.
  - unfold awrite_auth. cbn [dc_props dc_rc]. now rewrite awrite_props_clear.
Qed.
Lemma cleared_write_auth d : authentication_data (dc_props d) = Some [] -> write_packet (cleared (PAuth d)) = write_packet (PAuth d).
Proof.
  intros H. pose proof (cleared_len (PAuth d) H) as L. unfold write_packet. cbn [cleared] in *. rewrite L. f_equal.
  cbn [write_body]. unfold write_auth. cbn [dc_props dc_rc]. now rewrite write_props_clear.
Qed.

(* ---- lengths ---- *)
Lemma w_seq_bytes a b : w_err (a >>> b) = None -> w_bytes (a >>> b) = w_bytes a ++ w_bytes b.
Proof. unfold w_seq. destruct (w_err a) eqn:E; cbn; [congruence|reflexivity]. Qed.
Lemma w_seq_blen a b : w_err (a >>> b) = None -> len (w_bytes (a >>> b)) = len (w_bytes a) + len (w_bytes b).
Proof. intros H. rewrite w_seq_bytes by assumption. apply len_app. Qed.

Lemma not_frame_len f n body : n <= MAXVAR -> len body <> n -> ~ is_frame (f :: spec_varint n ++ body).
Proof.
  intros HN HL (f' & enc & body' & E & HV & HG). inversion E as [[E1 E2]]. destruct (spec_varint_is_varint n HN) as [V G].
  destruct (varint_prefix _ _ _ _ V HV E2) as [<- <-]. congruence.
Qed.

Lemma strict_props cfg p l : c_auth_strict cfg = true -> c_order cfg = l ++ [AuthenticationData] -> ~ In AuthenticationData l ->
  authentication_data p = Some [] -> authentication_method p <> None ->
  write_props cfg p = write_props cfg (clear p) >>> w_put [22; 0; 0].
Proof.
  intros S O NI H M. unfold write_props. rewrite clear_len by assumption. rewrite w_seq_assoc. f_equal. rewrite O, !map_app.
  assert (C : forall a b, w_concat (a ++ b) = w_concat a >>> w_concat b).
  { induction a as [|x a IH]; intros b; [symmetry; apply w_seq_nil_l|].
    change (x >>> w_concat (a ++ b) = (x >>> w_concat a) >>> w_concat b). rewrite IH. now rewrite w_seq_assoc. }
  rewrite !C. rewrite w_seq_assoc. f_equal.
  - f_equal. apply map_ext_in. intros t Ht. destruct t; try reflexivity. contradiction.
  - cbn [map w_concat fold_right]. rewrite !w_seq_nil_r. unfold write_type. rewrite S.
    destruct (authentication_method p) as [m|]; [|congruence].
    unfold items, get_prop. cbn [clear authentication_data authentication_method]. rewrite H. reflexivity.
Qed.
Lemma strict_body p : well_formed p -> authentication_data (packet_props p) = Some [] -> (forall d, p <> PAuth d) ->
  w_err (write_packet p) = None ->
  exists body, w_bytes (write_packet p) = spec_first p :: spec_varint (body_len p) ++ body /\ len body = body_len p + 3.
Proof.
  intros HW H NA HE. pose proof (write_ok_len _ HE) as HL. pose proof HW as (HO & HM).
  assert (M : authentication_method (packet_props p) <> None) by (apply HM; rewrite H; discriminate).
  pose proof (cleared_wf p HW) as CW. destruct (cleared_no_auth p HO H) as [CN _].
  assert (CB : write_body (cleared p) = w_put (enc_body c_order (cleared p))).
  { apply write_body_spec; [apply CW|now apply wf_auth|]. now rewrite cleared_len. }
  assert (CL : len (enc_body c_order (cleared p)) = body_len p).
  { rewrite <- (cleared_len p H). symmetry. apply body_len_spec; [now left|apply CW|now apply wf_auth]. }
  assert (B : w_err (write_body p) = None /\ len (w_bytes (write_body p)) = len (w_bytes (write_body (cleared p))) + 3).
  { assert (EB : w_err (write_body p) = None).
    { destruct (auth_types p HO H) as [(c & ->)|[(c & ->)|(d & ->)]]; [| |now destruct (NA d)];
        unfold write_packet in HE; now apply w_seq_err in HE as [_ HE]. }
    split; [assumption|].
    destruct (auth_types p HO H) as [(c & ->)|[(c & ->)|(d & ->)]]; [| |now destruct (NA d)];
      cbn [cleared write_body packet_props] in *.
    - assert (X : w_err (write_connect (Connect (cn_clean_start c) (cn_will c) (cn_username c) (cn_password c) (cn_keep_alive c) (clear (cn_props c)) (cn_client_id c))) = None)
        by (rewrite CB; reflexivity).
      unfold write_connect in *. cbn [cn_clean_start cn_will cn_username cn_password cn_keep_alive cn_props cn_client_id] in *.
      rewrite (strict_props connect_cfg (cn_props c) [SessionExpiryInterval; ReceiveMaximum; MaximumPacketSize; TopicAliasMaximum;
            RequestResponseInformation; RequestProblemInformation; UserProperty; AuthenticationMethod]) in EB |- *
        by (reflexivity || assumption || (cbn; intuition discriminate)).
      change (connect_flags _) with (connect_flags c) in X.
      change (connect_flags {| cn_clean_start := cn_clean_start c; cn_will := cn_will c; cn_username := cn_username c; cn_password := cn_password c;
        cn_keep_alive := cn_keep_alive c; cn_props := clear (cn_props c); cn_client_id := cn_client_id c |}) with (connect_flags c).
      rewrite !w_seq_blen by (repeat match goal with H : w_err (_ >>> _) = None |- _ => first [exact H | apply w_seq_err in H as [H _]] end).
      cbn [w_put w_bytes]. rewrite !(@len_cons N), (@len_nil N). lia.
    - assert (X : w_err (write_connack (ConnAck (ca_session_present c) (ca_rc c) (clear (ca_props c)))) = None)
        by (rewrite CB; reflexivity).
      unfold write_connack in *. cbn [ca_session_present ca_rc ca_props] in *.
      rewrite (strict_props connack_cfg (ca_props c) [SessionExpiryInterval; ReceiveMaximum; MaximumQos; RetainAvailable; MaximumPacketSize;
            AssignedClientIdentifier; TopicAliasMaximum; ReasonString; UserProperty;
            WildcardSubscriptionAvailable; SubscriptionIdentifierAvailable;
            SharedSubscriptionAvailable; ServerKeepAlive; ResponseInformation; ServerReference;
            AuthenticationMethod]) in EB |- *
        by (reflexivity || assumption || (cbn; intuition discriminate)).
      rewrite <- !w_seq_assoc in EB |- *. rewrite (w_seq_blen _ (w_put [22; 0; 0])) by exact EB. reflexivity. }
  destruct B as [BE BL]. rewrite CB in BL. cbn [w_put w_bytes] in BL. rewrite CL in BL.
  exists (w_bytes (write_body p)). split; [|assumption].
  assert (P : write_packet p = w_put [first_byte p] >>> write_varint (body_len p) >>> write_body p)
    by (destruct (auth_types p HO H) as [(c & ->)|[(c & ->)|(d & ->)]]; reflexivity).
  rewrite P in HE |- *. rewrite w_seq_bytes by exact HE. rewrite write_varint_spec, w_seq_put by exact HL.
  cbn [w_put w_bytes]. rewrite first_byte_spec. reflexivity.
Qed.

(* The stream writer leaves the assigned client identifier out *)
Definition unassigned (p : props) (t : ptype) : bytes :=
  match t with AssignedClientIdentifier => [] | _ => spec_items (map (pair t) (prop_vals t p)) end.
Lemma awrite_type_any cfg p t : props_ok cfg p -> auth_ok p -> w_like (unassigned p t) False (awrite_type cfg p t).
Proof.
  intros HP HA. unfold awrite_type, unassigned. rewrite (items_prop_vals cfg t p (props_ok_unused _ _ HP)).
  rewrite (w_concat_items cfg p t awrite_val HP awrite_val_spec).
  destruct t; try apply w_like_put.
  - rewrite (auth_written p HA). cbn [prop_vals get_prop].
    destruct (authentication_data p); [apply w_like_put|apply w_like_nil].
  - repeat split. contradiction.
Qed.
Lemma unassigned_len p s : props_ok connack_cfg p -> auth_ok p -> assigned_client_identifier p = Some s ->
  len (concat (map (unassigned p) (c_decl connack_cfg))) + (3 + len s) = props_len connack_cfg p.
Proof.
  intros HP HA H. rewrite (props_len_spec connack_cfg p HP HA), <- concat_spec_items.
  cbn [connack_cfg c_decl map concat unassigned]. rewrite !len_app, ?(@len_nil N).
  replace (len (spec_items (map (pair AssignedClientIdentifier) (prop_vals AssignedClientIdentifier p)))) with (3 + len s); [lia|].
  cbn [prop_vals get_prop]. rewrite H. cbn [option_map opt_list map].
  unfold spec_items. cbn [map concat]. rewrite app_nil_r. unfold spec_item. cbn [fst snd spec_val].
  unfold spec_data. rewrite (@len_cons N), len_app, spec_u16_len. lia.
Qed.
Lemma assigned_body c s : well_formed (PConnAck c) -> assigned_client_identifier (ca_props c) = Some s ->
  w_err (awrite_packet (PConnAck c)) = None ->
  exists body, w_bytes (awrite_packet (PConnAck c)) = spec_first (PConnAck c) :: spec_varint (body_len (PConnAck c)) ++ body /\
    len body + (3 + len s) = body_len (PConnAck c).
Proof.
  intros HW H HE. pose proof (awrite_ok_len _ HE) as HL.
  assert (G : forall c, well_formed (PConnAck c) -> no_empty_auth (PConnAck c) -> assigned_client_identifier (ca_props c) = Some s ->
    body_len (PConnAck c) <= MAXVAR ->
    exists body, w_bytes (awrite_packet (PConnAck c)) = spec_first (PConnAck c) :: spec_varint (body_len (PConnAck c)) ++ body /\
    len body + (3 + len s) = body_len (PConnAck c)).
  { clear. intros c HW HN H HL. pose proof (wf_auth _ HW HN) as HA. destruct HW as ((HC & HP) & HM). cbn [packet_auth_ok] in HA.
    pose proof (unassigned_len _ _ HP HA H) as UL.
    assert (PL : props_len connack_cfg (ca_props c) <= MAXVAR) by (cbn [body_len] in HL; unfold connack_len in HL; apply props_len_le; lia).
    assert (WP : w_like (spec_varint (props_len connack_cfg (ca_props c)) ++ concat (map (unassigned (ca_props c)) (c_decl connack_cfg))) False (awrite_props connack_cfg (ca_props c))).
    { unfold awrite_props. rewrite awrite_varint_spec by assumption. apply w_like_seq; [apply w_like_put|].
      apply w_like_concat. intros t _. now apply awrite_type_any. }
    unfold awrite_packet. cbn [awrite_body]. rewrite awrite_varint_spec by assumption. unfold awrite_connack, write_rc.
    rewrite !w_seq_assoc. 
    eexists. split.
    - rewrite !w_seq_put || idtac.
      match goal with |- w_bytes ?w = _ => assert (X : w_like ([first_byte (PConnAck c)] ++ spec_varint (body_len (PConnAck c)) ++
        [if ca_session_present c then 1 else 0] ++ [rc_to_u8 (ca_rc c)] ++
        spec_varint (props_len connack_cfg (ca_props c)) ++ concat (map (unassigned (ca_props c)) (c_decl connack_cfg))) False w) end.
      { repeat first [exact WP | apply w_like_seq; [apply w_like_put|]]. }
      destruct X as [-> _]. rewrite first_byte_spec. reflexivity.
    - cbn [body_len]. unfold connack_len, section_len. rewrite !len_app, !(@len_cons N), !(@len_nil N), spec_varint_len. lia. }
  destruct (authentication_data (ca_props c)) as [[|x d]|] eqn:E.
  - pose proof (cleared_awrite (PConnAck c) E) as CA. pose proof (cleared_len (PConnAck c) E) as CL.
    destruct (cleared_no_auth (PConnAck c) (proj1 HW) E) as [CN _].
    cbn [cleared] in *. destruct (G _ (cleared_wf _ HW) CN H) as (body & B1 & B2); [now rewrite CL|].
    exists body. rewrite <- CA, <- CL. now split.
  - apply (G c); auto. unfold no_empty_auth. cbn. rewrite E. discriminate.
  - apply (G c); auto. unfold no_empty_auth. cbn. rewrite E. discriminate.
Qed.
Lemma assigned_type p s : packet_ok p -> assigned_client_identifier (packet_props p) = Some s -> exists c, p = PConnAck c.
Proof.
  intros HO H.
  assert (U : forall cfg q, props_ok cfg q -> ~ In AssignedClientIdentifier (c_decl cfg) -> assigned_client_identifier q <> Some s).
  { intros cfg q HP HN E. pose proof (undeclared_none _ _ _ HP HN) as U. cbn in U. rewrite E in U. discriminate U. }
  destruct p; cbn [packet_ok packet_props] in *; eauto; exfalso; try discriminate H;
    (eapply U; [|shelve|exact H]); eapply HO.
  Unshelve. all: cbn; intuition discriminate.
Qed.

(* ---- reading ---- *)
Lemma read_whole p n body : n <= MAXVAR -> read_packet (spec_first p :: spec_varint n ++ body) = RPacket p [] -> len body = n.
Proof.
  intros HN H. destruct (spec_varint_is_varint n HN) as [V G]. pose proof (first_byte_read p) as F.
  destruct (N.lt_trichotomy (len body) n) as [L|[L|L]]; [exfalso|assumption|exfalso].
  - rewrite (read_incomplete _ _ _ _ _ F V) in H by (rewrite G; assumption). discriminate.
  - rewrite <- (take_drop body n) in H. rewrite (read_complete _ _ _ _ _ _ F V) in H by (rewrite G; apply len_take; lia).
    unfold body_result in H. destruct (read_body _ _) as [[q ?]|e|c]; try discriminate. injection H as _ H.
    apply (f_equal len) in H. rewrite len_drop, (@len_nil N) in H. lia.
Qed.
Lemma aread_whole p n m body : n <= MAXVAR -> aread_packet (spec_first p :: spec_varint n ++ body) = AOk p m [] ->
  aread_body (FH (type_of p) (spec_flags p) n) body = AOk p m [] /\ len body = m.
Proof.
  intros HN H. unfold aread_packet in H. rewrite aread_fixed_header_ok in H by assumption. cbn [abind] in H.
  split; [assumption|]. apply count_body in H as [H _]. rewrite (@len_nil N) in H. lia.
Qed.

(* a will read by the buffer reader has no payload format indicator *)
Lemma store_pfi cfg t v p : t <> PayloadFormatIndicator -> payload_format_indicator (store cfg t v p) = payload_format_indicator p.
Proof. intros H. destruct t; try congruence; destruct v; try reflexivity. cbn [store]. destruct (c_sublist cfg); reflexivity. Qed.
Lemma pfi_loop cfg : c_pfi_inverted cfg = true -> forall fuel p b q r, payload_format_indicator p = None ->
  read_props_loop fuel cfg p b = Ok (q, r) -> payload_format_indicator q = None.
Proof.
  intros HI. induction fuel as [|f IH]; intros p b q r HP H; [discriminate|]. cbn [read_props_loop] in H.
  destruct (read_ptype b) as [[t b1]|e|c]; cbn [bind] in H; try discriminate.
  destruct (negb (declares cfg t)); [discriminate|]. destruct (is_dup cfg t p) eqn:D; [discriminate|].
  assert (T : t <> PayloadFormatIndicator) by (intros ->; cbn in D; rewrite HI, HP in D; discriminate D).
  destruct (read_val (c_unchecked cfg) (kind_of t) b1) as [[v b2]|e|c]; cbn [bind] in H; try discriminate.
  cbv zeta in H. destruct (len b2 =? 0).
  - injection H as <- <-. now rewrite store_pfi.
  - apply (IH _ _ _ _ (eq_trans (store_pfi cfg t v p T) HP) H).
Qed.
Lemma pfi_props cfg b q r : c_pfi_inverted cfg = true -> read_props cfg b = Ok (q, r) -> payload_format_indicator q = None.
Proof.
  intros HI H. unfold read_props in H. destruct (read_varint b) as [[[n l] b1]|e|c]; cbn [bind] in H; try discriminate.
  destruct (n =? 0); [now injection H as <- <-|]. destruct (len b1 <? n); [discriminate|].
  destruct (read_props_loop _ _ _ _) as [[p b2]|e|c] eqn:L in H; cbn [bind] in H; try discriminate.
  destruct (post_check cfg p); [|discriminate]. injection H as <- <-. now apply (pfi_loop cfg HI) in L.
Qed.
Lemma pfi_connect b c r : read_connect b = Ok (c, r) -> forall w, cn_will c = Some w -> payload_format_indicator (wl_props w) = None.
Proof.
  intros H w HW. unfold read_connect in H.
  destruct (read_bin b) as [[name b1]|e|k]; cbn [bind] in H; try discriminate.
  destruct (negb (bytes_eqb name mqtt_name)); [discriminate|].
  destruct (read_protocol_version b1) as [b2|e|k]; cbn [bind] in H; try discriminate.
  destruct (read_cflags b2) as [[f b3]|e|k]; cbn [bind] in H; try discriminate.
  destruct (get_u16 b3) as [[ka b4]|e|k]; cbn [bind] in H; try discriminate.
  destruct (read_props connect_cfg b4) as [[p b5]|e|k]; cbn [bind] in H; try discriminate.
  destruct (read_str b5) as [[cid b6]|e|k]; cbn [bind] in H; try discriminate.
  destruct (cf_will f).
  - unfold read_will in H. destruct (read_props will_cfg b6) as [[wp b7]|e|k] eqn:EP; cbn [bind] in H; try discriminate.
    destruct (read_str b7) as [[tp b8]|e|k]; cbn [bind] in H; try discriminate.
    destruct (read_bin b8) as [[pl b9]|e|k]; cbn [bind] in H; try discriminate.
    destruct (read_opt_str (cf_username f) b9) as [[u b10]|e|k]; cbn [bind] in H; try discriminate.
    destruct (read_opt_str (cf_password f) b10) as [[pw b11]|e|k]; cbn [bind] in H; try discriminate.
    injection H as <- <-. cbn [cn_will] in HW. injection HW as <-. cbn [wl_props]. now apply (pfi_props will_cfg) in EP.
  - cbn [bind] in H. destruct (read_opt_str (cf_username f) b6) as [[u b10]|e|k]; cbn [bind] in H; try discriminate.
    destruct (read_opt_str (cf_password f) b10) as [[pw b11]|e|k]; cbn [bind] in H; try discriminate.
    injection H as <- <-. discriminate.
Qed.
Lemma pfi_never b p r : read_packet b = RPacket p r -> no_will_pfi p.
Proof.
  intros H. destruct p as [c| | | | | | | | | | | | | |]; try exact I. intros w HW. unfold read_packet in H.
  destruct (read_fixed_header b) as [[h n]|e|n]; try discriminate.
  destruct (len b <? _); [discriminate|]. cbv zeta in H.
  destruct (read_body h _) as [[q b']|e|k] eqn:B in H; try discriminate. injection H as -> _.
  unfold read_body in B. destruct (fh_type h); try discriminate;
    match type of B with rmap _ ?m = _ => destruct m as [[x y]|e|k] eqn:E; cbn [rmap] in B; try discriminate end.
  injection B as -> _. eapply pfi_connect; eauto.
Qed.

(* the stream reader goes beyond the packet when it reads several topics *)
Lemma sub_topics_many : forall fuel rem total s l n r, aread_sub_topics fuel rem total s = AOk l n r ->
  total <= n /\ l <> [] /\ (len l <> 1 -> rem < n).
Proof.
  induction fuel as [|f IH]; intros rem total s l n r H; [discriminate|]. cbn [aread_sub_topics] in H.
  apply abind_ok in H as (t & n1 & s1 & E1 & H). apply abind_ok in H as (o & n2 & s2 & E2 & H). cbv zeta in H.
  destruct (total + (n1 + n2) <=? rem) eqn:L.
  - injection H as <- <- <-. split; [lia|]. split; [discriminate|]. intros X. now destruct X.
  - apply abind_ok in H as (l' & n' & s3 & E3 & H). apply IH in E3 as (A & B & C). injection H as <- <- <-.
    split; [lia|]. split; [discriminate|]. intros _. lia.
Qed.

(* ---- the exclusions ---- *)
Lemma not_short_dec p : packet_ok p -> not_short_ack p \/
  exists a, (p = PPubRec a \/ p = PPubComp a) /\ forall sel, enc_body sel p = spec_u16 (ak_id a) ++ [spec_rc (ak_rc a)].
Proof.
  intros HO. assert (D : forall a, (ak_rc a = RSuccess \/ ~ empty_props (ak_props a)) \/
    forall sel cfg, enc_ack sel cfg a = spec_u16 (ak_id a) ++ [spec_rc (ak_rc a)]).
  { intros a. unfold enc_ack. destruct (rc_eqb (ak_rc a) RSuccess) eqn:E; [left; left; now apply rc_eqb_eq|].
    destruct (no_ack_props (ak_props a)) eqn:P; [now right|]. left. right. intros X. apply empty_props_no_ack in X. congruence. }
  destruct p; try (left; exact I); destruct (D a) as [X|X]; try (left; exact X); right; exists a; split; auto; intros sel; apply X.
Qed.
Lemma short_read p a x y z : (p = PPubRec a \/ p = PPubComp a) -> read_packet (spec_first p :: spec_varint 3 ++ [x; y; z]) <> RPacket p [].
Proof.
  intros HP H. rewrite <- (app_nil_r [x; y; z]) in H. destruct (spec_varint_is_varint 3 ltac:(unfold MAXVAR; lia)) as [V G].
  rewrite (read_complete _ _ _ _ _ _ (first_byte_read p) V) in H by (rewrite G; reflexivity).
  unfold body_result in H. rewrite G in H. destruct HP as [-> | ->]; vm_compute in H; discriminate H.
Qed.
Lemma short_aread p a x y z m : (p = PPubRec a \/ p = PPubComp a) -> aread_packet (spec_first p :: spec_varint 3 ++ [x; y; z]) <> AOk p m [].
Proof.
  intros HP H. destruct (aread_whole p 3 m [x; y; z] ltac:(unfold MAXVAR; lia) H) as [B _].
  destruct HP as [-> | ->]; [|vm_compute in B; discriminate B]. cbn [aread_body fh_type fh_rem type_of] in B. unfold aread_pubrec, aread_rc in B.
  cbn [aread_u16 aread_u8 abind] in B. change (3 =? 2) with false in B. cbv iota in B.
  destruct (rc_from_u8 pubrec_codes z); cbn in B; discriminate B.
Qed.
Lemma short_bytes sel p a : packet_ok p -> (p = PPubRec a \/ p = PPubComp a) -> enc_body sel p = spec_u16 (ak_id a) ++ [spec_rc (ak_rc a)] ->
  exists x y z, enc_packet sel p = spec_first p :: spec_varint 3 ++ [x; y; z].
Proof.
  intros HO HP E. unfold enc_packet. rewrite E. unfold spec_u16. cbn [app]. do 3 eexists. reflexivity.
Qed.
Lemma no_empty_short p : packet_ok p -> not_short_ack p \/ no_empty_auth p.
Proof.
  intros HO. destruct p; try (left; exact I); right; intros H; destruct (auth_types _ HO H) as [(c & X)|[(c & X)|(d & X)]]; discriminate X.
Qed.
Lemma empty_dec p : no_empty_auth p \/ authentication_data (packet_props p) = Some [].
Proof. unfold no_empty_auth. destruct (authentication_data (packet_props p)) as [[|x d]|]; auto; left; discriminate. Qed.
Lemma assigned_dec p : no_assigned_id p \/ exists s, assigned_client_identifier (packet_props p) = Some s.
Proof. unfold no_assigned_id. destruct (assigned_client_identifier (packet_props p)); eauto. Qed.
Lemma cleared_easy p : packet_ok p -> authentication_data (packet_props p) = Some [] -> not_short_ack (cleared p) /\ one_topic (cleared p).
Proof. intros HO H. destruct (auth_types p HO H) as [(c & ->)|[(c & ->)|(d & ->)]]; repeat split. Qed.

Lemma write_frame p : well_formed p -> w_err (write_packet p) = None ->
  is_frame (w_bytes (write_packet p)) <-> (no_empty_auth p \/ type_of p = TAuth).
Proof.
  intros HW HE. split.
  - intros HF. destruct (empty_dec p) as [X|X]; [now left|right].
    destruct (auth_types p (proj1 HW) X) as [(c & ->)|[(c & ->)|(d & ->)]]; [| |reflexivity]; exfalso;
      (destruct (strict_body _ HW X ltac:(intros; discriminate) HE) as (body & B & L); rewrite B in HF;
       refine (not_frame_len _ _ _ (write_ok_len _ HE) _ HF); lia).
  - intros [HN|HT].
    + destruct (announced_partial p HW HN) as [A _]. now apply A.
    + destruct (empty_dec p) as [X|X]; [destruct (announced_partial p HW X) as [A _]; now apply A|].
      destruct p; try discriminate HT. rewrite <- cleared_write_auth by assumption.
      pose proof (cleared_wf _ HW) as CW. destruct (cleared_no_auth _ (proj1 HW) X) as [CN _].
      destruct (announced_partial _ CW CN) as [A _]. apply A. rewrite cleared_write_auth; assumption.
Qed.
Lemma awrite_frame p : well_formed p -> w_err (awrite_packet p) = None ->
  is_frame (w_bytes (awrite_packet p)) <-> no_assigned_id p.
Proof.
  intros HW HE. split.
  - intros HF. destruct (assigned_dec p) as [X|(s & X)]; [assumption|exfalso].
    destruct (assigned_type p s (proj1 HW) X) as (c & ->). destruct (assigned_body c s HW X HE) as (body & B & L).
    rewrite B in HF. refine (not_frame_len _ _ _ (awrite_ok_len _ HE) _ HF). lia.
  - intros HN. destruct (empty_dec p) as [X|X]; [destruct (announced_partial p HW X) as [_ A]; now apply A|].
    rewrite <- cleared_awrite by assumption. pose proof (cleared_wf _ HW) as CW. destruct (cleared_no_auth _ (proj1 HW) X) as [CN _].
    destruct (announced_partial _ CW CN) as [_ A]. apply A.
    + unfold no_assigned_id in *. destruct p; cbn [cleared packet_props] in *; try assumption.
    + rewrite cleared_awrite; assumption.
Qed.

Lemma sync_exact p : well_formed p -> w_err (write_packet p) = None ->
  sync_rt p <-> no_empty_auth p /\ not_short_ack p /\ no_will_pfi p.
Proof.
  intros HW HE. split.
  - intros RT. pose proof (RT []) as R. rewrite app_nil_r in R.
    assert (HN : no_empty_auth p).
    { destruct (empty_dec p) as [X|X]; [assumption|exfalso].
      destruct (auth_types p (proj1 HW) X) as [(c & ->)|[(c & ->)|(d & ->)]].
      1, 2: destruct (strict_body _ HW X ltac:(intros; discriminate) HE) as (body & B & L); rewrite B in R;
        apply read_whole in R; [lia|apply (write_ok_len _ HE)].
      pose proof (cleared_wf _ HW) as CW. destruct (cleared_no_auth _ (proj1 HW) X) as [CN CD].
      rewrite <- cleared_write_auth in R, HE by assumption.
      pose proof (sync_roundtrip (cleared (PAuth d)) [] CW HE CN I I) as S. rewrite app_nil_r in S. rewrite S in R.
      injection R as R. apply CD. exact (f_equal PAuth R) || (cbn [cleared]; congruence). }
    split; [assumption|]. split; [|now apply pfi_never in R].
    destruct (not_short_dec p (proj1 HW)) as [X|(a & HP & EB)]; [assumption|exfalso].
    destruct (write_ok p HW HN HE) as [_ B]. rewrite B in R.
    destruct (short_bytes c_order p a (proj1 HW) HP (EB c_order)) as (x & y & z & E). rewrite E in R.
    now apply (short_read p a x y z HP) in R.
  - intros (A & B & C) rest. now apply sync_roundtrip.
Qed.
Lemma stream_exact p : well_formed p -> w_err (awrite_packet p) = None ->
  async_rt p <-> no_empty_auth p /\ not_short_ack p /\ no_assigned_id p /\ one_topic p.
Proof.
  intros HW HE. split.
  - intros RT. pose proof (RT []) as R. rewrite app_nil_r in R. pose proof (awrite_ok_len _ HE) as HL.
    assert (HI : no_assigned_id p).
    { destruct (assigned_dec p) as [X|(s & X)]; [assumption|exfalso].
      destruct (assigned_type p s (proj1 HW) X) as (c & ->). destruct (assigned_body c s HW X HE) as (body & B & L).
      rewrite B in R. apply aread_whole in R as [_ R]; [lia|assumption]. }
    assert (HN : no_empty_auth p).
    { destruct (empty_dec p) as [X|X]; [assumption|exfalso].
      pose proof (cleared_wf _ HW) as CW. destruct (cleared_no_auth _ (proj1 HW) X) as [CN CD]. destruct (cleared_easy p (proj1 HW) X) as [C1 C2].
      rewrite <- cleared_awrite in R, HE by assumption.
      assert (CI : no_assigned_id (cleared p)) by (unfold no_assigned_id in *; destruct p; cbn [cleared packet_props] in *; assumption).
      pose proof (async_roundtrip (cleared p) [] CW HE CN CI C1 C2) as S. rewrite app_nil_r in S. rewrite S in R. now injection R as R _. }
    destruct (awrite_ok p HW HN HI HE) as [_ B]. rewrite B in R.
    split; [assumption|]. split; [|split; [assumption|]].
    + destruct (not_short_dec p (proj1 HW)) as [X|(a & HP & EB)]; [assumption|exfalso].
      destruct (short_bytes c_decl p a (proj1 HW) HP (EB c_decl)) as (x & y & z & E). rewrite E in R.
      now apply (short_aread p a x y z _ HP) in R.
    + destruct p as [| | | | | | |s| | | | | | |]; try exact I. unfold enc_packet in R. rewrite <- (body_len_spec c_decl) in R by (auto using wf_auth; ((now right) || apply HW)).
      apply aread_whole in R as [R _]; [|assumption]. cbn [aread_body fh_type type_of fh_rem] in R.
      apply amap_ok in R as (s' & R & E). injection E as <-. unfold aread_subscribe in R.
      apply abind_ok in R as (i & n1 & s1 & E1 & R). apply abind_ok in R as (q & n2 & s2 & E2 & R).
      apply abind_ok in R as (l & n3 & s3 & E3 & R). injection R as ES EN _. subst s. cbn [one_topic sb_topics].
      apply sub_topics_many in E3 as (_ & _ & E3). destruct (N.eq_dec (len l) 1) as [|NE]; [assumption|]. specialize (E3 NE). rewrite EN in E3. exfalso. exact (N.lt_irrefl _ E3).
  - intros (A & B & C & D) rest. now apply async_roundtrip.
Qed.

Lemma to_async_exact p : well_formed p -> w_err (write_packet p) = None ->
  to_async p <-> no_empty_auth p /\ not_short_ack p /\ one_topic p.
Proof.
  intros HW HE. split.
  - intros RT. pose proof (RT []) as R. rewrite app_nil_r in R. pose proof (write_ok_len _ HE) as HL.
    assert (HN : no_empty_auth p).
    { destruct (empty_dec p) as [X|X]; [assumption|exfalso].
      destruct (auth_types p (proj1 HW) X) as [(c & ->)|[(c & ->)|(d & ->)]].
      1, 2: destruct (strict_body _ HW X ltac:(intros; discriminate) HE) as (body & B & L); rewrite B in R;
        apply aread_whole in R as [_ R]; [lia|assumption].
      pose proof (cleared_wf _ HW) as CW. destruct (cleared_no_auth _ (proj1 HW) X) as [CN CD].
      rewrite <- cleared_write_auth in R, HE by assumption.
      pose proof (sync_to_async (cleared (PAuth d)) [] CW HE CN I I) as S. rewrite app_nil_r in S. rewrite S in R.
      injection R as R. apply CD. exact (f_equal PAuth R) || (cbn [cleared]; congruence). }
    destruct (write_ok p HW HN HE) as [_ B]. rewrite B in R.
    split; [assumption|]. split.
    + destruct (not_short_dec p (proj1 HW)) as [X|(a & HP & EB)]; [assumption|exfalso].
      destruct (short_bytes c_order p a (proj1 HW) HP (EB c_order)) as (x & y & z & E). rewrite E in R.
      now apply (short_aread p a x y z _ HP) in R.
    + destruct p as [| | | | | | |s| | | | | | |]; try exact I. unfold enc_packet in R. rewrite <- (body_len_spec c_order) in R by (auto using wf_auth; ((now left) || apply HW)).
      apply aread_whole in R as [R _]; [|assumption]. cbn [aread_body fh_type type_of fh_rem] in R.
      apply amap_ok in R as (s' & R & E). injection E as <-. unfold aread_subscribe in R.
      apply abind_ok in R as (i & n1 & s1 & E1 & R). apply abind_ok in R as (q & n2 & s2 & E2 & R).
      apply abind_ok in R as (l & n3 & s3 & E3 & R). injection R as ES EN _. subst s. cbn [one_topic sb_topics].
      apply sub_topics_many in E3 as (_ & _ & E3). destruct (N.eq_dec (len l) 1) as [|NE]; [assumption|].
      specialize (E3 NE). rewrite EN in E3. exfalso. exact (N.lt_irrefl _ E3).
  - intros (A & B & C) rest. now apply sync_to_async.
Qed.
Lemma to_sync_exact p : well_formed p -> w_err (awrite_packet p) = None ->
  to_sync p <-> no_empty_auth p /\ not_short_ack p /\ no_assigned_id p /\ no_will_pfi p.
Proof.
  intros HW HE. split.
  - intros RT. pose proof (RT []) as R. rewrite app_nil_r in R. pose proof (awrite_ok_len _ HE) as HL.
    assert (HI : no_assigned_id p).
    { destruct (assigned_dec p) as [X|(s & X)]; [assumption|exfalso].
      destruct (assigned_type p s (proj1 HW) X) as (c & ->). destruct (assigned_body c s HW X HE) as (body & B & L).
      rewrite B in R. apply read_whole in R; [lia|assumption]. }
    assert (HN : no_empty_auth p).
    { destruct (empty_dec p) as [X|X]; [assumption|exfalso].
      pose proof (cleared_wf _ HW) as CW. destruct (cleared_no_auth _ (proj1 HW) X) as [CN CD]. destruct (cleared_easy p (proj1 HW) X) as [C1 C2].
      assert (CI : no_assigned_id (cleared p)) by (unfold no_assigned_id in *; destruct p; cbn [cleared packet_props] in *; assumption).
      pose proof (pfi_never _ _ _ R) as PF.
      assert (CP : no_will_pfi (cleared p)) by (destruct p; cbn [cleared no_will_pfi] in *; assumption).
      rewrite <- cleared_awrite in R, HE by assumption.
      pose proof (async_to_sync (cleared p) [] CW HE CN CI C1 CP) as S. rewrite app_nil_r in S. rewrite S in R. now injection R as R. }
    destruct (awrite_ok p HW HN HI HE) as [_ B]. rewrite B in R.
    split; [assumption|]. split; [|split; [assumption|now apply pfi_never in R]].
    destruct (not_short_dec p (proj1 HW)) as [X|(a & HP & EB)]; [assumption|exfalso].
    destruct (short_bytes c_decl p a (proj1 HW) HP (EB c_decl)) as (x & y & z & E). rewrite E in R.
    now apply (short_read p a x y z HP) in R.
  - intros (A & B & C & D) rest. now apply async_to_sync.
Qed.

Lemma write_exact p : well_formed p -> w_err (write_packet p) = None ->
  encodes p (w_bytes (write_packet p)) <-> no_empty_auth p.
Proof.
  intros HW HE. split; [|intros HN; now apply sync_encodes].
  intros EN. destruct (empty_dec p) as [X|X]; [assumption|exfalso].
  destruct (proj1 (write_frame p HW HE) (encodes_frame _ _ EN)) as [HN|HT]; [now apply HN|].
  destruct p as [| | | | | | | | | | | | | |d]; try discriminate HT.
  pose proof (cleared_wf _ HW) as CW. destruct (cleared_no_auth _ (proj1 HW) X) as [CN CD].
  rewrite <- cleared_write_auth in EN, HE by assumption.
  pose proof (sync_encodes _ CW HE CN) as E2. rewrite <- (app_nil_r (w_bytes _)) in EN.
  destruct (encodes_inj _ _ _ _ (proj1 CW) (proj1 HW) E2 EN) as [E _]. now apply CD.
Qed.
Lemma awrite_exact p : well_formed p -> w_err (awrite_packet p) = None ->
  encodes p (w_bytes (awrite_packet p)) <-> no_empty_auth p /\ no_assigned_id p.
Proof.
  intros HW HE. split; [|intros [HN HI]; now apply async_encodes].
  intros EN. pose proof (proj1 (awrite_frame p HW HE) (encodes_frame _ _ EN)) as HI. split; [|assumption].
  destruct (empty_dec p) as [X|X]; [assumption|exfalso].
  pose proof (cleared_wf _ HW) as CW. destruct (cleared_no_auth _ (proj1 HW) X) as [CN CD].
  assert (CI : no_assigned_id (cleared p)) by (unfold no_assigned_id in *; destruct p; cbn [cleared packet_props] in *; assumption).
  rewrite <- cleared_awrite in EN, HE by assumption.
  pose proof (async_encodes _ CW HE CN CI) as E2. rewrite <- (app_nil_r (w_bytes _)) in EN.
  destruct (encodes_inj _ _ _ _ (proj1 CW) (proj1 HW) E2 EN) as [E _]. now apply CD.
Qed.

Lemma len1 {A} (l : list A) : len l = 1 -> exists x, l = [x].
Proof. destruct l as [|x [|y l]]; unfold len; cbn [length]; intros H; try lia. eauto. Qed.
Lemma len3 {A} (l : list A) : len l = 3 -> exists x y z, l = [x; y; z].
Proof. destruct l as [|x [|y [|z [|u l]]]]; unfold len; cbn [length]; intros H; try lia. eauto. Qed.
Lemma short_form_read p body : read_packet (spec_first p :: spec_varint (len body) ++ body) = RPacket p [] -> len body <= MAXVAR ->
  not_short_form p body.
Proof.
  intros R HL. destruct p as [| | | |a| |a| | | | | | |d|d]; try exact I; intros L; rewrite L in R.
  - destruct (len3 _ L) as (x & y & z & ->). now apply (short_read (PPubRec a) a x y z (or_introl eq_refl)) in R.
  - destruct (len3 _ L) as (x & y & z & ->). now apply (short_read (PPubComp a) a x y z (or_intror eq_refl)) in R.
  - destruct (len1 _ L) as (x & ->). destruct (spec_varint_is_varint 1 ltac:(unfold MAXVAR; lia)) as [V G].
    rewrite <- (app_nil_r [x]) in R.
    rewrite (read_complete _ _ _ _ _ _ (first_byte_read (PDisconnect d)) V) in R by (rewrite G; reflexivity).
    unfold body_result in R. rewrite G in R. cbn [read_body fh_type fh_rem type_of] in R. unfold read_disconnect, read_rc in R.
    change (1 =? 0) with false in R. change (len [x] <? 1) with false in R. cbv iota in R. cbn [get_u8 bind] in R.
    destruct (rc_from_u8 disconnect_codes x); cbn in R; discriminate R.
  - destruct body; [|discriminate L]. vm_compute in R. discriminate R.
Qed.
Lemma short_form_aread p body m : aread_packet (spec_first p :: spec_varint (len body) ++ body) = AOk p m [] -> len body <= MAXVAR ->
  not_short_form p body.
Proof.
  intros R HL. destruct p as [| | | |a| |a| | | | | | |d|d]; try exact I; intros L; rewrite L in R.
  - destruct (len3 _ L) as (x & y & z & ->). now apply (short_aread (PPubRec a) a x y z _ (or_introl eq_refl)) in R.
  - destruct (len3 _ L) as (x & y & z & ->). now apply (short_aread (PPubComp a) a x y z _ (or_intror eq_refl)) in R.
  - destruct (len1 _ L) as (x & ->). apply aread_whole in R as [R _]; [|unfold MAXVAR; lia].
    cbn [aread_body fh_type fh_rem type_of] in R. unfold aread_disconnect, aread_rc in R.
    change (1 =? 0) with false in R. cbv iota in R. cbn [aread_u8 abind] in R.
    destruct (rc_from_u8 disconnect_codes x); cbn in R; discriminate R.
  - destruct body; [|discriminate L]. vm_compute in R. discriminate R.
Qed.
Lemma topics_aread p n body : n <= MAXVAR -> aread_packet (spec_first p :: spec_varint n ++ body) = AOk p n [] -> one_topic p.
Proof.
  intros HL R. destruct p as [| | | | | | |s| | | | | | |]; try exact I.
  apply aread_whole in R as [R _]; [|assumption]. cbn [aread_body fh_type type_of fh_rem] in R.
  apply amap_ok in R as (s' & R & E). injection E as <-. unfold aread_subscribe in R.
  apply abind_ok in R as (i & n1 & s1 & E1 & R). apply abind_ok in R as (q & n2 & s2 & E2 & R).
  apply abind_ok in R as (l & n3 & s3 & E3 & R). injection R as ES EN _. subst s. cbn [one_topic sb_topics].
  apply sub_topics_many in E3 as (_ & _ & E3). destruct (N.eq_dec (len l) 1) as [|NE]; [assumption|].
  specialize (E3 NE). lia.
Qed.
Lemma reads_exact p body : well_formed p -> spec_body p body -> len body <= 268435455 ->
  let b := spec_first p :: spec_varint (len body) ++ body in
  ((forall rest, read_packet (b ++ rest) = RPacket p rest) <-> not_short_form p body /\ no_will_pfi p) /\
  ((forall rest, aread_packet (b ++ rest) = AOk p (len body) rest) <-> not_short_form p body /\ one_topic p).
Proof.
  intros HW HS HL b. split; (split; [intros R; specialize (R []); rewrite app_nil_r in R|intros [H1 H2] rest]).
  - split; [now apply short_form_read|now apply pfi_never in R].
  - destruct (reads_encodings p body rest HW HS HL H1) as [A _]. now apply A.
  - split; [eapply short_form_aread; eauto|now apply topics_aread in R].
  - destruct (reads_encodings p body rest HW HS HL H1) as [_ A]. now apply A.
Qed.

Lemma truncated_exact p pre t : well_formed p -> t <> [] ->
  (no_empty_auth p \/ type_of p = TAuth -> w_err (write_packet p) = None -> w_bytes (write_packet p) = pre ++ t ->
     exists n, read_packet pre = RMore n pre /\ 1 <= n <= len t) /\
  (no_assigned_id p -> w_err (awrite_packet p) = None -> w_bytes (awrite_packet p) = pre ++ t ->
     exists n, read_packet pre = RMore n pre /\ 1 <= n <= len t).
Proof.
  intros HW HT. split.
  - intros HC HE HB. destruct (empty_dec p) as [X|X].
    + eapply CodecMore.truncated; [apply HW|apply (sync_encodes p HW HE X)|exact HB|exact HT].
    + destruct HC as [HN|HC]; [contradiction|]. destruct p as [| | | | | | | | | | | | | |d]; try discriminate HC.
      pose proof (cleared_wf _ HW) as CW. destruct (cleared_no_auth _ (proj1 HW) X) as [CN CD].
      rewrite <- cleared_write_auth in HE, HB by assumption.
      eapply CodecMore.truncated; [apply CW|apply (sync_encodes _ CW HE CN)|exact HB|exact HT].
  - intros HI HE HB. destruct (empty_dec p) as [X|X].
    + eapply CodecMore.truncated; [apply HW|apply (async_encodes p HW HE X HI)|exact HB|exact HT].
    + pose proof (cleared_wf _ HW) as CW. destruct (cleared_no_auth _ (proj1 HW) X) as [CN CD].
      assert (CI : no_assigned_id (cleared p)) by (unfold no_assigned_id in *; destruct p; cbn [cleared packet_props] in *; assumption).
      rewrite <- cleared_awrite in HE, HB by assumption.
      eapply CodecMore.truncated; [apply CW|apply (async_encodes _ CW HE CN CI)|exact HB|exact HT].
Qed.

Lemma exact_case : well_formed s_connack /\ w_err (write_packet s_connack) = None /\
  well_formed w_short /\ w_err (write_packet w_short) = None /\ ~ not_short_ack w_short.
Proof.
  split; [apply samples_sync; cbn; auto|]. split; [vm_compute; reflexivity|].
  destruct w_short_sync as (H1 & H2 & H3 & H4 & H5). split; [assumption|]. split; [assumption|].
  intros H. apply H5. apply sync_exact; auto.
Qed.
Lemma truncated_exact_case : well_formed w_empty_auth_connack /\ no_assigned_id w_empty_auth_connack /\
  w_err (awrite_packet w_empty_auth_connack) = None /\ ~ no_empty_auth w_empty_auth_connack.
Proof.
  destruct w_empty_auth_frame as (H1 & _). split; [assumption|]. split; [reflexivity|]. split; [vm_compute; reflexivity|].
  intros H. now apply H.
Qed.
