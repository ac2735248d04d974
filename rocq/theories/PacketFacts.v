(* Packet readers and writers against the MQTT 5 encoding *)
From Verif Require Import Base VarInt Prims Props Codes Packets SpecCodec BaseFacts Utf8Facts VarIntFacts PrimFacts PropsFacts.

(* ---- flag bytes ---------------------------------------------------------------------------------- *)

Lemma cflags_spec c : cflags_to_u8 (connect_flags c) = spec_cflags c.
Proof.
  unfold connect_flags, spec_cflags. destruct c as [cs w u pw ka p cid]. cbn [cn_will cn_clean_start cn_username cn_password].
  destruct w as [[q rt wp wt wpl]|]; cbn [wl_qos wl_retain]; destruct cs, u, pw; try destruct q, rt; reflexivity.
Qed.
Lemma cflags_read c : cflags_from_u8 (spec_cflags c) = Ok (connect_flags c).
Proof.
  unfold connect_flags, spec_cflags. destruct c as [cs w u pw ka p cid]. cbn [cn_will cn_clean_start cn_username cn_password].
  destruct w as [[q rt wp wt wpl]|]; cbn [wl_qos wl_retain]; destruct cs, u, pw; try destruct q, rt; reflexivity.
Qed.
Lemma read_cflags_ok c r : read_cflags (spec_cflags c :: r) = Ok (connect_flags c, r).
Proof.
  unfold read_cflags. rewrite (@len_cons N). replace (1 + len r <? 1) with false by lia.
  cbn [get_u8 bind]. now rewrite cflags_read.
Qed.
Lemma aread_cflags_ok c r : aread_cflags (spec_cflags c :: r) = AOk (connect_flags c) 1 r.
Proof. unfold aread_cflags. cbn [aread_u8 abind]. now rewrite cflags_read. Qed.

Lemma sopts_spec o : sopts_to_u8 o = spec_sopts o.
Proof. destruct o as [[] [] [] []]; reflexivity. Qed.
Lemma sopts_read o : sopts_from_u8 (spec_sopts o) = Ok o.
Proof. destruct o as [[] [] [] []]; reflexivity. Qed.
Lemma read_sopts_ok o r : read_sopts (spec_sopts o :: r) = Ok (o, r).
Proof.
  unfold read_sopts. rewrite (@len_cons N). replace (1 + len r <? 1) with false by lia.
  cbn [get_u8 bind]. now rewrite sopts_read.
Qed.
Lemma aread_sopts_ok o r : aread_sopts (spec_sopts o :: r) = AOk o 1 r.
Proof. unfold aread_sopts. cbn [aread_u8 abind]. now rewrite sopts_read. Qed.

Definition spec_flags (p : packet) : N :=
  match p with
  | PPublish p => 8 * spec_bit (pb_dup p) + 2 * spec_qos (pb_qos p) + spec_bit (pb_retain p)
  | _ => 0
  end.
Lemma first_byte_spec p : first_byte p = spec_first p.
Proof. destruct p as [| |[[] [] []]| | | | | | | | | | | | ]; reflexivity. Qed.
Lemma first_byte_read p : from_first_byte (spec_first p) = Ok (type_of p, spec_flags p).
Proof. destruct p as [| |[[] [] []]| | | | | | | | | | | | ]; reflexivity. Qed.
Lemma spec_first_byte p : spec_first p < 256.
Proof. destruct p as [| |[[] [] []]| | | | | | | | | | | | ]; reflexivity. Qed.

Lemma publish_flags_read p :
  qos_from_u8 (N.shiftr (N.land (spec_flags (PPublish p)) 6) 1) = Ok (pb_qos p) /\
  negb (N.land (spec_flags (PPublish p)) 8 =? 0) = pb_dup p /\
  negb (N.land (spec_flags (PPublish p)) 1 =? 0) = pb_retain p.
Proof. destruct p as [[] [] []]; repeat split; reflexivity. Qed.

(* ---- sections --------------------------------------------------------------------------------------- *)

Lemma auth_ok_undeclared cfg p : props_ok cfg p -> ~ In AuthenticationData (c_decl cfg) -> auth_ok p.
Proof.
  intros (H & _) N d E. exfalso. apply N. apply (H AuthenticationData (VBin d)). cbn. now rewrite E.
Qed.

Ltac undeclared := cbn; intuition discriminate.

Lemma post_check_other cfg p : c_packet cfg <> TConnect -> post_check cfg p = true.
Proof. unfold post_check. destruct (c_packet cfg); congruence. Qed.
Lemma post_check_auth cfg p : auth_method_ok p -> post_check cfg p = true.
Proof.
  unfold post_check, auth_method_ok. intros H. destruct (c_packet cfg); try reflexivity.
  destruct (authentication_data p); [|reflexivity].
  destruct (authentication_method p); [|exfalso; apply H; congruence].
  cbn [is_some andb negb]. now rewrite andb_false_r.
Qed.

Lemma spec_section_len its : 1 <= len (spec_section its).
Proof.
  unfold spec_section. rewrite len_app, spec_varint_len.
  pose proof (variable_integer_len_bounds (len (spec_items its))). lia.
Qed.

Lemma read_section cfg p sec rest :
  props_ok cfg p -> spec_section_of p sec -> (c_split cfg = true \/ rest = []) ->
  (c_pfi_inverted cfg = true -> payload_format_indicator p = None) -> post_check cfg p = true ->
  read_props cfg (sec ++ rest) = Ok (p, rest).
Proof. intros HP (its & HA & HL & ->) HS HI HC. now apply read_props_ok. Qed.
Lemma aread_section cfg p sec rest :
  props_ok cfg p -> spec_section_of p sec -> aread_props cfg (sec ++ rest) = AOk p (len sec) rest.
Proof. intros HP (its & HA & HL & ->). now apply aread_props_ok. Qed.
Lemma section_of_len p sec : spec_section_of p sec -> 1 <= len sec.
Proof. intros (its & _ & _ & ->). apply spec_section_len. Qed.

Lemma arranges_perm_len a b p cfg : props_ok cfg p -> arranges a p -> arranges b p -> cfg_good cfg ->
  len (spec_items a) = len (spec_items (its_of (c_decl cfg) p)).
Proof.
  (* any arrangement has the length of the standard one: sum over types of the lengths of the values *)
  intros HP HA _ HG.
  assert (S : forall l its, NoDup l -> (forall t v, In (t, v) its -> In t l) ->
     len (spec_items its) = fold_right N.add 0 (map (fun t => len (spec_items (map (pair t) (vals t its)))) l)).
  { intros l its ND. induction its as [|[t v] its IH]; intros Hin.
    - clear. cbn [spec_items map concat]. rewrite (@len_nil N).
      induction l as [|x l IHl]; [reflexivity|]. cbn [map fold_right]. rewrite <- IHl. reflexivity.
    - rewrite spec_items_cons, len_app, IH by (intros; eapply Hin; right; eauto).
      assert (Ht : In t l) by (eapply Hin; left; reflexivity).
      assert (Eq : forall t', len (spec_items (map (pair t') (vals t' ((t, v) :: its)))) =
                   (if ptype_eqb t t' then len (spec_item (t, v)) else 0) + len (spec_items (map (pair t') (vals t' its)))).
      { intros t'. change ((t, v) :: its) with ([(t, v)] ++ its). rewrite vals_app, vals_one. cbn [fst snd].
        destruct (ptype_eqb t t') eqn:E; [|reflexivity]. apply ptype_eqb_eq in E as <-.
        cbn [app map]. now rewrite spec_items_cons, len_app. }
      erewrite (map_ext (fun t' => len (spec_items (map (pair t') (vals t' ((t, v) :: its)))))) by exact Eq.
      clear - ND Ht. set (k := len (spec_item (t, v))).
      induction l as [|x l IHl]; [easy|]. inversion ND; subst. cbn [map fold_right].
      destruct Ht as [->|Ht].
      + rewrite ptype_eqb_refl.
        assert (N : forall l', ~ In t l' ->
          fold_right N.add 0 (map (fun x => (if ptype_eqb t x then k else 0) + len (spec_items (map (pair x) (vals x its)))) l')
          = fold_right N.add 0 (map (fun x => len (spec_items (map (pair x) (vals x its)))) l')).
        { induction l' as [|y l' IH']; intros Hn; [reflexivity|]. cbn [map fold_right].
          rewrite ptype_eqb_neq by (intros ->; apply Hn; now left). rewrite IH'; [lia|]. intros C; apply Hn; now right. }
        rewrite N by assumption. lia.
      + rewrite ptype_eqb_neq by (intros ->; contradiction). rewrite <- IHl by assumption. lia. }
  destruct HG as (ND & _ & _).
  rewrite (S (c_decl cfg) a ND).
  - unfold its_of. clear S ND.
    induction (c_decl cfg) as [|t l IH]; [reflexivity|]. cbn [map fold_right flat_map].
    rewrite spec_items_app, len_app, <- IH, HA. reflexivity.
  - intros t v Hin. apply (in_vals t v) in Hin. rewrite HA in Hin.
    apply (props_ok_vals cfg p t v HP) in Hin as (Hd & _). now apply declares_in in Hd.
Qed.

(* the wire length of a struct is the length of any of its MQTT 5 encodings *)
Lemma section_len_any cfg p sec : cfg_good cfg -> props_ok cfg p -> auth_ok p -> spec_section_of p sec ->
  section_len cfg p = len sec.
Proof.
  intros HG HP HA (its & HAr & HL & ->). rewrite section_len_spec by assumption.
  unfold spec_section. rewrite !len_app.
  now rewrite (arranges_perm_len its its p cfg HP HAr HAr HG).
Qed.

(* ---- reason codes -------------------------------------------------------------------------------------- *)

Definition nodupb (l : list N) : bool :=
  (fix nd l := match l with [] => true | x :: r => negb (existsb (N.eqb x) r) && nd r end) l.
Lemma nodupb_ok l : nodupb l = true -> NoDup l.
Proof.
  unfold nodupb. induction l as [|x l IH]; intros H; [constructor|].
  apply andb_prop in H as [H1 H2]. constructor; [|auto]. intros Hin. apply negb_true_iff in H1.
  assert (existsb (N.eqb x) l = true); [|congruence]. apply existsb_exists. exists x. split; [exact Hin|apply N.eqb_refl].
Qed.
Lemma connack_codes_nd : NoDup (map spec_rc connack_codes). Proof. now apply nodupb_ok. Qed.
Lemma puback_codes_nd : NoDup (map spec_rc puback_codes). Proof. now apply nodupb_ok. Qed.
Lemma pubrec_codes_nd : NoDup (map spec_rc pubrec_codes). Proof. now apply nodupb_ok. Qed.
Lemma pubrel_codes_nd : NoDup (map spec_rc pubrel_codes). Proof. now apply nodupb_ok. Qed.
Lemma pubcomp_codes_nd : NoDup (map spec_rc pubcomp_codes). Proof. now apply nodupb_ok. Qed.
Lemma suback_codes_nd : NoDup (map spec_rc suback_codes). Proof. now apply nodupb_ok. Qed.
Lemma unsuback_codes_nd : NoDup (map spec_rc unsuback_codes). Proof. now apply nodupb_ok. Qed.
Lemma disconnect_codes_nd : NoDup (map spec_rc disconnect_codes). Proof. now apply nodupb_ok. Qed.
Lemma auth_codes_nd : NoDup (map spec_rc auth_codes). Proof. now apply nodupb_ok. Qed.
#[export] Hint Resolve connack_codes_nd puback_codes_nd pubrec_codes_nd pubrel_codes_nd pubcomp_codes_nd
  suback_codes_nd unsuback_codes_nd disconnect_codes_nd auth_codes_nd : codes.

(* ---- acceptance by the buffer readers ---------------------------------------------------------------------- *)

(* The encodings of well-formed packets that Packet::read does not accept: a CONNECT whose will has a
   payload format indicator, CONNECT with authentication data but no method (a protocol error), the
   three byte form of PUBREC and PUBCOMP, the one byte form of DISCONNECT, the empty form of AUTH. *)
Definition sync_readable (p : packet) (body : bytes) : Prop :=
  match p with
  | PConnect c => opt_ok (fun w => payload_format_indicator (wl_props w) = None) (cn_will c) /\
                  auth_method_ok (cn_props c)
  | PPubRec _ | PPubComp _ => len body <> 3
  | PDisconnect _ => len body <> 1
  | PAuth _ => body <> []
  | _ => True
  end.

(* ... and Packet::async_read: of these, the will's payload format indicator and the authentication
   method are no obstacle; a SUBSCRIBE must have exactly one topic. *)
Definition async_readable (p : packet) (body : bytes) : Prop :=
  match p with
  | PPubRec _ | PPubComp _ => len body <> 3
  | PSubscribe s => len (sb_topics s) = 1
  | PDisconnect _ => len body <> 1
  | PAuth _ => body <> []
  | _ => True
  end.

Lemma read_will_ok w wl rest : will_ok w -> spec_will w wl -> payload_format_indicator (wl_props w) = None ->
  read_will (wl_qos w) (wl_retain w) (wl ++ rest) = Ok (w, rest).
Proof.
  intros (HP & HT & HB) (sec & Hsec & ->) HN. unfold read_will.
  rewrite <- !app_assoc. rewrite (read_section will_cfg (wl_props w)); auto.
  2: { apply post_check_auth. intros C. exfalso. apply C.
       destruct (authentication_data (wl_props w)) eqn:E; [|reflexivity].
       destruct HP as (HP & _). destruct (HP AuthenticationData (VBin b)) as [HH _]; [cbn; now rewrite E|].
       exfalso. revert HH. undeclared. }
  cbn [bind]. rewrite read_str_ok by assumption. cbn [bind]. destruct HB. rewrite read_bin_ok by assumption.
  now destruct w.
Qed.
Lemma aread_will_ok w wl rest : will_ok w -> spec_will w wl ->
  aread_will (wl_qos w) (wl_retain w) (wl ++ rest) = AOk w (len wl) rest.
Proof.
  intros (HP & HT & HB) (sec & Hsec & ->). unfold aread_will.
  rewrite <- !app_assoc. rewrite (aread_section will_cfg (wl_props w)); auto.
  cbn [abind]. rewrite aread_str_ok by assumption. cbn [abind]. destruct HB. rewrite aread_bin_ok by assumption.
  cbn [abind]. rewrite !len_app. destruct w; cbn; f_equal; lia.
Qed.

Lemma read_opt_str_ok o rest : opt_ok str_ok o -> read_opt_str (is_some o) (spec_opt o ++ rest) = Ok (o, rest).
Proof. destruct o; intros H; [|reflexivity]. cbn [is_some read_opt_str spec_opt]. now rewrite read_str_ok. Qed.
Lemma aread_opt_str_ok o rest : opt_ok str_ok o ->
  aread_opt_str (is_some o) (spec_opt o ++ rest) = AOk o (len (spec_opt o)) rest.
Proof. destruct o; intros H; [|reflexivity]. cbn [is_some aread_opt_str spec_opt]. now rewrite aread_str_ok. Qed.

Lemma read_connect_ok c body : packet_ok (PConnect c) -> spec_body (PConnect c) body ->
  sync_readable (PConnect c) body -> read_connect body = Ok (c, []).
Proof.
  intros (HK & HP & HW & HU & HPw & HC) (sec & wl & Hsec & Hwl & ->) (HN & HA). unfold read_connect.
  rewrite read_bin_ok by discriminate. cbn [bind]. change (negb (bytes_eqb [77; 81; 84; 84] mqtt_name)) with false. cbv iota.
  unfold read_protocol_version. cbn [app]. rewrite !(@len_cons N).
  match goal with |- context [1 + ?x <? 1] => replace (1 + x <? 1) with false by lia end.
  cbn [get_u8 bind]. change (5 =? 3) with false. change (5 =? 4) with false. change (5 =? 5) with true. cbv iota.
  cbn [bind]. rewrite read_cflags_ok. cbn [bind]. rewrite get_u16_ok by assumption. cbn [bind].
  rewrite (read_section connect_cfg (cn_props c)); auto;
    [|discriminate|now apply post_check_auth].
  cbn [bind]. rewrite read_str_ok by assumption. cbn [bind].
  replace (cf_username (connect_flags c)) with (is_some (cn_username c)) by (unfold connect_flags; now destruct (cn_will c)).
  replace (cf_password (connect_flags c)) with (is_some (cn_password c)) by (unfold connect_flags; now destruct (cn_will c)).
  replace (cf_clean_start (connect_flags c)) with (cn_clean_start c) by (unfold connect_flags; now destruct (cn_will c)).
  unfold connect_flags. destruct (cn_will c) as [w|] eqn:EW; cbn [cf_will cf_will_qos cf_will_retain].
  - cbn in HW, HN. rewrite (read_will_ok w) by assumption. cbn [bind].
    rewrite read_opt_str_ok by assumption. cbn [bind].
    rewrite <- (app_nil_r (spec_opt (cn_password c))), read_opt_str_ok by assumption. cbn [bind].
    rewrite <- EW. now destruct c.
  - subst wl. cbn [app bind]. rewrite read_opt_str_ok by assumption. cbn [bind].
    rewrite <- (app_nil_r (spec_opt (cn_password c))), read_opt_str_ok by assumption. cbn [bind].
    rewrite <- EW. now destruct c.
Qed.

Lemma aread_connect_ok c body rest : packet_ok (PConnect c) -> spec_body (PConnect c) body ->
  aread_connect (body ++ rest) = AOk c (len body) rest.
Proof.
  intros (HK & HP & HW & HU & HPw & HC) (sec & wl & Hsec & Hwl & ->). unfold aread_connect.
  rewrite <- !app_assoc. change (spec_data [77; 81; 84; 84]) with ([0; 4] ++ mqtt_name).
  rewrite aread_exact_ok by reflexivity. cbn [abind]. change (negb (bytes_eqb ([0; 4] ++ mqtt_name) ([0; 4] ++ mqtt_name))) with false. cbv iota.
  unfold aread_protocol_version. cbn [app aread_u8 abind]. change (5 =? 5) with true. cbv iota. cbn [abind].
  rewrite aread_cflags_ok. cbn [abind]. rewrite aread_u16_ok by assumption. cbn [abind].
  rewrite (aread_section connect_cfg (cn_props c)) by auto. cbn [abind].
  rewrite aread_str_ok by assumption. cbn [abind].
  replace (cf_username (connect_flags c)) with (is_some (cn_username c)) by (unfold connect_flags; now destruct (cn_will c)).
  replace (cf_password (connect_flags c)) with (is_some (cn_password c)) by (unfold connect_flags; now destruct (cn_will c)).
  replace (cf_clean_start (connect_flags c)) with (cn_clean_start c) by (unfold connect_flags; now destruct (cn_will c)).
  unfold connect_flags. destruct (cn_will c) as [w|] eqn:EW; cbn [cf_will cf_will_qos cf_will_retain].
  - cbn in HW. rewrite (aread_will_ok w) by assumption. cbn [abind].
    rewrite aread_opt_str_ok by assumption. cbn [abind]. rewrite aread_opt_str_ok by assumption. cbn [abind].
    rewrite <- EW. destruct c; cbn. repeat (rewrite len_app || rewrite (@len_cons N) || rewrite (@len_nil N)).
    f_equal. lia.
  - subst wl. cbn [app abind]. rewrite aread_opt_str_ok by assumption. cbn [abind].
    rewrite aread_opt_str_ok by assumption. cbn [abind].
    rewrite <- EW. destruct c; cbn. repeat (rewrite len_app || rewrite (@len_cons N) || rewrite (@len_nil N)).
    f_equal. lia.
Qed.

Lemma read_connack_ok c body : packet_ok (PConnAck c) -> spec_body (PConnAck c) body ->
  read_connack (len body) body = Ok (c, []).
Proof.
  intros (HR & HP) (sec & Hsec & ->). unfold read_connack. rewrite N.ltb_irrefl. cbn [app].
  unfold read_caflags. rewrite (@len_cons N).
  match goal with |- context [1 + ?x <? 1] => replace (1 + x <? 1) with false by lia end.
  cbn [get_u8 bind]. rewrite read_rc_ok by auto with codes. cbn [bind].
  rewrite <- (app_nil_r sec). rewrite (read_section connack_cfg (ca_props c)); auto; [|discriminate].
  cbn [bind]. destruct c as [[] rc0 p]; reflexivity.
Qed.
Lemma aread_connack_ok c body rest : packet_ok (PConnAck c) -> spec_body (PConnAck c) body ->
  aread_connack (body ++ rest) = AOk c (len body) rest.
Proof.
  intros (HR & HP) (sec & Hsec & ->). unfold aread_connack, aread_caflags. cbn [app aread_u8 abind].
  rewrite aread_rc_ok by auto with codes. cbn [abind].
  rewrite (aread_section connack_cfg (ca_props c)) by auto. cbn [abind].
  rewrite !(@len_cons N). destruct c as [[] rc0 p]; cbn; f_equal; lia.
Qed.

Lemma read_publish_ok p body : packet_ok (PPublish p) -> spec_body (PPublish p) body ->
  read_publish (spec_flags (PPublish p)) body = Ok (p, []).
Proof.
  intros (HT & HI & HQ & HP & HB) (sec & Hsec & ->). unfold read_publish.
  destruct (publish_flags_read p) as (Q & D & R). rewrite Q, D, R. cbn [bind].
  rewrite read_str_ok by assumption. cbn [bind].
  destruct (pb_pkid p) as [i|] eqn:EI.
  - assert (qos_eqb (pb_qos p) AtMostOnce = false) as ->.
    { destruct (pb_qos p) eqn:E; try reflexivity. destruct HQ as [_ HQ]. discriminate (HQ eq_refl). }
    rewrite read_u16_ok by exact HI. cbn [bind].
    rewrite (read_section publish_cfg (pb_props p)); auto; [|discriminate]. cbn [bind]. rewrite <- EI. now destruct p.
  - destruct HQ as [HQ _]. rewrite (HQ eq_refl). cbn [qos_eqb app bind].
    rewrite (read_section publish_cfg (pb_props p)); auto; [|discriminate]. cbn [bind].
    rewrite <- EI, <- (HQ eq_refl). now destruct p.
Qed.
Lemma aread_publish_ok p body rest : packet_ok (PPublish p) -> spec_body (PPublish p) body ->
  aread_publish (spec_flags (PPublish p)) (len body) (body ++ rest) = AOk p (len body) rest.
Proof.
  intros (HT & HI & HQ & HP & HB) (sec & Hsec & ->). unfold aread_publish.
  destruct (publish_flags_read p) as (Q & D & R). rewrite Q, D, R.
  rewrite <- !app_assoc. rewrite aread_str_ok by assumption. cbn [abind].
  destruct (pb_pkid p) as [i|] eqn:EI.
  - assert (qos_eqb (pb_qos p) AtMostOnce = false) as ->.
    { destruct (pb_qos p) eqn:E; try reflexivity. destruct HQ as [_ HQ]. discriminate (HQ eq_refl). }
    rewrite aread_u16_ok by exact HI. cbn [abind].
    rewrite (aread_section publish_cfg (pb_props p)) by auto. cbn [abind].
    rewrite !len_app, spec_u16_len.
    match goal with |- context [?a <? ?b] => replace (a <? b) with false by lia end.
    match goal with |- context [aread_exact ?n _] => replace n with (len (pb_payload p)) by lia end.
    rewrite aread_exact_ok by reflexivity. cbn [abind]. rewrite <- EI. destruct p; cbn; f_equal; lia.
  - destruct HQ as [HQ _]. rewrite (HQ eq_refl). cbn [qos_eqb app abind].
    rewrite (aread_section publish_cfg (pb_props p)) by auto. cbn [abind].
    rewrite !len_app, ?(@len_nil N).
    match goal with |- context [?a <? ?b] => replace (a <? b) with false by lia end.
    match goal with |- context [aread_exact ?n _] => replace n with (len (pb_payload p)) by lia end.
    rewrite aread_exact_ok by reflexivity. cbn [abind].
    rewrite <- EI, <- (HQ eq_refl). destruct p; cbn; f_equal; lia.
Qed.

(* the three forms of an acknowledgement *)
Lemma ack_forms tbl cfg a body : ack_ok tbl cfg a -> spec_ack a body ->
  (body = spec_u16 (ak_id a) /\ a = Ack (ak_id a) RSuccess no_props) \/
  (body = spec_u16 (ak_id a) ++ [spec_rc (ak_rc a)] /\ a = Ack (ak_id a) (ak_rc a) no_props) \/
  (exists sec, spec_section_of (ak_props a) sec /\ body = spec_u16 (ak_id a) ++ spec_rc (ak_rc a) :: sec /\ 4 <= len body).
Proof.
  intros (HI & HR & HP) [(E1 & E2 & ->)|[(E2 & ->)|(sec & Hs & ->)]].
  - left. split; [reflexivity|]. apply (empty_props_eq cfg) in E2; [|assumption]. destruct a; cbn in *; congruence.
  - right; left. split; [reflexivity|]. apply (empty_props_eq cfg) in E2; [|assumption]. destruct a; cbn in *; congruence.
  - right; right. exists sec. split; [assumption|]. split; [reflexivity|].
    rewrite !len_app, spec_u16_len, (@len_cons N), (@len_nil N). pose proof (section_of_len _ _ Hs). lia.
Qed.

Ltac ack_section cfg a sec :=
  rewrite <- (app_nil_r sec), (read_section cfg (ak_props a)); auto; [cbn [bind]; now destruct a|discriminate].

Ltac nrw := repeat (rewrite len_app || rewrite spec_u16_len || rewrite (@len_cons N) || rewrite (@len_nil N)).
Ltac dec b v := replace b with v by lia; cbv iota.

Lemma read_puback_ok a body : ack_ok puback_codes puback_cfg a -> spec_ack a body ->
  read_puback (len body) body = Ok (a, []).
Proof.
  intros HO HS. pose proof HO as (HI & HR & HP). unfold read_puback.
  destruct (ack_forms _ _ _ _ HO HS) as [(-> & E)|[(-> & E)|(sec & Hs & EB & HL)]].
  - rewrite spec_u16_len. cbn [N.ltb N.compare]. change (2 <? 2) with false. cbv iota.
    rewrite <- (app_nil_r (spec_u16 (ak_id a))), read_u16_ok by assumption. cbn [bind].
    change (2 =? 2) with true. cbv iota. now rewrite <- E.
  - replace (len (spec_u16 (ak_id a) ++ [spec_rc (ak_rc a)])) with 3 by reflexivity.
    change (3 <? 2) with false. cbv iota. rewrite read_u16_ok by assumption. cbn [bind].
    change (3 =? 2) with false. cbv iota. rewrite read_rc_ok by auto with codes. cbn [bind].
    change (3 =? 3) with true. cbv iota. now rewrite <- E.
  - dec (len body <? 2) false. replace (read_u16 body) with (read_u16 (spec_u16 (ak_id a) ++ spec_rc (ak_rc a) :: sec)) by (now rewrite EB). rewrite read_u16_ok by assumption. cbn [bind].
    dec (len body =? 2) false. rewrite read_rc_ok by auto with codes. cbn [bind]. dec (len body =? 3) false.
    ack_section puback_cfg a sec.
Qed.
Lemma read_ack4_ok tbl t a body : NoDup (map spec_rc tbl) -> t <> TConnect ->
  ack_ok tbl (ack_cfg t) a -> spec_ack a body -> len body <> 3 ->
  read_ack4 tbl (ack_cfg t) (len body) body = Ok (a, []).
Proof.
  intros ND HT HO HS HL3. pose proof HO as (HI & HR & HP). unfold read_ack4.
  destruct (ack_forms _ _ _ _ HO HS) as [(-> & E)|[(-> & E)|(sec & Hs & EB & HL)]].
  - rewrite spec_u16_len. change (2 =? 2) with true. cbv iota.
    rewrite <- (app_nil_r (spec_u16 (ak_id a))), read_u16_ok by assumption. cbn [bind]. now rewrite <- E.
  - now contradict HL3.
  - dec (len body =? 2) false. dec (len body <? 4) false. rewrite EB. rewrite read_u16_ok by assumption. cbn [bind].
    rewrite read_rc_ok by assumption. cbn [bind].
    rewrite <- (app_nil_r sec), (read_section (ack_cfg t) (ak_props a)); auto;
      [cbn [bind]; now destruct a|discriminate|now apply post_check_other].
Qed.
Lemma read_pubrel_ok a body : ack_ok pubrel_codes pubrel_cfg a -> spec_ack a body ->
  read_pubrel (len body) body = Ok (a, []).
Proof.
  intros HO HS. pose proof HO as (HI & HR & HP). unfold read_pubrel.
  destruct (ack_forms _ _ _ _ HO HS) as [(-> & E)|[(-> & E)|(sec & Hs & EB & HL)]].
  - rewrite spec_u16_len. change (2 =? 2) with true. cbv iota.
    rewrite <- (app_nil_r (spec_u16 (ak_id a))), read_u16_ok by assumption. cbn [bind]. now rewrite <- E.
  - replace (len (spec_u16 (ak_id a) ++ [spec_rc (ak_rc a)])) with 3 by reflexivity.
    change (3 =? 2) with false. change (3 =? 3) with true. cbv iota. rewrite read_u16_ok by assumption. cbn [bind].
    rewrite read_rc_ok by auto with codes. cbn [bind]. now rewrite <- E.
  - dec (len body =? 2) false. dec (len body =? 3) false. rewrite EB. rewrite read_u16_ok by assumption. cbn [bind].
    rewrite read_rc_ok by auto with codes. cbn [bind]. ack_section pubrel_cfg a sec.
Qed.

Ltac aack_section cfg a :=
  rewrite (aread_section cfg (ak_props a)) by auto; cbn [abind].

Lemma aread_puback_ok a body rest : ack_ok puback_codes puback_cfg a -> spec_ack a body ->
  aread_puback (len body) (body ++ rest) = AOk a (len body) rest.
Proof.
  intros HO HS. pose proof HO as (HI & HR & HP). unfold aread_puback.
  destruct (ack_forms _ _ _ _ HO HS) as [(-> & E)|[(-> & E)|(sec & Hs & EB & HL)]].
  - rewrite spec_u16_len. change (2 <? 2) with false. cbv iota.
    rewrite aread_u16_ok by assumption. cbn [abind]. change (2 =? 2) with true. cbv iota. now rewrite <- E.
  - replace (len (spec_u16 (ak_id a) ++ [spec_rc (ak_rc a)])) with 3 by reflexivity.
    change (3 <? 2) with false. cbv iota. rewrite <- app_assoc, aread_u16_ok by assumption. cbn [abind app].
    change (3 =? 2) with false. cbv iota. rewrite aread_rc_ok by auto with codes. cbn [abind].
    change (3 =? 3) with true. cbv iota. cbn [abind]. now rewrite <- E.
  - dec (len body <? 2) false. replace (body ++ rest) with (spec_u16 (ak_id a) ++ spec_rc (ak_rc a) :: sec ++ rest) by (rewrite EB, <- app_assoc; reflexivity). rewrite aread_u16_ok by assumption. cbn [abind].
    dec (len body =? 2) false. rewrite aread_rc_ok by auto with codes. cbn [abind]. dec (len body =? 3) false.
    aack_section puback_cfg a. rewrite EB. nrw. destruct a; cbn; f_equal; lia.
Qed.
Lemma aread_pubrec_ok a body rest : ack_ok pubrec_codes pubrec_cfg a -> spec_ack a body -> len body <> 3 ->
  aread_pubrec (len body) (body ++ rest) = AOk a (len body) rest.
Proof.
  intros HO HS HL3. pose proof HO as (HI & HR & HP). unfold aread_pubrec.
  destruct (ack_forms _ _ _ _ HO HS) as [(-> & E)|[(-> & E)|(sec & Hs & EB & HL)]].
  - rewrite spec_u16_len. rewrite aread_u16_ok by assumption. cbn [abind]. change (2 =? 2) with true. cbv iota. now rewrite <- E.
  - now contradict HL3.
  - replace (body ++ rest) with (spec_u16 (ak_id a) ++ spec_rc (ak_rc a) :: sec ++ rest) by (rewrite EB, <- app_assoc; reflexivity). rewrite aread_u16_ok by assumption. cbn [abind].
    dec (len body =? 2) false. rewrite aread_rc_ok by auto with codes. cbn [abind].
    aack_section pubrec_cfg a. rewrite EB. nrw. destruct a; cbn; f_equal; lia.
Qed.
Lemma aread_pubrel_ok a body rest : ack_ok pubrel_codes pubrel_cfg a -> spec_ack a body ->
  aread_pubrel (len body) (body ++ rest) = AOk a (len body) rest.
Proof.
  intros HO HS. pose proof HO as (HI & HR & HP). unfold aread_pubrel.
  destruct (ack_forms _ _ _ _ HO HS) as [(-> & E)|[(-> & E)|(sec & Hs & EB & HL)]].
  - rewrite spec_u16_len. rewrite aread_u16_ok by assumption. cbn [abind]. change (2 =? 2) with true. cbv iota. now rewrite <- E.
  - replace (len (spec_u16 (ak_id a) ++ [spec_rc (ak_rc a)])) with 3 by reflexivity.
    rewrite <- app_assoc, aread_u16_ok by assumption. cbn [abind app].
    change (3 =? 2) with false. cbv iota. rewrite aread_rc_ok by auto with codes. cbn [abind].
    change (3 =? 3) with true. cbv iota. now rewrite <- E.
  - replace (body ++ rest) with (spec_u16 (ak_id a) ++ spec_rc (ak_rc a) :: sec ++ rest) by (rewrite EB, <- app_assoc; reflexivity). rewrite aread_u16_ok by assumption. cbn [abind].
    dec (len body =? 2) false. rewrite aread_rc_ok by auto with codes. cbn [abind]. dec (len body =? 3) false.
    aack_section pubrel_cfg a. rewrite EB. nrw. destruct a; cbn; f_equal; lia.
Qed.
Lemma aread_pubcomp_ok a body rest : ack_ok pubcomp_codes pubcomp_cfg a -> spec_ack a body -> len body <> 3 ->
  aread_pubcomp (len body) (body ++ rest) = AOk a (len body) rest.
Proof.
  intros HO HS HL3. pose proof HO as (HI & HR & HP). unfold aread_pubcomp.
  destruct (ack_forms _ _ _ _ HO HS) as [(-> & E)|[(-> & E)|(sec & Hs & EB & HL)]].
  - rewrite spec_u16_len. rewrite aread_u16_ok by assumption. cbn [abind]. change (2 =? 2) with true. cbv iota. now rewrite <- E.
  - now contradict HL3.
  - replace (body ++ rest) with (spec_u16 (ak_id a) ++ spec_rc (ak_rc a) :: sec ++ rest) by (rewrite EB, <- app_assoc; reflexivity). rewrite aread_u16_ok by assumption. cbn [abind].
    dec (len body =? 2) false. dec (len body <? 4) false. rewrite aread_rc_ok by auto with codes. cbn [abind].
    aack_section pubcomp_cfg a.
    assert (L : 2 + 1 + len sec = len body) by (rewrite EB; nrw; lia).
    rewrite L, N.eqb_refl. cbn [negb]. now destruct a.
Qed.

(* topic lists *)
Definition spec_topics (l : list (bytes * sopts)) : bytes :=
  concat (map (fun t => spec_data (fst t) ++ [spec_sopts (snd t)]) l).

Lemma read_sub_topics_ok : forall l fuel, Forall (fun t => str_ok (fst t)) l -> l <> [] ->
  (length l <= fuel)%nat -> read_sub_topics fuel (spec_topics l) = Ok (l, []).
Proof.
  induction l as [|[t o] l IH]; intros fuel HF HN HL; [congruence|].
  destruct fuel as [|fuel]; [cbn in HL; lia|]. inversion HF; subst. cbn [fst] in *.
  cbn [read_sub_topics]. unfold spec_topics. cbn [map concat fst snd]. rewrite <- !app_assoc.
  rewrite read_str_ok by assumption. cbn [bind app]. rewrite read_sopts_ok. cbn [bind].
  change (concat (map (fun t0 : bytes * sopts => spec_data (fst t0) ++ [spec_sopts (snd t0)]) l)) with (spec_topics l).
  destruct l as [|x l].
  - reflexivity.
  - replace (len (spec_topics (x :: l)) =? 0) with false.
    2: { unfold spec_topics. cbn [map concat]. rewrite !len_app, spec_data_len. lia. }
    rewrite IH; [reflexivity|assumption|discriminate|cbn in *; lia].
Qed.
Lemma spec_topics_length l : (length l <= length (spec_topics l))%nat.
Proof.
  induction l as [|[t o] l IH]; [cbn; lia|]. unfold spec_topics in *. cbn [map concat length].
  rewrite !app_length. cbn [length]. lia.
Qed.

Lemma read_subscribe_ok s body : packet_ok (PSubscribe s) -> spec_body (PSubscribe s) body ->
  read_subscribe body = Ok (s, []).
Proof.
  intros (HI & HP & HT & HN) (sec & Hsec & ->). unfold read_subscribe.
  rewrite read_u16_ok by assumption. cbn [bind].
  rewrite (read_section subscribe_cfg (sb_props s)); auto; [|discriminate]. cbn [bind].
  change (concat (map (fun t => spec_data (fst t) ++ [spec_sopts (snd t)]) (sb_topics s))) with (spec_topics (sb_topics s)).
  rewrite read_sub_topics_ok; auto; [now destruct s|]. pose proof (spec_topics_length (sb_topics s)). lia.
Qed.
Lemma aread_subscribe_ok s body rest : packet_ok (PSubscribe s) -> spec_body (PSubscribe s) body ->
  len (sb_topics s) = 1 -> aread_subscribe (len body) (body ++ rest) = AOk s (len body) rest.
Proof.
  intros (HI & HP & HT & HN) (sec & Hsec & ->) H1. unfold aread_subscribe.
  rewrite <- !app_assoc. rewrite aread_u16_ok by assumption. cbn [abind].
  rewrite (aread_section subscribe_cfg (sb_props s)) by auto. cbn [abind].
  destruct (sb_topics s) as [|[t o] [|x l]] eqn:ET; [congruence| |rewrite !len_cons in H1; lia].
  cbn [map concat fst snd]. rewrite app_nil_r.
  inversion HT; subst. cbn [fst] in *.
  cbn [aread_sub_topics]. rewrite <- !app_assoc. rewrite aread_str_ok by assumption. cbn [abind app].
  rewrite aread_sopts_ok. cbn [abind]. nrw.
  match goal with |- context [?a <=? ?b] => replace (a <=? b) with true by lia end. cbn [abind].
  destruct s; cbn in *. subst. f_equal. lia.
Qed.

Lemma read_unsub_topics_ok : forall l fuel, Forall str_ok l -> l <> [] ->
  (length l <= fuel)%nat -> read_unsub_topics fuel (concat (map spec_data l)) = Ok (l, []).
Proof.
  induction l as [|t l IH]; intros fuel HF HN HL; [congruence|].
  destruct fuel as [|fuel]; [cbn in HL; lia|]. inversion HF; subst.
  cbn [read_unsub_topics map concat].
  rewrite read_str_ok by assumption. cbn [bind].
  destruct l as [|x l].
  - reflexivity.
  - replace (len (concat (map spec_data (x :: l))) =? 0) with false.
    2: { cbn [map concat]. rewrite !len_app, spec_data_len. lia. }
    rewrite IH; [reflexivity|assumption|discriminate|cbn in *; lia].
Qed.
Lemma aread_unsub_topics_ok : forall l fuel rem total rest, Forall str_ok l -> l <> [] ->
  (length l <= fuel)%nat -> rem = total + len (concat (map spec_data l)) ->
  aread_unsub_topics fuel rem total (concat (map spec_data l) ++ rest) = AOk l rem rest.
Proof.
  induction l as [|t l IH]; intros fuel rem total rest HF HN HL HR; [congruence|].
  destruct fuel as [|fuel]; [cbn in HL; lia|]. inversion HF; subst.
  cbn [aread_unsub_topics map concat]. rewrite <- app_assoc.
  rewrite aread_str_ok by assumption. cbn [abind]. rewrite len_app.
  destruct l as [|x l].
  - cbn [map concat]. rewrite (@len_nil N).
    match goal with |- context [?a <=? ?b] => replace (a <=? b) with true by lia end.
    cbn [app]. f_equal; lia.
  - match goal with |- context [?a <=? ?b] => replace (a <=? b) with false end.
    2: { cbn [map concat]. rewrite !len_app, !spec_data_len. lia. }
    rewrite IH; [reflexivity|assumption|discriminate|cbn in *; lia|lia].
Qed.
Lemma spec_datas_length l : (length l <= length (concat (map spec_data l)))%nat.
Proof.
  induction l as [|t l IH]; [cbn; lia|]. cbn [map concat length]. rewrite app_length.
  assert (2 <= length (spec_data t))%nat by (cbn; lia). lia.
Qed.
Lemma read_unsubscribe_ok s body : packet_ok (PUnsubscribe s) -> spec_body (PUnsubscribe s) body ->
  read_unsubscribe body = Ok (s, []).
Proof.
  intros (HI & HP & HT & HN) (sec & Hsec & ->). unfold read_unsubscribe.
  rewrite read_u16_ok by assumption. cbn [bind].
  rewrite (read_section unsubscribe_cfg (ub_props s)); auto; [|discriminate]. cbn [bind].
  rewrite read_unsub_topics_ok; auto; [now destruct s|]. pose proof (spec_datas_length (ub_topics s)). lia.
Qed.
Lemma aread_unsubscribe_ok s body rest : packet_ok (PUnsubscribe s) -> spec_body (PUnsubscribe s) body ->
  aread_unsubscribe (len body) (body ++ rest) = AOk s (len body) rest.
Proof.
  intros (HI & HP & HT & HN) (sec & Hsec & ->). unfold aread_unsubscribe.
  rewrite <- !app_assoc. rewrite aread_u16_ok by assumption. cbn [abind].
  rewrite (aread_section unsubscribe_cfg (ub_props s)) by auto. cbn [abind].
  rewrite aread_unsub_topics_ok; auto.
  - cbn [abind]. now destruct s.
  - pose proof (spec_datas_length (ub_topics s)). rewrite app_length. lia.
  - rewrite !len_app, spec_u16_len. lia.
Qed.

(* reason code lists *)
Lemma read_codes_ge_ok tbl : forall l fuel rem read, NoDup (map spec_rc tbl) -> Forall (code_ok tbl) l ->
  (length l < fuel)%nat -> rem = read + len l -> read_codes_ge fuel tbl rem read (map spec_rc l) = Ok (l, []).
Proof.
  induction l as [|c l IH]; intros fuel rem read ND HF HL HR; (destruct fuel as [|fuel]; [cbn in HL; lia|]); cbn [read_codes_ge map].
  - rewrite (@len_nil rc) in HR. now replace (rem <=? read) with true by lia.
  - rewrite (@len_cons rc) in HR. replace (rem <=? read) with false by lia. inversion HF; subst.
    rewrite read_rc_ok by assumption. cbn [bind]. rewrite IH; auto; [cbn in HL; lia|lia].
Qed.
Lemma read_codes_eq_ok tbl : forall l fuel rem read, NoDup (map spec_rc tbl) -> Forall (code_ok tbl) l ->
  (length l < fuel)%nat -> rem = read + len l -> read_codes_eq fuel tbl rem read (map spec_rc l) = Ok (l, []).
Proof.
  induction l as [|c l IH]; intros fuel rem read ND HF HL HR; (destruct fuel as [|fuel]; [cbn in HL; lia|]); cbn [read_codes_eq map].
  - rewrite (@len_nil rc) in HR. now replace (read =? rem) with true by lia.
  - rewrite (@len_cons rc) in HR. replace (read =? rem) with false by lia. inversion HF; subst.
    rewrite read_rc_ok by assumption. cbn [bind]. rewrite IH; auto; [cbn in HL; lia|lia].
Qed.
Lemma aread_codes_eq_ok tbl : forall l fuel rem total rest, NoDup (map spec_rc tbl) -> Forall (code_ok tbl) l ->
  (length l < fuel)%nat -> rem = total + len l ->
  aread_codes_eq fuel tbl rem total (map spec_rc l ++ rest) = AOk l rem rest.
Proof.
  induction l as [|c l IH]; intros fuel rem read rest ND HF HL HR; (destruct fuel as [|fuel]; [cbn in HL; lia|]); cbn [aread_codes_eq map app].
  - rewrite (@len_nil rc) in HR. replace (rem =? read) with true by lia. f_equal. lia.
  - rewrite (@len_cons rc) in HR. replace (rem =? read) with false by lia. inversion HF; subst.
    rewrite aread_rc_ok by assumption. cbn [abind]. rewrite IH; auto; [cbn in HL; lia|lia].
Qed.
Lemma aread_codes_ge_ok tbl : forall l fuel rem total rest, NoDup (map spec_rc tbl) -> Forall (code_ok tbl) l ->
  (length l < fuel)%nat -> rem = total + len l ->
  aread_codes_ge fuel tbl rem total (map spec_rc l ++ rest) = AOk l rem rest.
Proof.
  induction l as [|c l IH]; intros fuel rem read rest ND HF HL HR; (destruct fuel as [|fuel]; [cbn in HL; lia|]); cbn [aread_codes_ge map app].
  - rewrite (@len_nil rc) in HR. replace (rem <=? read) with true by lia. f_equal. lia.
  - rewrite (@len_cons rc) in HR. replace (rem <=? read) with false by lia. inversion HF; subst.
    rewrite aread_rc_ok by assumption. cbn [abind]. rewrite IH; auto; [cbn in HL; lia|lia].
Qed.

Lemma read_suback_ok s body : packet_ok (PSubAck s) -> spec_body (PSubAck s) body ->
  read_suback (len body) body = Ok (s, []).
Proof.
  intros (HI & HP & HC) (sec & Hsec & ->). unfold read_suback.
  rewrite read_u16_ok by assumption. cbn [bind].
  rewrite (read_section suback_cfg (sa_props s)); auto; [|discriminate]. cbn [bind].
  rewrite read_codes_ge_ok; auto with codes.
  - now destruct s.
  - rewrite map_length. lia.
  - rewrite (section_len_any suback_cfg _ sec); auto.
    + rewrite !len_app, spec_u16_len, len_map. lia.
    + apply cfg_good_in. cbn. tauto.
    + eapply auth_ok_undeclared; [exact HP|undeclared].
Qed.
Lemma read_unsuback_ok s body : packet_ok (PUnsubAck s) -> spec_body (PUnsubAck s) body ->
  read_unsuback (len body) body = Ok (s, []).
Proof.
  intros (HI & HP & HC) (sec & Hsec & ->). unfold read_unsuback.
  rewrite read_u16_ok by assumption. cbn [bind].
  rewrite (read_section unsuback_cfg (sa_props s)); auto; [|discriminate]. cbn [bind].
  rewrite read_codes_eq_ok; auto with codes.
  - now destruct s.
  - rewrite map_length. lia.
  - rewrite (section_len_any unsuback_cfg _ sec); auto.
    + rewrite !len_app, spec_u16_len, len_map. lia.
    + apply cfg_good_in. cbn. tauto.
    + eapply auth_ok_undeclared; [exact HP|undeclared].
Qed.
Lemma aread_suback_ok s body rest : packet_ok (PSubAck s) -> spec_body (PSubAck s) body ->
  aread_suback (len body) (body ++ rest) = AOk s (len body) rest.
Proof.
  intros (HI & HP & HC) (sec & Hsec & ->). unfold aread_suback.
  rewrite <- !app_assoc. rewrite aread_u16_ok by assumption. cbn [abind].
  rewrite (aread_section suback_cfg (sa_props s)) by auto. cbn [abind].
  rewrite aread_codes_eq_ok; auto with codes.
  - cbn [abind]. now destruct s.
  - rewrite app_length, map_length. lia.
  - rewrite !len_app, spec_u16_len, len_map. lia.
Qed.
Lemma aread_unsuback_ok s body rest : packet_ok (PUnsubAck s) -> spec_body (PUnsubAck s) body ->
  aread_unsuback (len body) (body ++ rest) = AOk s (len body) rest.
Proof.
  intros (HI & HP & HC) (sec & Hsec & ->). unfold aread_unsuback.
  rewrite <- !app_assoc. rewrite aread_u16_ok by assumption. cbn [abind].
  rewrite (aread_section unsuback_cfg (sa_props s)) by auto. cbn [abind].
  rewrite aread_codes_ge_ok; auto with codes.
  - cbn [abind]. now destruct s.
  - rewrite app_length, map_length. lia.
  - rewrite !len_app, spec_u16_len, len_map. lia.
Qed.

Lemma read_disconnect_ok d body : packet_ok (PDisconnect d) -> spec_body (PDisconnect d) body -> len body <> 1 ->
  read_disconnect (len body) body = Ok (d, []).
Proof.
  intros (HR & HP) HS HL. unfold read_disconnect. destruct HS as [(E & E2 & ->)|[(E2 & ->)|(sec & Hsec & ->)]].
  - apply (empty_props_eq disconnect_cfg) in E2; [|assumption]. destruct d; cbn in *. now subst.
  - now contradict HL.
  - pose proof (section_of_len _ _ Hsec) as L. nrw.
    match goal with |- context [?a =? 0] => replace (a =? 0) with false by lia end.
    cbn [app]. rewrite read_rc_ok by auto with codes. cbn [bind].
    rewrite <- (app_nil_r sec), (read_section disconnect_cfg (dc_props d)); auto; [now destruct d|discriminate].
Qed.
Lemma aread_disconnect_ok d body rest : packet_ok (PDisconnect d) -> spec_body (PDisconnect d) body -> len body <> 1 ->
  aread_disconnect (len body) (body ++ rest) = AOk d (len body) rest.
Proof.
  intros (HR & HP) HS HL. unfold aread_disconnect. destruct HS as [(E & E2 & ->)|[(E2 & ->)|(sec & Hsec & ->)]].
  - apply (empty_props_eq disconnect_cfg) in E2; [|assumption]. destruct d; cbn in *. now subst.
  - now contradict HL.
  - pose proof (section_of_len _ _ Hsec) as L. nrw.
    match goal with |- context [?a =? 0] => replace (a =? 0) with false by lia end.
    cbn [app]. rewrite aread_rc_ok by auto with codes. cbn [abind].
    rewrite (aread_section disconnect_cfg (dc_props d)) by auto. cbn [abind]. destruct d; cbn; f_equal; lia.
Qed.
Lemma read_auth_ok d body : packet_ok (PAuth d) -> spec_body (PAuth d) body -> body <> [] ->
  read_auth body = Ok (d, []).
Proof.
  intros (HR & HP) HS HL. unfold read_auth. destruct HS as [(E & E2 & ->)|(sec & Hsec & ->)]; [congruence|].
  cbn [app]. rewrite read_rc_ok by auto with codes. cbn [bind].
  rewrite <- (app_nil_r sec), (read_section auth_cfg (dc_props d)); auto; [now destruct d|discriminate].
Qed.
Lemma aread_auth_ok d body rest : packet_ok (PAuth d) -> spec_body (PAuth d) body -> body <> [] ->
  aread_auth (body ++ rest) = AOk d (len body) rest.
Proof.
  intros (HR & HP) HS HL. unfold aread_auth. destruct HS as [(E & E2 & ->)|(sec & Hsec & ->)]; [congruence|].
  cbn [app]. rewrite aread_rc_ok by auto with codes. cbn [abind].
  rewrite (aread_section auth_cfg (dc_props d)) by auto. cbn [abind]. nrw. destruct d; cbn; f_equal; lia.
Qed.

Lemma read_body_ok p body : packet_ok p -> spec_body p body -> sync_readable p body ->
  read_body (FH (type_of p) (spec_flags p) (len body)) body = Ok (p, []).
Proof.
  intros HO HS HR. unfold read_body. cbn [fh_type fh_rem fh_flags].
  destruct p; cbn [type_of]; cbn [sync_readable] in HR.
  - now rewrite (read_connect_ok c).
  - now rewrite (read_connack_ok c).
  - now rewrite (read_publish_ok p).
  - now rewrite (read_puback_ok a).
  - unfold pubrec_cfg in *. now rewrite (read_ack4_ok pubrec_codes TPubRec a) by (auto with codes; discriminate).
  - now rewrite (read_pubrel_ok a).
  - unfold pubcomp_cfg in *. now rewrite (read_ack4_ok pubcomp_codes TPubComp a) by (auto with codes; discriminate).
  - now rewrite (read_subscribe_ok s).
  - now rewrite (read_suback_ok s).
  - now rewrite (read_unsubscribe_ok u).
  - now rewrite (read_unsuback_ok u).
  - cbn in HS. now subst.
  - cbn in HS. now subst.
  - now rewrite (read_disconnect_ok d).
  - now rewrite (read_auth_ok a).
Qed.

Lemma aread_body_ok p body rest : packet_ok p -> spec_body p body -> async_readable p body ->
  aread_body (FH (type_of p) (spec_flags p) (len body)) (body ++ rest) = AOk p (len body) rest.
Proof.
  intros HO HS HR. unfold aread_body. cbn [fh_type fh_rem fh_flags].
  destruct p; cbn [type_of]; cbn [async_readable] in HR.
  - now rewrite (aread_connect_ok c).
  - now rewrite (aread_connack_ok c).
  - now rewrite (aread_publish_ok p).
  - now rewrite (aread_puback_ok a).
  - now rewrite (aread_pubrec_ok a).
  - now rewrite (aread_pubrel_ok a).
  - now rewrite (aread_pubcomp_ok a).
  - now rewrite (aread_subscribe_ok s).
  - now rewrite (aread_suback_ok s).
  - now rewrite (aread_unsubscribe_ok u).
  - now rewrite (aread_unsuback_ok u).
  - cbn in HS. now subst.
  - cbn in HS. now subst.
  - now rewrite (aread_disconnect_ok d).
  - now rewrite (aread_auth_ok a).
Qed.

Lemma read_fixed_header_ok p n rest : n <= MAXVAR ->
  read_fixed_header (spec_first p :: spec_varint n ++ rest) =
  RbOk (FH (type_of p) (spec_flags p) n, 1 + len (spec_varint n)).
Proof.
  intros H. unfold read_fixed_header. rewrite (@len_cons N), len_app.
  rewrite spec_varint_len at 1. pose proof (variable_integer_len_bounds n).
  match goal with |- context [?a <? 2] => replace (a <? 2) with false by lia end.
  rewrite first_byte_read, read_rem_len_ok by assumption. reflexivity.
Qed.
Lemma aread_fixed_header_ok p n rest : n <= MAXVAR ->
  aread_fixed_header (spec_first p :: spec_varint n ++ rest) =
  AOk (FH (type_of p) (spec_flags p) n) (1 + len (spec_varint n)) rest.
Proof.
  intros H. unfold aread_fixed_header. cbn [aread_u8 abind].
  rewrite first_byte_read, aread_varint_ok by assumption. reflexivity.
Qed.

(* every MQTT 5 encoding of a well-formed packet is accepted and means that packet *)
Lemma read_packet_ok p body rest : packet_ok p -> spec_body p body -> sync_readable p body -> len body <= MAXVAR ->
  read_packet ((spec_first p :: spec_varint (len body) ++ body) ++ rest) = RPacket p rest.
Proof.
  intros HO HS HR HL. unfold read_packet. cbn [app]. rewrite <- app_assoc.
  rewrite read_fixed_header_ok by assumption. cbn [fh_rem].
  rewrite (@len_cons N), !len_app.
  match goal with |- context [?a <? ?b] => replace (a <? b) with false by lia end.
  change (spec_first p :: spec_varint (len body) ++ body ++ rest)
    with ((spec_first p :: spec_varint (len body)) ++ body ++ rest).
  rewrite drop_app by (now rewrite (@len_cons N)).
  rewrite take_app, drop_app by reflexivity. now rewrite read_body_ok.
Qed.
Lemma aread_packet_ok p body rest : packet_ok p -> spec_body p body -> async_readable p body -> len body <= MAXVAR ->
  aread_packet ((spec_first p :: spec_varint (len body) ++ body) ++ rest) = AOk p (len body) rest.
Proof.
  intros HO HS HR HL. unfold aread_packet. cbn [app]. rewrite <- app_assoc.
  rewrite aread_fixed_header_ok by assumption. cbn [abind]. now apply aread_body_ok.
Qed.
