(* Packet writers against the MQTT 5 encoding *)
From Verif Require Import Base VarInt Prims Props Codes Packets SpecCodec BaseFacts Utf8Facts VarIntFacts PrimFacts PropsFacts PacketFacts.

(* Which encoding the writers choose: [sel] picks the order of the properties (c_order for the
   buffer writers, c_decl for the stream writers). *)
Definition enc_sec (sel : pcfg -> list ptype) (cfg : pcfg) (p : props) : bytes :=
  spec_section (its_of (sel cfg) p).
Definition enc_will sel (w : will) : bytes :=
  enc_sec sel will_cfg (wl_props w) ++ spec_data (wl_topic w) ++ spec_data (wl_payload w).
Definition enc_ack sel cfg (a : ack) : bytes :=
  spec_u16 (ak_id a) ++
  (if rc_eqb (ak_rc a) RSuccess && no_ack_props (ak_props a) then []
   else if no_ack_props (ak_props a) then [spec_rc (ak_rc a)]
   else [spec_rc (ak_rc a)] ++ enc_sec sel cfg (ak_props a)).
Definition enc_body sel (p : packet) : bytes :=
  match p with
  | PConnect c =>
      spec_data [77; 81; 84; 84] ++ [5] ++ [spec_cflags c] ++ spec_u16 (cn_keep_alive c)
      ++ enc_sec sel connect_cfg (cn_props c) ++ spec_data (cn_client_id c)
      ++ match cn_will c with Some w => enc_will sel w | None => [] end
      ++ spec_opt (cn_username c) ++ spec_opt (cn_password c)
  | PConnAck c => [spec_bit (ca_session_present c); spec_rc (ca_rc c)] ++ enc_sec sel connack_cfg (ca_props c)
  | PPublish p =>
      spec_data (pb_topic p) ++ match pb_pkid p with Some i => spec_u16 i | None => [] end
      ++ enc_sec sel publish_cfg (pb_props p) ++ pb_payload p
  | PPubAck a => enc_ack sel puback_cfg a
  | PPubRec a => enc_ack sel pubrec_cfg a
  | PPubRel a => enc_ack sel pubrel_cfg a
  | PPubComp a => enc_ack sel pubcomp_cfg a
  | PSubscribe s =>
      spec_u16 (sb_id s) ++ enc_sec sel subscribe_cfg (sb_props s)
      ++ concat (map (fun t => spec_data (fst t) ++ [spec_sopts (snd t)]) (sb_topics s))
  | PSubAck s => spec_u16 (sa_id s) ++ enc_sec sel suback_cfg (sa_props s) ++ map spec_rc (sa_codes s)
  | PUnsubAck s => spec_u16 (sa_id s) ++ enc_sec sel unsuback_cfg (sa_props s) ++ map spec_rc (sa_codes s)
  | PUnsubscribe u =>
      spec_u16 (ub_id u) ++ enc_sec sel unsubscribe_cfg (ub_props u) ++ concat (map spec_data (ub_topics u))
  | PPingReq | PPingResp => []
  | PDisconnect d =>
      if disconnect_body d then [spec_rc (dc_rc d)] ++ enc_sec sel disconnect_cfg (dc_props d) else []
  | PAuth d => [spec_rc (dc_rc d)] ++ enc_sec sel auth_cfg (dc_props d)
  end.
Definition enc_packet sel (p : packet) : bytes :=
  spec_first p :: spec_varint (len (enc_body sel p)) ++ enc_body sel p.

Definition sel_ok (sel : pcfg -> list ptype) : Prop := sel = c_order \/ sel = c_decl.

Lemma enc_sec_len sel cfg p : sel_ok sel -> In cfg all_cfgs -> props_ok cfg p -> auth_ok p ->
  section_len cfg p = len (enc_sec sel cfg p).
Proof.
  intros [->| ->] HI HP HA; unfold enc_sec.
  - now apply section_len_order; [apply cfg_good_in| |].
  - now apply section_len_spec.
Qed.
Lemma enc_sec_spec sel cfg p : sel_ok sel -> In cfg all_cfgs -> props_ok cfg p -> auth_ok p ->
  section_len cfg p <= MAXVAR -> spec_section_of p (enc_sec sel cfg p).
Proof.
  intros HS HI HP HA HL. exists (its_of (sel cfg) p). split; [|split; [|reflexivity]].
  - destruct HS as [->| ->]; [apply its_of_order_arranges|apply its_of_decl_arranges]; auto using cfg_good_in.
  - rewrite (enc_sec_len sel) in HL by assumption. unfold enc_sec, spec_section in HL. rewrite len_app in HL. lia.
Qed.
Lemma props_len_le cfg p : section_len cfg p <= MAXVAR -> props_len cfg p <= MAXVAR.
Proof. unfold section_len. lia. Qed.
Lemma write_sec cfg p : In cfg all_cfgs -> props_ok cfg p -> auth_ok p -> section_len cfg p <= MAXVAR ->
  write_props cfg p = w_put (enc_sec c_order cfg p).
Proof. intros. apply write_props_spec; auto using cfg_good_in, props_len_le. Qed.
Lemma awrite_sec cfg p (P : Prop) : props_ok cfg p -> auth_ok p -> section_len cfg p <= MAXVAR ->
  assigned_client_identifier p = None -> (P -> server_reference p = None) ->
  w_like (enc_sec c_decl cfg p) P (awrite_props cfg p).
Proof. intros. eapply w_like_weaken; [apply awrite_props_spec; auto using props_len_le|assumption]. Qed.

Lemma undeclared_none cfg p t : props_ok cfg p -> ~ In t (c_decl cfg) -> get_prop t p = None.
Proof.
  intros (H & _) N. destruct (get_prop t p) as [v|] eqn:E; [|reflexivity]. exfalso. apply N. now apply (H t v).
Qed.
Lemma no_aci cfg p : props_ok cfg p -> ~ In AssignedClientIdentifier (c_decl cfg) -> assigned_client_identifier p = None.
Proof.
  intros HP N. pose proof (undeclared_none _ _ _ HP N) as E. cbn in E. now destruct (assigned_client_identifier p).
Qed.
Lemma no_sref cfg p : props_ok cfg p -> ~ In ServerReference (c_decl cfg) -> server_reference p = None.
Proof.
  intros HP N. pose proof (undeclared_none _ _ _ HP N) as E. cbn in E. now destruct (server_reference p).
Qed.

Lemma rc_eqb_eq a b : rc_eqb a b = true <-> a = b.
Proof. unfold rc_eqb. destruct (rc_eq_dec a b); split; congruence. Qed.

Lemma no_ack_props_ok t p : props_ok (ack_cfg t) p -> no_ack_props p = true -> empty_props p.
Proof.
  intros HP HN x. unfold no_ack_props in HN. apply andb_prop in HN as [H1 H2].
  destruct (prop_vals x p) as [|v l] eqn:E; [reflexivity|]. exfalso.
  assert (Hin : In v (prop_vals x p)) by (rewrite E; now left).
  apply (props_ok_vals _ _ _ _ HP) in Hin as (Hd & _). apply declares_in in Hd.
  cbn in Hd. destruct Hd as [<-|[<-|[]]].
  - cbn in E. now destruct (reason_string p).
  - cbn in E. destruct (user_properties p); [discriminate|]. rewrite len_cons in H2. lia.
Qed.

(* sizes of list payloads *)
Lemma sum_len_spec {A} (f : A -> N) (g : A -> bytes) l : (forall x, In x l -> f x = len (g x)) ->
  sum_len f l = len (concat (map g l)).
Proof.
  unfold sum_len. induction l as [|x l IH]; intros H; [reflexivity|]. cbn [map fold_right concat].
  rewrite len_app, IH, H by (intros; try apply H; cbn; auto). reflexivity.
Qed.

Lemma auth_will w : will_ok w -> auth_ok (wl_props w).
Proof. intros (HP & _). eapply auth_ok_undeclared; [exact HP|undeclared]. Qed.

Lemma opt_str_len o : opt_len str_len o = len (spec_opt o).
Proof. destruct o; [|reflexivity]. cbn [opt_len spec_opt]. rewrite spec_data_len. unfold str_len, bin_len. lia. Qed.
Lemma str_len_spec s : str_len s = len (spec_data s).
Proof. rewrite spec_data_len. unfold str_len, bin_len. lia. Qed.
Lemma bin_len_spec s : bin_len s = len (spec_data s).
Proof. exact (str_len_spec s). Qed.

Ltac in_cfgs := cbn; tauto.
Ltac ua HP := eapply auth_ok_undeclared; [exact HP|undeclared].

Lemma enc_ack_len sel t a : sel_ok sel -> In (ack_cfg t) all_cfgs -> props_ok (ack_cfg t) (ak_props a) ->
  ack_len (ack_cfg t) a = len (enc_ack sel (ack_cfg t) a).
Proof.
  intros HS HI HP. unfold ack_len, enc_ack. rewrite len_app, spec_u16_len.
  destruct (rc_eqb _ _ && no_ack_props _); [reflexivity|]. destruct (no_ack_props _); [reflexivity|].
  rewrite (enc_sec_len sel) by (auto; ua HP). rewrite len_app, (@len_cons N), (@len_nil N). lia.
Qed.

(* the announced length *)
Lemma body_len_spec sel p : sel_ok sel -> packet_ok p -> packet_auth_ok p -> body_len p = len (enc_body sel p).
Proof.
  intros HS HO HA. destruct p; cbn [body_len enc_body packet_ok packet_auth_ok] in *.
  - destruct HO as (HK & HP & HW & HU & HPw & HC). unfold connect_len.
    rewrite (enc_sec_len sel connect_cfg) by (auto; in_cfgs). rewrite !opt_str_len, !str_len_spec.
    rewrite !len_app, spec_u16_len, !(@len_cons N), !(@len_nil N).
    change (len (spec_data mqtt_name)) with 6. change (len (spec_data [77; 81; 84; 84])) with 6.
    destruct (cn_will c) as [w|]; cbn [opt_len].
    + unfold will_len, enc_will. rewrite (enc_sec_len sel will_cfg); auto; [|in_cfgs|apply HW|now apply auth_will].
      rewrite !len_app, str_len_spec, bin_len_spec. lia.
    + rewrite (@len_nil N). lia.
  - destruct HO as (HR & HP). unfold connack_len. rewrite (enc_sec_len sel connack_cfg) by (auto; in_cfgs).
    now rewrite len_app.
  - destruct HO as (HT & HI & HQ & HP & HB). unfold publish_len.
    rewrite (enc_sec_len sel publish_cfg); auto; [|in_cfgs|ua HP]. rewrite !len_app, str_len_spec.
    destruct (pb_pkid p); cbn [opt_len]; [rewrite spec_u16_len|rewrite (@len_nil N)]; lia.
  - destruct HO as (_ & _ & HP). apply enc_ack_len; auto. in_cfgs.
  - destruct HO as (_ & _ & HP). apply enc_ack_len; auto. in_cfgs.
  - destruct HO as (_ & _ & HP). apply enc_ack_len; auto. in_cfgs.
  - destruct HO as (_ & _ & HP). apply enc_ack_len; auto. in_cfgs.
  - destruct HO as (_ & HP & _). unfold subscribe_len. rewrite (enc_sec_len sel subscribe_cfg); auto; [|in_cfgs|ua HP].
    rewrite !len_app, spec_u16_len.
    rewrite (sum_len_spec _ (fun t => spec_data (fst t) ++ [spec_sopts (snd t)])).
    2: { intros. rewrite len_app, (@len_cons N), (@len_nil N), str_len_spec. lia. }
    match goal with |- _ = ?r => match r with context [len (concat ?l)] => set (z := len (concat l)) end end.
    change (len (concat (map (fun t => spec_data (fst t) ++ [spec_sopts (snd t)]) (sb_topics s)))) with z. lia.
  - destruct HO as (_ & HP & _). unfold suback_len. rewrite (enc_sec_len sel suback_cfg); auto; [|in_cfgs|ua HP].
    rewrite !len_app, spec_u16_len, len_map. lia.
  - destruct HO as (_ & HP & _). unfold unsubscribe_len. rewrite (enc_sec_len sel unsubscribe_cfg); auto; [|in_cfgs|ua HP].
    rewrite (sum_len_spec _ spec_data) by (intros; apply str_len_spec).
    rewrite !len_app, spec_u16_len. lia.
  - destruct HO as (_ & HP & _). unfold suback_len. rewrite (enc_sec_len sel unsuback_cfg); auto; [|in_cfgs|ua HP].
    rewrite !len_app, spec_u16_len, len_map. lia.
  - reflexivity.
  - reflexivity.
  - destruct HO as (_ & HP). unfold disconnect_len. destruct (disconnect_body d); [|reflexivity].
    rewrite (enc_sec_len sel disconnect_cfg); auto; [|in_cfgs|ua HP]. now rewrite len_app.
  - destruct HO as (_ & HP). unfold auth_len. rewrite (enc_sec_len sel auth_cfg); auto; [|in_cfgs]. now rewrite len_app.
Qed.

(* the chosen bodies are MQTT 5 bodies *)
Lemma enc_ack_spec sel t a : sel_ok sel -> In (ack_cfg t) all_cfgs -> props_ok (ack_cfg t) (ak_props a) ->
  ack_len (ack_cfg t) a <= MAXVAR -> spec_ack a (enc_ack sel (ack_cfg t) a).
Proof.
  intros HS HI HP HL. unfold enc_ack, spec_ack. unfold ack_len in HL.
  destruct (rc_eqb (ak_rc a) RSuccess && no_ack_props (ak_props a)) eqn:E1.
  { apply andb_prop in E1 as [E1 E2]. left. rewrite app_nil_r. repeat split; [now apply rc_eqb_eq|].
    eapply no_ack_props_ok; eauto. }
  destruct (no_ack_props (ak_props a)) eqn:E2.
  { right; left. split; [|reflexivity]. eapply no_ack_props_ok; eauto. }
  right; right. exists (enc_sec sel (ack_cfg t) (ak_props a)). split; [|reflexivity].
  apply enc_sec_spec; auto; [ua HP|lia].
Qed.

Lemma empty_props_len sel cfg p : sel_ok sel -> In cfg all_cfgs -> props_ok cfg p -> auth_ok p -> props_len cfg p = 0 -> empty_props p.
Proof.
  intros HS HI HP HA H0 t. rewrite props_len_spec in H0 by assumption.
  rewrite <- (its_of_decl_arranges cfg p (cfg_good_in _ HI) HP t).
  destruct (its_of (c_decl cfg) p) as [|i l]; [reflexivity|].
  rewrite spec_items_cons, len_app in H0. unfold spec_item in H0. rewrite (@len_cons N) in H0. lia.
Qed.

Lemma enc_body_spec sel p : sel_ok sel -> packet_ok p -> packet_auth_ok p -> body_len p <= MAXVAR ->
  spec_body p (enc_body sel p).
Proof.
  intros HS HO HA HL. destruct p; cbn [body_len enc_body packet_ok packet_auth_ok spec_body] in *.
  - destruct HO as (HK & HP & HW & HU & HPw & HC). unfold connect_len in HL.
    exists (enc_sec sel connect_cfg (cn_props c)), (match cn_will c with Some w => enc_will sel w | None => [] end).
    split; [apply enc_sec_spec; auto; [in_cfgs|lia]|]. split; [|reflexivity].
    destruct (cn_will c) as [w|]; [|reflexivity]. cbn in HW, HL. unfold will_len in HL.
    exists (enc_sec sel will_cfg (wl_props w)). split; [|reflexivity].
    apply enc_sec_spec; auto; [in_cfgs|apply HW|now apply auth_will|lia].
  - destruct HO as (HR & HP). unfold connack_len in HL. eexists. split; [|reflexivity].
    apply enc_sec_spec; auto; [in_cfgs|lia].
  - destruct HO as (HT & HI & HQ & HP & HB). unfold publish_len in HL. eexists. split; [|reflexivity].
    apply enc_sec_spec; auto; [in_cfgs|ua HP|lia].
  - destruct HO as (_ & _ & HP). apply enc_ack_spec; auto. in_cfgs.
  - destruct HO as (_ & _ & HP). apply enc_ack_spec; auto. in_cfgs.
  - destruct HO as (_ & _ & HP). apply enc_ack_spec; auto. in_cfgs.
  - destruct HO as (_ & _ & HP). apply enc_ack_spec; auto. in_cfgs.
  - destruct HO as (_ & HP & _). unfold subscribe_len in HL. eexists. split; [|reflexivity].
    apply enc_sec_spec; auto; [in_cfgs|ua HP|lia].
  - destruct HO as (_ & HP & _). unfold suback_len in HL. eexists. split; [|reflexivity].
    apply enc_sec_spec; auto; [in_cfgs|ua HP|lia].
  - destruct HO as (_ & HP & _). unfold unsubscribe_len in HL. eexists. split; [|reflexivity].
    apply enc_sec_spec; auto; [in_cfgs|ua HP|lia].
  - destruct HO as (_ & HP & _). unfold suback_len in HL. eexists. split; [|reflexivity].
    apply enc_sec_spec; auto; [in_cfgs|ua HP|lia].
  - reflexivity.
  - reflexivity.
  - destruct HO as (_ & HP). unfold disconnect_len in HL. destruct (disconnect_body d) eqn:E.
    + right; right. eexists. split; [|reflexivity]. apply enc_sec_spec; auto; [in_cfgs|ua HP|lia].
    + unfold disconnect_body in E. apply orb_false_iff in E as [E1 E2].
      apply negb_false_iff in E1, E2. apply rc_eqb_eq in E1. apply N.eqb_eq in E2. left. repeat split; auto.
      eapply (empty_props_len sel disconnect_cfg); eauto; [in_cfgs|ua HP].
  - destruct HO as (_ & HP). unfold auth_len in HL. right. eexists. split; [|reflexivity].
    apply enc_sec_spec; auto; [in_cfgs|lia].
Qed.

(* ---- the buffer writers ----------------------------------------------------------------------------- *)

Lemma write_opt_str o : opt_ok str_ok o -> write_opt write_str o = w_put (spec_opt o).
Proof. destruct o; [|reflexivity]. intros [_ L]. cbn [write_opt spec_opt]. now apply write_str_spec. Qed.

Lemma write_ack_spec t a : In (ack_cfg t) all_cfgs -> ak_id a < 65536 -> props_ok (ack_cfg t) (ak_props a) ->
  ack_len (ack_cfg t) a <= MAXVAR -> write_ack (ack_cfg t) a = w_put (enc_ack c_order (ack_cfg t) a).
Proof.
  intros HI Hid HP HL. unfold write_ack, enc_ack. unfold ack_len in HL. rewrite be16_spec by assumption.
  destruct (rc_eqb _ _ && no_ack_props _); [now rewrite w_seq_nil_r, app_nil_r|].
  destruct (no_ack_props _); unfold write_rc; [now rewrite w_seq_put|].
  rewrite write_sec by (auto; (ua HP || lia)). now rewrite !w_seq_put.
Qed.

Lemma write_topic_list l : Forall (fun t => str_ok (fst t)) l ->
  w_concat (map (fun t : bytes * sopts => write_str (fst t) >>> write_sopts (snd t)) l)
  = w_put (concat (map (fun t => spec_data (fst t) ++ [spec_sopts (snd t)]) l)).
Proof.
  intros HF. apply w_concat_put_ext. intros x Hin. rewrite Forall_forall in HF. destruct (HF x Hin) as [_ L].
  rewrite write_str_spec by assumption. unfold write_sopts. now rewrite w_seq_put, sopts_spec.
Qed.
Lemma write_str_list l : Forall str_ok l -> w_concat (map write_str l) = w_put (concat (map spec_data l)).
Proof.
  intros HF. apply w_concat_put_ext. intros x Hin. rewrite Forall_forall in HF. destruct (HF x Hin) as [_ L].
  now apply write_str_spec.
Qed.
Lemma write_rc_list l : w_concat (map write_rc l) = w_put (map spec_rc l).
Proof.
  rewrite (w_concat_put_ext _ (fun c => [spec_rc c])) by (intros; unfold write_rc; now rewrite rc_spec). f_equal.
  induction l as [|c l IH]; [reflexivity|]. cbn. now rewrite IH.
Qed.

Lemma write_body_spec p : packet_ok p -> packet_auth_ok p -> body_len p <= MAXVAR ->
  write_body p = w_put (enc_body c_order p).
Proof.
  intros HO HA HL. destruct p; cbn [body_len enc_body packet_ok packet_auth_ok write_body] in *.
  - destruct HO as (HK & HP & HW & HU & HPw & HC). unfold connect_len in HL. unfold write_connect.
    rewrite write_str_spec by discriminate. unfold write_protocol_version, write_cflags.
    rewrite be16_spec by assumption. rewrite write_sec by (auto; (in_cfgs || lia)).
    destruct HC as [_ LC]. rewrite write_str_spec by assumption. rewrite !write_opt_str by assumption.
    rewrite cflags_spec.
    destruct (cn_will c) as [w|]; cbn [write_opt].
    + cbn in HW, HL. unfold will_len in HL. unfold write_will, enc_will.
      destruct (HW) as (HWP & (_ & HT) & (_ & HB)).
      rewrite write_sec by (auto; (in_cfgs || (now apply auth_will) || lia)).
      rewrite write_str_spec, write_bin_spec by assumption. rewrite !w_seq_put. now rewrite <- ?app_assoc.
    + rewrite w_seq_nil_r, !w_seq_put. cbn [app]. now rewrite <- ?app_assoc.
  - destruct HO as (HR & HP). unfold connack_len in HL. unfold write_connack, write_rc.
    rewrite write_sec by (auto; (in_cfgs || lia)). rewrite !w_seq_put. f_equal.
  - destruct HO as (HT & HI & HQ & HP & HB). unfold publish_len in HL. unfold write_publish.
    destruct HT as [_ LT]. rewrite write_str_spec by assumption.
    rewrite write_sec by (auto; (in_cfgs || (ua HP) || lia)).
    destruct (pb_pkid p) as [i|]; cbn [write_opt].
    + rewrite be16_spec by exact HI. rewrite !w_seq_put. now rewrite <- ?app_assoc.
    + rewrite w_seq_nil_r, !w_seq_put. cbn [app]. now rewrite <- ?app_assoc.
  - destruct HO as (HI & _ & HP). apply write_ack_spec; auto. in_cfgs.
  - destruct HO as (HI & _ & HP). apply write_ack_spec; auto. in_cfgs.
  - destruct HO as (HI & _ & HP). apply write_ack_spec; auto. in_cfgs.
  - destruct HO as (HI & _ & HP). apply write_ack_spec; auto. in_cfgs.
  - destruct HO as (HI & HP & HT & _). unfold subscribe_len in HL. unfold write_subscribe.
    rewrite be16_spec by assumption. rewrite write_sec by (auto; (in_cfgs || (ua HP) || lia)).
    rewrite write_topic_list by assumption. rewrite !w_seq_put. now rewrite <- ?app_assoc.
  - destruct HO as (HI & HP & HT). unfold suback_len in HL. unfold write_suback.
    rewrite be16_spec by assumption. rewrite write_sec by (auto; (in_cfgs || (ua HP) || lia)).
    rewrite write_rc_list. rewrite !w_seq_put. now rewrite <- ?app_assoc.
  - destruct HO as (HI & HP & HT & _). unfold unsubscribe_len in HL. unfold write_unsubscribe.
    rewrite be16_spec by assumption. rewrite write_sec by (auto; (in_cfgs || (ua HP) || lia)).
    rewrite write_str_list by assumption. rewrite !w_seq_put. now rewrite <- ?app_assoc.
  - destruct HO as (HI & HP & HT). unfold suback_len in HL. unfold write_suback.
    rewrite be16_spec by assumption. rewrite write_sec by (auto; (in_cfgs || (ua HP) || lia)).
    rewrite write_rc_list. rewrite !w_seq_put. now rewrite <- ?app_assoc.
  - reflexivity.
  - reflexivity.
  - destruct HO as (_ & HP). unfold disconnect_len in HL. unfold write_disconnect. destruct (disconnect_body d); [|reflexivity].
    rewrite write_sec by (auto; (in_cfgs || (ua HP) || lia)). unfold write_rc. now rewrite w_seq_put.
  - destruct HO as (_ & HP). unfold auth_len in HL. unfold write_auth.
    rewrite write_sec by (auto; (in_cfgs || lia)). unfold write_rc. now rewrite w_seq_put.
Qed.

Lemma write_packet_spec p : packet_ok p -> packet_auth_ok p -> body_len p <= MAXVAR ->
  write_packet p = w_put (enc_packet c_order p).
Proof.
  intros HO HA HL. unfold enc_packet.
  assert (E : w_put [first_byte p] >>> write_varint (body_len p) >>> write_body p
              = w_put (spec_first p :: spec_varint (len (enc_body c_order p)) ++ enc_body c_order p)).
  { rewrite write_varint_spec, write_body_spec by assumption. rewrite !w_seq_put, first_byte_spec.
    rewrite (body_len_spec c_order) by (auto; now left). f_equal. }
  destruct p; exact E || reflexivity.
Qed.

(* ---- the stream writers ------------------------------------------------------------------------------- *)

Lemma w_like_eq b P w : w = w_put b -> w_like b P w.
Proof. intros ->. apply w_like_put. Qed.
Lemma w_like_seq3 b a1 a2 P w1 w2 : b = a1 ++ a2 -> w_like a1 P w1 -> w_like a2 P w2 -> w_like b P (w1 >>> w2).
Proof. intros ->. apply w_like_seq. Qed.

Lemma awrite_ack_spec t a P : In (ack_cfg t) all_cfgs -> ak_id a < 65536 -> props_ok (ack_cfg t) (ak_props a) ->
  ack_len (ack_cfg t) a <= MAXVAR -> w_like (enc_ack c_decl (ack_cfg t) a) P (awrite_ack (ack_cfg t) a).
Proof.
  intros HI Hid HP HL. unfold awrite_ack, enc_ack. unfold ack_len in HL. rewrite be16_spec by assumption.
  apply w_like_seq; [apply w_like_put|].
  destruct (rc_eqb _ _ && no_ack_props _); [apply w_like_nil|].
  destruct (no_ack_props _); unfold write_rc; [apply w_like_put|].
  apply w_like_seq; [apply w_like_put|].
  apply awrite_sec; auto; [ua HP|lia|eapply no_aci; [exact HP|undeclared]|intros _; eapply no_sref; [exact HP|undeclared]].
Qed.

Ltac nosp HP := first [eapply no_aci; [exact HP|undeclared]|intros _; eapply no_sref; [exact HP|undeclared]].

Lemma awrite_body_spec p : packet_ok p -> packet_auth_ok p -> body_len p <= MAXVAR -> no_assigned_id p ->
  w_like (enc_body c_decl p) (no_server_ref p) (awrite_body p).
Proof.
  intros HO HA HL HW. unfold no_assigned_id, no_server_ref in *.
  destruct p; cbn [body_len enc_body packet_ok packet_auth_ok awrite_body packet_props] in *.
  - destruct HO as (HK & HP & HWi & HU & HPw & HC). unfold connect_len in HL. unfold awrite_connect.
    rewrite be16_spec by assumption. rewrite !write_opt_str by assumption.
    destruct HC as [_ LC]. rewrite write_str_spec by assumption.
    rewrite !w_seq_assoc.
    apply w_like_seq; [apply w_like_put|]. apply w_like_seq; [apply w_like_put|].
    apply w_like_seq; [apply w_like_eq; unfold write_cflags; now rewrite cflags_spec|].
    apply w_like_seq; [apply w_like_put|].
    apply w_like_seq; [apply awrite_sec; auto; lia|].
    apply w_like_seq; [apply w_like_put|].
    apply w_like_seq; [|apply w_like_eq; now rewrite w_seq_put].
    destruct (cn_will c) as [w|]; cbn [write_opt]; [|apply w_like_nil].
    cbn in HWi, HL. unfold will_len in HL. unfold awrite_will, enc_will.
    pose proof (auth_will w HWi) as Ha.
    destruct HWi as (HWP & (_ & HT) & (_ & HB)).
    rewrite write_str_spec, write_bin_spec by assumption. rewrite !w_seq_assoc.
    apply w_like_seq; [apply awrite_sec; auto; (lia || (nosp HWP))|].
    apply w_like_eq. now rewrite w_seq_put.
  - destruct HO as (HR & HP). unfold connack_len in HL. unfold awrite_connack, write_rc.
    rewrite w_seq_put. apply w_like_seq; [apply w_like_put|]. apply awrite_sec; auto; (lia || (nosp HP)).
  - destruct HO as (HT & HI & HQ & HP & HB). unfold publish_len in HL. unfold awrite_publish.
    destruct HT as [_ LT]. rewrite write_str_spec by assumption. rewrite !w_seq_assoc.
    apply w_like_seq; [apply w_like_put|]. apply w_like_seq.
    + destruct (pb_pkid p) as [i|]; cbn [write_opt]; [|apply w_like_nil]. rewrite be16_spec by exact HI. apply w_like_put.
    + apply w_like_seq; [|apply w_like_put]. apply awrite_sec; auto; (lia || (ua HP) || (nosp HP)).
  - destruct HO as (HI & _ & HP). apply awrite_ack_spec; auto. in_cfgs.
  - destruct HO as (HI & _ & HP). apply awrite_ack_spec; auto. in_cfgs.
  - destruct HO as (HI & _ & HP). apply awrite_ack_spec; auto. in_cfgs.
  - destruct HO as (HI & _ & HP). apply awrite_ack_spec; auto. in_cfgs.
  - destruct HO as (HI & HP & HT & _). unfold subscribe_len in HL. unfold awrite_subscribe.
    rewrite be16_spec by assumption. rewrite !w_seq_assoc. apply w_like_seq; [apply w_like_put|].
    apply w_like_seq; [|apply w_like_eq; now apply write_topic_list]. apply awrite_sec; auto; (lia || (ua HP) || (nosp HP)).
  - destruct HO as (HI & HP & HT). unfold suback_len in HL. unfold awrite_suback.
    rewrite be16_spec by assumption. rewrite !w_seq_assoc. apply w_like_seq; [apply w_like_put|].
    apply w_like_seq; [|apply w_like_eq; now apply write_rc_list]. apply awrite_sec; auto; (lia || (ua HP) || (nosp HP)).
  - destruct HO as (HI & HP & HT & _). unfold unsubscribe_len in HL. unfold awrite_unsubscribe.
    rewrite be16_spec by assumption. rewrite !w_seq_assoc. apply w_like_seq; [apply w_like_put|].
    apply w_like_seq; [|apply w_like_eq; now apply write_str_list]. apply awrite_sec; auto; (lia || (ua HP) || (nosp HP)).
  - destruct HO as (HI & HP & HT). unfold suback_len in HL. unfold awrite_suback.
    rewrite be16_spec by assumption. rewrite !w_seq_assoc. apply w_like_seq; [apply w_like_put|].
    apply w_like_seq; [|apply w_like_eq; now apply write_rc_list]. apply awrite_sec; auto; (lia || (ua HP) || (nosp HP)).
  - apply w_like_nil.
  - apply w_like_nil.
  - destruct HO as (_ & HP). unfold disconnect_len in HL. unfold awrite_disconnect. destruct (disconnect_body d); [|apply w_like_nil].
    apply w_like_seq; [apply w_like_put|]. apply awrite_sec; auto; (lia || (ua HP) || (nosp HP)).
  - destruct HO as (_ & HP). unfold auth_len in HL. unfold awrite_auth.
    apply w_like_seq; [apply w_like_put|]. apply awrite_sec; auto; (lia || (nosp HP)).
Qed.

Lemma awrite_packet_spec p : packet_ok p -> packet_auth_ok p -> body_len p <= MAXVAR -> no_assigned_id p ->
  w_like (enc_packet c_decl p) (no_server_ref p) (awrite_packet p).
Proof.
  intros HO HA HL HW. unfold enc_packet.
  assert (E : w_like (spec_first p :: spec_varint (len (enc_body c_decl p)) ++ enc_body c_decl p) (no_server_ref p)
       (w_put [first_byte p] >>> awrite_varint (body_len p) >>> awrite_body p)).
  { rewrite awrite_varint_spec by assumption. rewrite w_seq_put, first_byte_spec.
    rewrite (body_len_spec c_decl) by (auto; now right).
    change (spec_first p :: spec_varint (len (enc_body c_decl p)) ++ enc_body c_decl p)
      with (([spec_first p] ++ spec_varint (len (enc_body c_decl p))) ++ enc_body c_decl p).
    apply w_like_seq; [apply w_like_put|]. now apply awrite_body_spec. }
  destruct p; try exact E; apply w_like_eq; reflexivity.
Qed.

Lemma enc_packet_encodes sel p : sel_ok sel -> packet_ok p -> packet_auth_ok p -> body_len p <= MAXVAR ->
  encodes p (enc_packet sel p).
Proof.
  intros HS HO HA HL. exists (enc_body sel p). split; [now apply enc_body_spec|]. split; [|reflexivity].
  now rewrite <- body_len_spec.
Qed.
Lemma enc_packet_len sel p : sel_ok sel -> packet_ok p -> packet_auth_ok p -> len (enc_packet sel p) = packet_len p.
Proof.
  intros HS HO HA. unfold enc_packet, packet_len. rewrite (@len_cons N), len_app, spec_varint_len.
  rewrite <- body_len_spec by assumption. destruct p; try lia; reflexivity.
Qed.
