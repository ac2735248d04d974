(* The decoders accept the encodings of SpecLenient: packets *)
From Coq Require Import Permutation.
From Verif Require Import Base VarInt Prims Props Codes Packets SpecCodec SpecLenient SpecAccept BaseFacts VarIntFacts PrimFacts PropsFacts PacketFacts GoodFacts SyncGood FrameFacts SectionFacts CountFacts LenientFacts LenientMore AcceptFacts.

(* ---- bits ---- *)
Lemma cflags_read f : f < 256 -> f / 8 mod 4 <= 2 -> exists g, cflags_from_u8 f = Ok g /\ flags_say g f = true.
Proof.
  intros H Q. pose (P := fun v => if v / 8 mod 4 <=? 2 then match cflags_from_u8 v with Ok f => flags_say f v | _ => false end else true).
  assert (S : P f = true) by (revert f H Q; intros v H _; revert v H; apply (sweep P 256); vm_compute; reflexivity).
  unfold P in S. replace (f / 8 mod 4 <=? 2) with true in S by lia. destruct (cflags_from_u8 f) as [g|e|c]; try discriminate. eauto.
Qed.
Lemma spec_qos_inj a b : spec_qos a = spec_qos b -> a = b.
Proof. destruct a, b; easy. Qed.
Lemma spec_bit_inj a b : spec_bit a = spec_bit b -> a = b.
Proof. destruct a, b; easy. Qed.
Lemma lax_cflags_read c f : lax_cflags c f -> exists g, cflags_from_u8 f = Ok g /\ cf_username g = is_some (cn_username c) /\ cf_password g = is_some (cn_password c) /\
  cf_clean_start g = cn_clean_start c /\ cf_will g = is_some (cn_will c) /\ forall w, cn_will c = Some w -> cf_will_qos g = wl_qos w /\ cf_will_retain g = wl_retain w.
Proof.
  intros (B7 & B6 & B2 & B1 & Q & L & W). destruct (cflags_read f L Q) as (g & E & S). exists g. split; [assumption|].
  unfold flags_say in S. rewrite !andb_true_iff in S. destruct S as [[[[[[S1 S2] S3] S4] S5] S6] S7].
  apply Bool.eqb_prop in S1, S2, S3, S4, S5. apply N.eqb_eq in S6. repeat apply conj; try congruence.
  intros w EW. destruct (W w EW) as [W1 W2]. split; [apply spec_qos_inj; congruence|congruence].
Qed.
Lemma read_cflags_at f g r : cflags_from_u8 f = Ok g -> read_cflags (f :: r) = Ok (g, r).
Proof. intros E. unfold read_cflags. rewrite (@len_cons N). replace (1 + len r <? 1) with false by lia. cbn [get_u8 bind]. now rewrite E. Qed.
Lemma aread_cflags_at f g r : cflags_from_u8 f = Ok g -> aread_cflags (f :: r) = AOk g 1 r.
Proof. intros E. unfold aread_cflags. cbn [aread_u8 abind]. now rewrite E. Qed.

Lemma land_mod v m : N.land 63 m = m -> N.land (v mod 64) m = N.land v m.
Proof. intros H. change 64 with (2 ^ 6). rewrite <- N.land_ones. change (N.ones 6) with 63. now rewrite <- N.land_assoc, H. Qed.
Lemma sopts_lax v o : v mod 64 = spec_sopts o -> sopts_from_u8 v = Ok o.
Proof.
  intros E. rewrite <- (sopts_read o), <- E. unfold sopts_from_u8, test.
  rewrite !(land_mod v) by reflexivity. reflexivity.
Qed.
Lemma read_sopts_lax v o r : v mod 64 = spec_sopts o -> read_sopts (v :: r) = Ok (o, r).
Proof. intros E. unfold read_sopts. rewrite (@len_cons N). replace (1 + len r <? 1) with false by lia. cbn [get_u8 bind]. now rewrite (sopts_lax v o). Qed.
Lemma aread_sopts_lax v o r : v mod 64 = spec_sopts o -> aread_sopts (v :: r) = AOk o 1 r.
Proof. intros E. unfold aread_sopts. cbn [aread_u8 abind]. now rewrite (sopts_lax v o). Qed.
Lemma caflags_lax f s : f < 256 -> f mod 2 = spec_bit s -> (N.land f 1 =? 1) = s.
Proof. intros H E. rewrite (caflags_of f H) in E. now apply spec_bit_inj. Qed.

(* ---- the buffer ---- *)
Lemma will_no_auth w : will_ok w -> post_check will_cfg (wl_props w) = true.
Proof.
  intros (HP & _). apply post_check_auth. intros C. exfalso. apply C.
  destruct (authentication_data (wl_props w)) eqn:E; [|reflexivity].
  destruct HP as (HP & _). destruct (HP AuthenticationData (VBin b)) as [HH _]; [cbn; now rewrite E|].
  exfalso. revert HH. undeclared.
Qed.
Ltac lsec cfg p := rewrite (read_lax_section cfg p); [|assumption|assumption|now left|try discriminate|try reflexivity].
Lemma read_lax_will w wl rest : will_ok w -> lax_will FromBuffer w wl -> payload_format_indicator (wl_props w) = None ->
  read_will (wl_qos w) (wl_retain w) (wl ++ rest) = Ok (w, rest).
Proof.
  intros HO (sec & Hsec & ->) HN. pose proof HO as (HP & HT & HB). unfold read_will.
  rewrite <- !app_assoc. lsec will_cfg (wl_props w); [|auto|now apply will_no_auth].
  cbn [bind]. rewrite read_str_ok by assumption. cbn [bind]. destruct HB. rewrite read_bin_ok by assumption.
  now destruct w.
Qed.
Lemma method_check c : method_for_data c <-> post_check connect_cfg (cn_props c) = true.
Proof.
  unfold method_for_data, post_check. cbn [c_packet connect_cfg].
  destruct (authentication_data (cn_props c)) as [[|x l]|], (authentication_method (cn_props c)); cbn; split; intros H; try reflexivity; try discriminate; try exact I; congruence.
Qed.
Lemma read_lax_connect c body extra : packet_ok (PConnect c) -> lax_body FromBuffer (PConnect c) body -> buffer_accepts (PConnect c) body extra ->
  read_connect (body ++ extra) = Ok (c, extra).
Proof.
  intros (HK & HP & HW & HU & HPw & HC) (sec & wl & f & Hsec & Hf & Hwl & ->) (HN & HA). unfold read_connect. rewrite <- !app_assoc.
  rewrite read_bin_ok by discriminate. cbn [bind]. change (negb (bytes_eqb [77; 81; 84; 84] mqtt_name)) with false. cbv iota.
  unfold read_protocol_version. cbn [app]. rewrite !(@len_cons N).
  match goal with |- context [1 + ?x <? 1] => replace (1 + x <? 1) with false by lia end.
  cbn [get_u8 bind]. change (5 =? 3) with false. change (5 =? 4) with false. change (5 =? 5) with true. cbv iota.
  destruct (lax_cflags_read c f Hf) as (g & E & G1 & G2 & G3 & G4 & G5).
  cbn [bind]. rewrite (read_cflags_at f g) by assumption. cbn [bind]. rewrite get_u16_ok by assumption. cbn [bind].
  lsec connect_cfg (cn_props c); [|now apply method_check].
  cbn [bind]. rewrite read_str_ok by assumption. cbn [bind]. rewrite G1, G2, G3, G4.
  unfold will_without_pfi in HN. destruct (cn_will c) as [w|] eqn:EW; cbn [is_some].
  - cbn in HW. destruct (G5 w eq_refl) as [-> ->]. rewrite (read_lax_will w) by assumption. cbn [bind].
    rewrite read_opt_str_ok by assumption. cbn [bind]. rewrite read_opt_str_ok by assumption. cbn [bind].
    rewrite <- EW. now destruct c.
  - subst wl. cbn [app bind]. rewrite read_opt_str_ok by assumption. cbn [bind].
    rewrite read_opt_str_ok by assumption. cbn [bind]. rewrite <- EW. now destruct c.
Qed.
Lemma read_lax_connack c body extra : packet_ok (PConnAck c) -> lax_body FromBuffer (PConnAck c) body ->
  read_connack (len (body ++ extra)) (body ++ extra) = Ok (c, extra).
Proof.
  intros (HR & HP) (sec & f & Hsec & Hf & Ef & ->). unfold read_connack. rewrite N.ltb_irrefl. cbn [app].
  unfold read_caflags. rewrite (@len_cons N).
  match goal with |- context [1 + ?x <? 1] => replace (1 + x <? 1) with false by lia end.
  cbn [get_u8 bind]. rewrite read_rc_ok by auto with codes. cbn [bind]. lsec connack_cfg (ca_props c).
  cbn [bind]. rewrite (caflags_lax f (ca_session_present c)) by assumption. now destruct c.
Qed.
Lemma read_lax_publish p body : packet_ok (PPublish p) -> lax_body FromBuffer (PPublish p) body ->
  read_publish (spec_flags (PPublish p)) body = Ok (p, []).
Proof.
  intros (HT & HI & HQ & HP & HB) (sec & Hsec & ->). unfold read_publish.
  destruct (publish_flags_read p) as (Q & D & R). rewrite Q, D, R. cbn [bind].
  rewrite read_str_ok by assumption. cbn [bind].
  destruct (pb_pkid p) as [i|] eqn:EI.
  - assert (qos_eqb (pb_qos p) AtMostOnce = false) as ->.
    { destruct (pb_qos p) eqn:E; try reflexivity. destruct HQ as [_ HQ]. discriminate (HQ eq_refl). }
    rewrite read_u16_ok by exact HI. cbn [bind].
    lsec publish_cfg (pb_props p). cbn [bind]. rewrite <- EI. now destruct p.
  - destruct HQ as [HQ _]. rewrite (HQ eq_refl). cbn [qos_eqb app bind].
    lsec publish_cfg (pb_props p). cbn [bind].
    rewrite <- EI, <- (HQ eq_refl). now destruct p.
Qed.

Definition ack_accepts (a : ack) (body extra : bytes) : Prop :=
  extra = [] \/ exists e, int_enc 0 e /\ body = spec_u16 (ak_id a) ++ [spec_rc (ak_rc a)] ++ e.
Lemma enc_pos v e : int_enc v e -> 1 <= len e.
Proof. intros [(i & l & -> & _) _]. rewrite len_app, (@len_cons N). lia. Qed.
Lemma lax_ack_forms rd t tbl cfg a body extra : ack_ok tbl cfg a -> lax_ack rd t a body -> ack_accepts a body extra ->
  (body = spec_u16 (ak_id a) /\ extra = [] /\ a = Ack (ak_id a) RSuccess no_props) \/
  (body = spec_u16 (ak_id a) ++ [spec_rc (ak_rc a)] /\ extra = [] /\ In t [TPubAck; TPubRel] /\ a = Ack (ak_id a) (ak_rc a) no_props) \/
  (exists sec, lax_section rd true (ak_props a) sec /\ (extra = [] \/ int_enc 0 sec) /\ body = spec_u16 (ak_id a) ++ spec_rc (ak_rc a) :: sec /\ 4 <= len body).
Proof.
  intros (HI & HR & HP) [(E1 & E2 & ->)|[(Ht & E2 & ->)|(sec & Hs & ->)]] HX.
  - left. split; [reflexivity|]. split.
    + destruct HX as [->|(e & V & E)]; [reflexivity|]. apply enc_pos in V. apply (f_equal len) in E. revert E. nrw. lia.
    + apply (empty_props_eq cfg) in E2; [|assumption]. destruct a; cbn in *; congruence.
  - right; left. split; [reflexivity|]. split.
    + destruct HX as [->|(e & V & E)]; [reflexivity|]. apply enc_pos in V. apply (f_equal len) in E. revert E. nrw. lia.
    + split; [assumption|]. apply (empty_props_eq cfg) in E2; [|assumption]. destruct a; cbn in *; congruence.
  - right; right. exists sec. split; [assumption|]. split.
    + destruct HX as [->|(e & V & E)]; [now left|]. right. apply app_inv_head in E. cbn [app] in E. injection E as ->. assumption.
    + split; [reflexivity|]. pose proof (lax_section_pos _ _ _ _ Hs). nrw. lia.
Qed.
Lemma ack_split t : c_split (ack_cfg t) = false. Proof. reflexivity. Qed.
Ltac lack t a H := rewrite (read_lax_section (ack_cfg t) (ak_props a)); [cbn [bind]; now destruct a|assumption|assumption|destruct H; auto|discriminate|try reflexivity].
Lemma app_len_ge {A} (a b : list A) n : n <= len a -> n <= len (a ++ b).
Proof. intros. rewrite len_app. lia. Qed.
Lemma read_lax_puback a body extra : ack_ok puback_codes puback_cfg a -> lax_ack FromBuffer TPubAck a body -> ack_accepts a body extra ->
  read_puback (len (body ++ extra)) (body ++ extra) = Ok (a, extra).
Proof.
  intros HO HS HX. pose proof HO as (HI & HR & HP). unfold read_puback.
  destruct (lax_ack_forms _ _ _ _ _ _ _ HO HS HX) as [(-> & -> & E)|[(-> & -> & _ & E)|(sec & Hs & He & EB & HL)]].
  - rewrite app_nil_r, spec_u16_len. change (2 <? 2) with false. cbv iota.
    rewrite <- (app_nil_r (spec_u16 (ak_id a))), read_u16_ok by assumption. cbn [bind].
    change (2 =? 2) with true. cbv iota. now rewrite <- E.
  - rewrite app_nil_r. replace (len (spec_u16 (ak_id a) ++ [spec_rc (ak_rc a)])) with 3 by reflexivity.
    change (3 <? 2) with false. cbv iota. rewrite read_u16_ok by assumption. cbn [bind].
    change (3 =? 2) with false. cbv iota. rewrite read_rc_ok by auto with codes. cbn [bind].
    change (3 =? 3) with true. cbv iota. now rewrite <- E.
  - apply (app_len_ge _ extra) in HL. generalize dependent (len (body ++ extra)). intros n HL. subst body. rewrite <- app_assoc. cbn [app].
    dec (n <? 2) false. rewrite read_u16_ok by assumption. cbn [bind].
    dec (n =? 2) false. rewrite read_rc_ok by auto with codes. cbn [bind]. dec (n =? 3) false.
    lack TPubAck a He.
Qed.
Lemma read_lax_ack4 tbl t a body extra : NoDup (map spec_rc tbl) -> t <> TConnect -> ~ In t [TPubAck; TPubRel] ->
  ack_ok tbl (ack_cfg t) a -> lax_ack FromBuffer t a body -> ack_accepts a body extra ->
  read_ack4 tbl (ack_cfg t) (len (body ++ extra)) (body ++ extra) = Ok (a, extra).
Proof.
  intros ND HT HN HO HS HX. pose proof HO as (HI & HR & HP). unfold read_ack4.
  destruct (lax_ack_forms _ _ _ _ _ _ _ HO HS HX) as [(-> & -> & E)|[(-> & -> & C & E)|(sec & Hs & He & EB & HL)]].
  - rewrite app_nil_r, spec_u16_len. change (2 =? 2) with true. cbv iota.
    rewrite <- (app_nil_r (spec_u16 (ak_id a))), read_u16_ok by assumption. cbn [bind]. now rewrite <- E.
  - contradiction.
  - apply (app_len_ge _ extra) in HL. generalize dependent (len (body ++ extra)). intros n HL. subst body. rewrite <- app_assoc. cbn [app].
    dec (n =? 2) false. dec (n <? 4) false. rewrite read_u16_ok by assumption. cbn [bind].
    rewrite read_rc_ok by assumption. cbn [bind]. lack t a He. now apply post_check_other.
Qed.
Lemma read_lax_pubrel a body extra : ack_ok pubrel_codes pubrel_cfg a -> lax_ack FromBuffer TPubRel a body -> ack_accepts a body extra ->
  read_pubrel (len (body ++ extra)) (body ++ extra) = Ok (a, extra).
Proof.
  intros HO HS HX. pose proof HO as (HI & HR & HP). unfold read_pubrel.
  destruct (lax_ack_forms _ _ _ _ _ _ _ HO HS HX) as [(-> & -> & E)|[(-> & -> & _ & E)|(sec & Hs & He & EB & HL)]].
  - rewrite app_nil_r, spec_u16_len. change (2 =? 2) with true. cbv iota.
    rewrite <- (app_nil_r (spec_u16 (ak_id a))), read_u16_ok by assumption. cbn [bind]. now rewrite <- E.
  - rewrite app_nil_r. replace (len (spec_u16 (ak_id a) ++ [spec_rc (ak_rc a)])) with 3 by reflexivity.
    change (3 =? 2) with false. change (3 =? 3) with true. cbv iota. rewrite read_u16_ok by assumption. cbn [bind].
    rewrite read_rc_ok by auto with codes. cbn [bind]. now rewrite <- E.
  - apply (app_len_ge _ extra) in HL. generalize dependent (len (body ++ extra)). intros n HL. subst body. rewrite <- app_assoc. cbn [app].
    dec (n =? 2) false. dec (n =? 3) false. rewrite read_u16_ok by assumption. cbn [bind].
    rewrite read_rc_ok by auto with codes. cbn [bind]. lack TPubRel a He.
Qed.

Lemma lax_topics_count l b : lax_topics l b -> (length l <= length b)%nat.
Proof. induction 1; cbn [length]; [lia|]. rewrite !app_length. cbn [length]. lia. Qed.
Lemma read_lax_topics l b : lax_topics l b -> forall fuel, Forall (fun t => str_ok (fst t)) l -> l <> [] ->
  (length l <= fuel)%nat -> read_sub_topics fuel b = Ok (l, []).
Proof.
  induction 1 as [|t o v l b Hv E L IH]; intros fuel HF HN HL; [congruence|].
  destruct fuel as [|fuel]; [cbn in HL; lia|]. inversion HF; subst. cbn [fst] in *.
  cbn [read_sub_topics]. rewrite read_str_ok by assumption. cbn [bind app]. rewrite (read_sopts_lax v o) by assumption. cbn [bind].
  destruct l as [|x l].
  - inversion L; subst. reflexivity.
  - replace (len b =? 0) with false.
    2: { apply lax_topics_count in L. cbn [length] in L. unfold len. lia. }
    rewrite IH; [reflexivity|assumption|discriminate|cbn in *; lia].
Qed.
Lemma read_lax_subscribe s body : packet_ok (PSubscribe s) -> lax_body FromBuffer (PSubscribe s) body ->
  read_subscribe body = Ok (s, []).
Proof.
  intros (HI & HP & HT & HN) (sec & tb & Hsec & Htb & ->). unfold read_subscribe.
  rewrite read_u16_ok by assumption. cbn [bind]. lsec subscribe_cfg (sb_props s). cbn [bind].
  rewrite (read_lax_topics (sb_topics s) tb); auto; [now destruct s|]. pose proof (lax_topics_count _ _ Htb). lia.
Qed.
Lemma read_lax_unsubscribe s body : packet_ok (PUnsubscribe s) -> lax_body FromBuffer (PUnsubscribe s) body ->
  read_unsubscribe body = Ok (s, []).
Proof.
  intros (HI & HP & HT & HN) (sec & Hsec & ->). unfold read_unsubscribe.
  rewrite read_u16_ok by assumption. cbn [bind]. lsec unsubscribe_cfg (ub_props s). cbn [bind].
  rewrite read_unsub_topics_ok; auto; [now destruct s|]. pose proof (spec_datas_length (ub_topics s)). lia.
Qed.
Lemma read_lax_disconnect d body extra : packet_ok (PDisconnect d) -> lax_body FromBuffer (PDisconnect d) body -> (body = [] -> extra = []) ->
  read_disconnect (len (body ++ extra)) (body ++ extra) = Ok (d, extra).
Proof.
  intros (HR & HP) HS HX. unfold read_disconnect. destruct HS as [(E & E2 & ->)|(sec & Hsec & ->)].
  - rewrite (HX eq_refl). apply (empty_props_eq disconnect_cfg) in E2; [|assumption]. destruct d; cbn in *. now subst.
  - nrw. match goal with |- context [?a =? 0] => replace (a =? 0) with false by lia end.
    cbn [app]. rewrite read_rc_ok by auto with codes. cbn [bind].
    lsec disconnect_cfg (dc_props d). now destruct d.
Qed.
Lemma read_lax_auth d body extra : packet_ok (PAuth d) -> lax_body FromBuffer (PAuth d) body -> read_auth (body ++ extra) = Ok (d, extra).
Proof.
  intros (HR & HP) (sec & Hsec & ->). unfold read_auth.
  cbn [app]. rewrite read_rc_ok by auto with codes. cbn [bind]. lsec auth_cfg (dc_props d). now destruct d.
Qed.
Lemma read_lax_body p body extra : packet_ok p -> lax_body FromBuffer p body -> buffer_accepts p body extra ->
  read_body (FH (type_of p) (spec_flags p) (len (body ++ extra))) (body ++ extra) = Ok (p, extra).
Proof.
  intros HO HS HX. unfold read_body. cbn [fh_type fh_rem fh_flags].
  destruct p; cbn [type_of]; cbn [buffer_accepts] in HX.
  - now rewrite (read_lax_connect c).
  - now rewrite (read_lax_connack c).
  - subst extra. rewrite app_nil_r. now rewrite (read_lax_publish p).
  - now rewrite (read_lax_puback a).
  - unfold pubrec_cfg in *. now rewrite (read_lax_ack4 pubrec_codes TPubRec a) by (auto with codes; cbn; intuition discriminate).
  - now rewrite (read_lax_pubrel a).
  - unfold pubcomp_cfg in *. now rewrite (read_lax_ack4 pubcomp_codes TPubComp a) by (auto with codes; cbn; intuition discriminate).
  - subst extra. rewrite app_nil_r. now rewrite (read_lax_subscribe s).
  - destruct HX as [-> HX]. rewrite app_nil_r. now rewrite (read_suback_ok s).
  - subst extra. rewrite app_nil_r. now rewrite (read_lax_unsubscribe u).
  - destruct HX as [-> HX]. rewrite app_nil_r. now rewrite (read_unsuback_ok u).
  - cbn in HS. now subst.
  - cbn in HS. now subst.
  - now rewrite (read_lax_disconnect d).
  - now rewrite (read_lax_auth a).
Qed.

(* ---- the stream ---- *)
Ltac alsec cfg ak p := rewrite (aread_lax_section cfg ak p) by assumption.
Lemma aread_lax_will w wl rest : will_ok w -> lax_will FromStream w wl -> aread_will (wl_qos w) (wl_retain w) (wl ++ rest) = AOk w (len wl) rest.
Proof.
  intros (HP & HT & HB) (sec & Hsec & ->). unfold aread_will.
  rewrite <- !app_assoc. alsec will_cfg false (wl_props w).
  cbn [abind]. rewrite aread_str_ok by assumption. cbn [abind]. destruct HB. rewrite aread_bin_ok by assumption.
  cbn [abind]. rewrite !len_app. destruct w; cbn; f_equal; lia.
Qed.
Lemma aread_lax_connect c body rest : packet_ok (PConnect c) -> lax_body FromStream (PConnect c) body -> aread_connect (body ++ rest) = AOk c (len body) rest.
Proof.
  intros (HK & HP & HW & HU & HPw & HC) (sec & wl & f & Hsec & Hf & Hwl & ->). unfold aread_connect.
  rewrite <- !app_assoc. change (spec_data [77; 81; 84; 84]) with ([0; 4] ++ mqtt_name).
  rewrite aread_exact_ok by reflexivity. cbn [abind]. change (negb (bytes_eqb ([0; 4] ++ mqtt_name) ([0; 4] ++ mqtt_name))) with false. cbv iota.
  unfold aread_protocol_version. cbn [app aread_u8 abind]. change (5 =? 5) with true. cbv iota. cbn [abind].
  destruct (lax_cflags_read c f Hf) as (g & E & G1 & G2 & G3 & G4 & G5).
  rewrite (aread_cflags_at f g) by assumption. cbn [abind]. rewrite aread_u16_ok by assumption. cbn [abind].
  alsec connect_cfg false (cn_props c). cbn [abind].
  rewrite aread_str_ok by assumption. cbn [abind]. rewrite G1, G2, G3, G4.
  destruct (cn_will c) as [w|] eqn:EW; cbn [is_some].
  - cbn in HW. destruct (G5 w eq_refl) as [-> ->]. rewrite (aread_lax_will w) by assumption. cbn [abind].
    rewrite aread_opt_str_ok by assumption. cbn [abind]. rewrite aread_opt_str_ok by assumption. cbn [abind].
    rewrite <- EW. destruct c; cbn. repeat (rewrite len_app || rewrite (@len_cons N) || rewrite (@len_nil N)).
    f_equal. lia.
  - subst wl. cbn [app abind]. rewrite aread_opt_str_ok by assumption. cbn [abind].
    rewrite aread_opt_str_ok by assumption. cbn [abind].
    rewrite <- EW. destruct c; cbn. repeat (rewrite len_app || rewrite (@len_cons N) || rewrite (@len_nil N)).
    f_equal. lia.
Qed.
Lemma aread_lax_connack c body rest : packet_ok (PConnAck c) -> lax_body FromStream (PConnAck c) body -> aread_connack (body ++ rest) = AOk c (len body) rest.
Proof.
  intros (HR & HP) (sec & f & Hsec & Hf & Ef & ->). unfold aread_connack, aread_caflags. cbn [app aread_u8 abind].
  rewrite aread_rc_ok by auto with codes. cbn [abind]. alsec connack_cfg false (ca_props c). cbn [abind].
  rewrite (caflags_lax f (ca_session_present c)) by assumption. rewrite !(@len_cons N). destruct c; cbn; f_equal; lia.
Qed.
Lemma aread_lax_publish p body rest : packet_ok (PPublish p) -> lax_body FromStream (PPublish p) body ->
  aread_publish (spec_flags (PPublish p)) (len body) (body ++ rest) = AOk p (len body) rest.
Proof.
  intros (HT & HI & HQ & HP & HB) (sec & Hsec & ->). unfold aread_publish.
  destruct (publish_flags_read p) as (Q & D & R). rewrite Q, D, R.
  rewrite <- !app_assoc. rewrite aread_str_ok by assumption. cbn [abind].
  destruct (pb_pkid p) as [i|] eqn:EI.
  - assert (qos_eqb (pb_qos p) AtMostOnce = false) as ->.
    { destruct (pb_qos p) eqn:E; try reflexivity. destruct HQ as [_ HQ]. discriminate (HQ eq_refl). }
    rewrite aread_u16_ok by exact HI. cbn [abind].
    alsec publish_cfg false (pb_props p). cbn [abind].
    rewrite !len_app, spec_u16_len.
    match goal with |- context [?a <? ?b] => replace (a <? b) with false by lia end.
    match goal with |- context [aread_exact ?n _] => replace n with (len (pb_payload p)) by lia end.
    rewrite aread_exact_ok by reflexivity. cbn [abind]. rewrite <- EI. destruct p; cbn; f_equal; lia.
  - destruct HQ as [HQ _]. rewrite (HQ eq_refl). cbn [qos_eqb app abind].
    alsec publish_cfg false (pb_props p). cbn [abind].
    rewrite !len_app, ?(@len_nil N).
    match goal with |- context [?a <? ?b] => replace (a <? b) with false by lia end.
    match goal with |- context [aread_exact ?n _] => replace n with (len (pb_payload p)) by lia end.
    rewrite aread_exact_ok by reflexivity. cbn [abind].
    rewrite <- EI, <- (HQ eq_refl). destruct p; cbn; f_equal; lia.
Qed.
Lemma alax_ack_forms t tbl cfg a body : ack_ok tbl cfg a -> lax_ack FromStream t a body ->
  (body = spec_u16 (ak_id a) /\ a = Ack (ak_id a) RSuccess no_props) \/
  (body = spec_u16 (ak_id a) ++ [spec_rc (ak_rc a)] /\ In t [TPubAck; TPubRel] /\ a = Ack (ak_id a) (ak_rc a) no_props) \/
  (exists sec, lax_section FromStream true (ak_props a) sec /\ body = spec_u16 (ak_id a) ++ spec_rc (ak_rc a) :: sec /\ 4 <= len body).
Proof.
  intros HO HS. destruct (lax_ack_forms _ _ _ _ _ _ [] HO HS (or_introl eq_refl)) as [(-> & _ & E)|[(-> & _ & Ht & E)|(sec & Hs & _ & E & L)]]; eauto 10.
Qed.
Lemma aread_lax_puback a body rest : ack_ok puback_codes puback_cfg a -> lax_ack FromStream TPubAck a body ->
  aread_puback (len body) (body ++ rest) = AOk a (len body) rest.
Proof.
  intros HO HS. pose proof HO as (HI & HR & HP). unfold aread_puback.
  destruct (alax_ack_forms _ _ _ _ _ HO HS) as [(-> & E)|[(-> & _ & E)|(sec & Hs & EB & HL)]].
  - rewrite spec_u16_len. change (2 <? 2) with false. cbv iota.
    rewrite aread_u16_ok by assumption. cbn [abind]. change (2 =? 2) with true. cbv iota. now rewrite <- E.
  - replace (len (spec_u16 (ak_id a) ++ [spec_rc (ak_rc a)])) with 3 by reflexivity.
    change (3 <? 2) with false. cbv iota. rewrite <- app_assoc, aread_u16_ok by assumption. cbn [abind app].
    change (3 =? 2) with false. cbv iota. rewrite aread_rc_ok by auto with codes. cbn [abind].
    change (3 =? 3) with true. cbv iota. cbn [abind]. now rewrite <- E.
  - dec (len body <? 2) false. replace (body ++ rest) with (spec_u16 (ak_id a) ++ spec_rc (ak_rc a) :: sec ++ rest) by (rewrite EB, <- app_assoc; reflexivity). rewrite aread_u16_ok by assumption. cbn [abind].
    dec (len body =? 2) false. rewrite aread_rc_ok by auto with codes. cbn [abind]. dec (len body =? 3) false.
    alsec puback_cfg true (ak_props a). cbn [abind]. rewrite EB. nrw. destruct a; cbn; f_equal; lia.
Qed.
Lemma aread_lax_pubrec a body rest : ack_ok pubrec_codes pubrec_cfg a -> lax_ack FromStream TPubRec a body ->
  aread_pubrec (len body) (body ++ rest) = AOk a (len body) rest.
Proof.
  intros HO HS. pose proof HO as (HI & HR & HP). unfold aread_pubrec.
  destruct (alax_ack_forms _ _ _ _ _ HO HS) as [(-> & E)|[(-> & C & E)|(sec & Hs & EB & HL)]].
  - rewrite spec_u16_len. rewrite aread_u16_ok by assumption. cbn [abind]. change (2 =? 2) with true. cbv iota. now rewrite <- E.
  - cbn in C. intuition discriminate.
  - replace (body ++ rest) with (spec_u16 (ak_id a) ++ spec_rc (ak_rc a) :: sec ++ rest) by (rewrite EB, <- app_assoc; reflexivity). rewrite aread_u16_ok by assumption. cbn [abind].
    dec (len body =? 2) false. rewrite aread_rc_ok by auto with codes. cbn [abind].
    alsec pubrec_cfg true (ak_props a). cbn [abind]. rewrite EB. nrw. destruct a; cbn; f_equal; lia.
Qed.
Lemma aread_lax_pubrel a body rest : ack_ok pubrel_codes pubrel_cfg a -> lax_ack FromStream TPubRel a body ->
  aread_pubrel (len body) (body ++ rest) = AOk a (len body) rest.
Proof.
  intros HO HS. pose proof HO as (HI & HR & HP). unfold aread_pubrel.
  destruct (alax_ack_forms _ _ _ _ _ HO HS) as [(-> & E)|[(-> & _ & E)|(sec & Hs & EB & HL)]].
  - rewrite spec_u16_len. rewrite aread_u16_ok by assumption. cbn [abind]. change (2 =? 2) with true. cbv iota. now rewrite <- E.
  - replace (len (spec_u16 (ak_id a) ++ [spec_rc (ak_rc a)])) with 3 by reflexivity.
    rewrite <- app_assoc, aread_u16_ok by assumption. cbn [abind app].
    change (3 =? 2) with false. cbv iota. rewrite aread_rc_ok by auto with codes. cbn [abind].
    change (3 =? 3) with true. cbv iota. now rewrite <- E.
  - replace (body ++ rest) with (spec_u16 (ak_id a) ++ spec_rc (ak_rc a) :: sec ++ rest) by (rewrite EB, <- app_assoc; reflexivity). rewrite aread_u16_ok by assumption. cbn [abind].
    dec (len body =? 2) false. rewrite aread_rc_ok by auto with codes. cbn [abind]. dec (len body =? 3) false.
    alsec pubrel_cfg true (ak_props a). cbn [abind]. rewrite EB. nrw. destruct a; cbn; f_equal; lia.
Qed.
Lemma aread_lax_pubcomp a body rest : ack_ok pubcomp_codes pubcomp_cfg a -> lax_ack FromStream TPubComp a body ->
  aread_pubcomp (len body) (body ++ rest) = AOk a (len body) rest.
Proof.
  intros HO HS. pose proof HO as (HI & HR & HP). unfold aread_pubcomp.
  destruct (alax_ack_forms _ _ _ _ _ HO HS) as [(-> & E)|[(-> & C & E)|(sec & Hs & EB & HL)]].
  - rewrite spec_u16_len. rewrite aread_u16_ok by assumption. cbn [abind]. change (2 =? 2) with true. cbv iota. now rewrite <- E.
  - cbn in C. intuition discriminate.
  - replace (body ++ rest) with (spec_u16 (ak_id a) ++ spec_rc (ak_rc a) :: sec ++ rest) by (rewrite EB, <- app_assoc; reflexivity). rewrite aread_u16_ok by assumption. cbn [abind].
    dec (len body =? 2) false. dec (len body <? 4) false. rewrite aread_rc_ok by auto with codes. cbn [abind].
    alsec pubcomp_cfg true (ak_props a). cbn [abind].
    assert (L : 2 + 1 + len sec = len body) by (rewrite EB; nrw; lia).
    rewrite L, N.eqb_refl. cbn [negb]. now destruct a.
Qed.
Lemma aread_lax_subscribe s body rest : packet_ok (PSubscribe s) -> lax_body FromStream (PSubscribe s) body ->
  stream_accepts (PSubscribe s) -> aread_subscribe (len body) (body ++ rest) = AOk s (len body) rest.
Proof.
  intros (HI & HP & HT & HN) (sec & tb & Hsec & Htb & ->) ([t o] & H1). unfold aread_subscribe.
  rewrite <- !app_assoc. rewrite aread_u16_ok by assumption. cbn [abind].
  alsec subscribe_cfg false (sb_props s). cbn [abind]. rewrite H1 in Htb, HT.
  inversion Htb as [|? ? v ? b Hv Ev L]; subst. inversion L; subst. inversion HT; subst. cbn [fst] in *.
  cbn [aread_sub_topics]. rewrite <- !app_assoc. rewrite aread_str_ok by assumption. cbn [abind app].
  rewrite (aread_sopts_lax v o) by assumption. cbn [abind]. nrw.
  match goal with |- context [?a <=? ?b] => replace (a <=? b) with true by lia end. cbn [abind].
  destruct s; cbn in *. subst. f_equal. lia.
Qed.
Lemma aread_lax_unsubscribe s body rest : packet_ok (PUnsubscribe s) -> lax_body FromStream (PUnsubscribe s) body ->
  aread_unsubscribe (len body) (body ++ rest) = AOk s (len body) rest.
Proof.
  intros (HI & HP & HT & HN) (sec & Hsec & ->). unfold aread_unsubscribe.
  rewrite <- !app_assoc. rewrite aread_u16_ok by assumption. cbn [abind].
  alsec unsubscribe_cfg false (ub_props s). cbn [abind].
  rewrite aread_unsub_topics_ok; auto.
  - cbn [abind]. now destruct s.
  - pose proof (spec_datas_length (ub_topics s)). rewrite app_length. lia.
  - rewrite !len_app, spec_u16_len. lia.
Qed.
Lemma aread_lax_suback s body rest : packet_ok (PSubAck s) -> lax_body FromStream (PSubAck s) body ->
  aread_suback (len body) (body ++ rest) = AOk s (len body) rest.
Proof.
  intros (HI & HP & HC) (sec & Hsec & ->). unfold aread_suback.
  rewrite <- !app_assoc. rewrite aread_u16_ok by assumption. cbn [abind].
  alsec suback_cfg false (sa_props s). cbn [abind].
  rewrite aread_codes_eq_ok; auto with codes.
  - cbn [abind]. now destruct s.
  - rewrite app_length, map_length. lia.
  - rewrite !len_app, spec_u16_len, len_map. lia.
Qed.
Lemma aread_lax_unsuback s body rest : packet_ok (PUnsubAck s) -> lax_body FromStream (PUnsubAck s) body ->
  aread_unsuback (len body) (body ++ rest) = AOk s (len body) rest.
Proof.
  intros (HI & HP & HC) (sec & Hsec & ->). unfold aread_unsuback.
  rewrite <- !app_assoc. rewrite aread_u16_ok by assumption. cbn [abind].
  alsec unsuback_cfg false (sa_props s). cbn [abind].
  rewrite aread_codes_ge_ok; auto with codes.
  - cbn [abind]. now destruct s.
  - rewrite app_length, map_length. lia.
  - rewrite !len_app, spec_u16_len, len_map. lia.
Qed.
Lemma aread_lax_disconnect d body rest : packet_ok (PDisconnect d) -> lax_body FromStream (PDisconnect d) body ->
  aread_disconnect (len body) (body ++ rest) = AOk d (len body) rest.
Proof.
  intros (HR & HP) HS. unfold aread_disconnect. destruct HS as [(E & E2 & ->)|(sec & Hsec & ->)].
  - apply (empty_props_eq disconnect_cfg) in E2; [|assumption]. destruct d; cbn in *. now subst.
  - nrw. match goal with |- context [?a =? 0] => replace (a =? 0) with false by lia end.
    cbn [app]. rewrite aread_rc_ok by auto with codes. cbn [abind].
    alsec disconnect_cfg false (dc_props d). cbn [abind]. destruct d; cbn; f_equal; lia.
Qed.
Lemma aread_lax_auth d body rest : packet_ok (PAuth d) -> lax_body FromStream (PAuth d) body -> aread_auth (body ++ rest) = AOk d (len body) rest.
Proof.
  intros (HR & HP) (sec & Hsec & ->). unfold aread_auth.
  cbn [app]. rewrite aread_rc_ok by auto with codes. cbn [abind].
  alsec auth_cfg false (dc_props d). cbn [abind]. nrw. destruct d; cbn; f_equal; lia.
Qed.
Lemma aread_lax_body p body rest : packet_ok p -> lax_body FromStream p body -> stream_accepts p ->
  aread_body (FH (type_of p) (spec_flags p) (len body)) (body ++ rest) = AOk p (len body) rest.
Proof.
  intros HO HS HR. unfold aread_body. cbn [fh_type fh_rem fh_flags].
  destruct p; cbn [type_of].
  - now rewrite (aread_lax_connect c).
  - now rewrite (aread_lax_connack c).
  - now rewrite (aread_lax_publish p).
  - now rewrite (aread_lax_puback a).
  - now rewrite (aread_lax_pubrec a).
  - now rewrite (aread_lax_pubrel a).
  - now rewrite (aread_lax_pubcomp a).
  - now rewrite (aread_lax_subscribe s).
  - now rewrite (aread_lax_suback s).
  - now rewrite (aread_lax_unsubscribe u).
  - now rewrite (aread_lax_unsuback u).
  - cbn in HS. now subst.
  - cbn in HS. now subst.
  - now rewrite (aread_lax_disconnect d).
  - now rewrite (aread_lax_auth a).
Qed.

(* ---- frames ---- *)
Lemma enc_read_packet p enc body extra rest : int_enc (len (body ++ extra)) enc -> packet_ok p -> lax_body FromBuffer p body -> buffer_accepts p body extra ->
  read_packet (spec_first p :: enc ++ body ++ extra ++ rest) = RPacket p rest.
Proof.
  intros [V E] HO HS HX. rewrite (app_assoc body). rewrite (read_complete _ enc (body ++ extra) rest (type_of p) (spec_flags p)); auto.
  - unfold body_result. rewrite E, read_lax_body by assumption. reflexivity.
  - apply first_byte_read.
Qed.
Lemma enc_aread_packet p enc body rest : int_enc (len body) enc -> packet_ok p -> lax_body FromStream p body -> stream_accepts p ->
  aread_packet (spec_first p :: enc ++ body ++ rest) = AOk p (len body) rest.
Proof.
  intros E HO HS HX. unfold aread_packet, aread_fixed_header. cbn [aread_u8 abind]. rewrite first_byte_read, (aread_enc _ _ _ E). cbn [abind].
  now apply aread_lax_body.
Qed.
