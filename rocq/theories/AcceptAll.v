(* What the decoders return meets the conditions of SpecAccept *)
From Coq Require Import Permutation.
From Verif Require Import Base VarInt Prims Props Codes Packets SpecCodec SpecLenient SpecAccept BaseFacts VarIntFacts PrimFacts PropsFacts PacketFacts GoodFacts SyncGood FrameFacts SectionFacts CountFacts FrameMore LenientFacts LenientMore AcceptFacts AcceptMore.

(* ---- the shortest form is the only one of its length ---- *)
Lemma groups_same : forall i j l m, Forall (fun b => 128 <= b < 256) i -> Forall (fun b => 128 <= b < 256) j -> l < 128 -> m < 128 -> length i = length j ->
  groups_value (i ++ [l]) = groups_value (j ++ [m]) -> i ++ [l] = j ++ [m].
Proof.
  induction i as [|a i IH]; intros [|b j] l m Hi Hj Hl Hm EL EV; try discriminate EL.
  - cbn [app groups_value] in EV. rewrite !N.mod_small in EV by lia. cbn [app]. f_equal. lia.
  - cbn [app groups_value] in EV. inversion Hi; subst. inversion Hj; subst.
    assert (A : a mod 128 < 128) by (apply N.mod_lt; lia). assert (B : b mod 128 < 128) by (apply N.mod_lt; lia).
    assert (a mod 128 = b mod 128 /\ groups_value (i ++ [l]) = groups_value (j ++ [m])) as [EM EV'].
    { clear - EV A B. split; lia. }
    cbn [app]. f_equal; [|apply IH; auto].
    assert (Ea : a = 128 + a mod 128) by (rewrite (N.div_mod a 128) at 1 by lia; assert (a / 128 = 1) as -> by (symmetry; apply (N.div_unique a 128 1 (a - 128)); lia); lia).
    assert (Eb : b = 128 + b mod 128) by (rewrite (N.div_mod b 128) at 1 by lia; assert (b / 128 = 1) as -> by (symmetry; apply (N.div_unique b 128 1 (b - 128)); lia); lia).
    congruence.
Qed.
Lemma varint_same a b : is_varint a -> is_varint b -> len a = len b -> groups_value a = groups_value b -> a = b.
Proof.
  intros (i & l & -> & Hi & Hl & _) (j & m & -> & Hj & Hm & _) EL EV. apply groups_same; auto.
  unfold len in EL. rewrite !app_length in EL. cbn [length] in EL. lia.
Qed.
Lemma enc_max v e : int_enc v e -> v <= MAXVAR.
Proof.
  intros [V <-]. pose proof (groups_value_bound e) as G. destruct V as (i & l & _ & _ & _ & L).
  assert (128 ^ len e <= 128 ^ 4) by (apply N.pow_le_mono_r; lia). change (128 ^ 4) with 268435456 in *. unfold MAXVAR. lia.
Qed.
Lemma enc_min v e : int_enc v e -> len e <= len (spec_varint v) -> e = spec_varint v.
Proof.
  intros HE HL. pose proof (enc_max v e HE) as M. destruct (spec_varint_is_varint v M) as [V1 V2]. destruct HE as [V <-].
  apply varint_same; auto. pose proof (varint_min e V). lia.
Qed.
Lemma lax_val_min v b : lax_val v b -> len b <= len (spec_val v) -> b = spec_val v.
Proof. destruct v; cbn [lax_val spec_val]; auto. apply enc_min. Qed.
Lemma lax_items_min its b : lax_items its b -> len b <= len (spec_items its) -> b = spec_items its.
Proof.
  induction 1 as [|t v vb its b LV LI IH]; intros HL; [reflexivity|]. rewrite spec_items_cons in *. unfold spec_item in *. cbn [fst snd] in *.
  pose proof (lax_val_len _ _ LV). pose proof (lax_items_len _ _ LI). revert HL. cbn [app]. rewrite !(@len_cons N), !len_app. intros HL.
  rewrite <- IH by lia. rewrite <- (lax_val_min v vb) by (assumption || lia). reflexivity.
Qed.
Lemma lax_section_min cfg p sec : cfg_good cfg -> props_ok cfg p -> auth_ok p -> lax_section FromBuffer false p sec -> len sec <= section_len cfg p -> spec_section_of p sec.
Proof.
  intros HG HP HA (its & e & ib & LI & HH & -> & V & EV) HL. pose proof (holds_arranges _ _ HH) as AI. cbv beta iota in EV.
  rewrite section_len_spec in HL by assumption. unfold spec_section in HL. rewrite !len_app in HL.
  assert (A : arranges (its_of (c_decl cfg) p) p) by (now apply its_of_decl_arranges).
  assert (E : len (spec_items (its_of (c_decl cfg) p)) = len (spec_items its)) by (apply items_len_perm, vals_perm; intros t; now rewrite A, AI).
  rewrite E in HL. pose proof (lax_items_len _ _ LI) as L1.
  assert (EN : int_enc (len ib) e) by (split; assumption).
  pose proof (varint_min e V) as L2. rewrite EV in L2.
  assert (L3 : len (spec_varint (len (spec_items its))) <= len (spec_varint (len ib))) by (rewrite !spec_varint_len; now apply varint_len_mono).
  assert (EI : ib = spec_items its) by (apply lax_items_min; [assumption|lia]).
  exists its. split; [assumption|]. unfold spec_section. rewrite <- EI. split; [exact (enc_max _ _ EN)|]. f_equal. apply enc_min; [assumption|]. rewrite <- EI in HL. lia.
Qed.

(* ---- properties ---- *)
Lemma loop_no_pfi cfg : c_pfi_inverted cfg = true -> forall f p b a r, payload_format_indicator p = None ->
  read_props_loop f cfg p b = Ok (a, r) -> payload_format_indicator a = None.
Proof.
  intros HC. induction f as [|f IH]; intros p b a r HN H; [discriminate|]. cbn [read_props_loop] in H.
  apply bind_ok in H as ([t b1] & E & H). destruct (declares cfg t); cbn [negb] in H; [|discriminate].
  destruct (is_dup cfg t p) eqn:ED; [discriminate|]. apply bind_ok in H as ([v b2] & E2 & H). cbv zeta in H.
  assert (HN' : payload_format_indicator (store cfg t v p) = None).
  { destruct t; try (destruct v; cbn [store]; try destruct (c_sublist cfg); assumption).
    exfalso. cbn in ED. rewrite HC, HN in ED. discriminate. }
  destruct (len b2 =? 0); [|now apply IH in H]. now injection H as <- _.
Qed.
Lemma props_checked cfg b a r : read_props cfg b = Ok (a, r) -> post_check cfg a = true /\ (c_pfi_inverted cfg = true -> payload_format_indicator a = None).
Proof.
  intros H. unfold read_props in H. apply bind_ok in H as ([[n k] b'] & E & H). destruct (n =? 0).
  { injection H as <- _. split; [|reflexivity]. unfold post_check. now destruct (c_packet cfg). }
  destruct (len b' <? n); [discriminate|]. cbv zeta in H. apply bind_ok in H as ([p r'] & E2 & H).
  destruct (post_check cfg p) eqn:EP; [|discriminate]. injection H as <- _. split; [assumption|].
  intros HC. now apply (loop_no_pfi cfg HC) in E2.
Qed.
Lemma props_left cfg b a r : c_split cfg = false -> all_bytes b -> read_props cfg b = Ok (a, r) -> r = [] \/ exists e, int_enc 0 e /\ b = e ++ r.
Proof.
  intros HS HB H. unfold read_props in H. apply bind_ok in H as ([[n k] b'] & E & H).
  apply take_varint in E as (e & -> & V & EV); [|assumption]. apply all_bytes_app in HB as [_ HB].
  destruct (n =? 0) eqn:E0.
  - injection H as <- <-. right. exists e. split; [split; [assumption|lia]|reflexivity].
  - destruct (len b' <? n) eqn:EL; [discriminate|]. rewrite HS in H. cbv zeta in H.
    apply bind_ok in H as ([p r'] & E & H). destruct (post_check cfg p); [|discriminate]. injection H as <- <-.
    apply (take_loop cfg _ []) in E as (its & ib & EB & LI & _ & -> & HV);
      [|assumption|apply unused_no_props|intros; apply prop_vals_no_props|reflexivity]. now left.
Qed.

(* ---- packets of the buffer ---- *)
Lemma connect_accepted b c r : read_connect b = Ok (c, r) -> will_without_pfi c /\ method_for_data c.
Proof.
  intros H. unfold read_connect in H. apply bind_ok in H as ([name b1] & _ & H). destruct (negb (bytes_eqb name mqtt_name)); [discriminate|].
  apply bind_ok in H as (b2 & _ & H). apply bind_ok in H as ([f b3] & _ & H). apply bind_ok in H as ([ka b4] & _ & H).
  apply bind_ok in H as ([p b5] & EP & H). apply bind_ok in H as ([cid b6] & _ & H). apply bind_ok in H as ([w b7] & EW & H).
  apply bind_ok in H as ([u b8] & _ & H). apply bind_ok in H as ([pw b9] & _ & H). injection H as <- _. split.
  - unfold will_without_pfi. cbn [cn_will]. destruct (cf_will f); [|now injection EW as <- _].
    apply bind_ok in EW as ([w' b'] & E & EW). injection EW as <- _. unfold read_will in E. apply bind_ok in E as ([q b''] & EQ & E).
    apply bind_ok in E as ([tp b10] & _ & E). apply bind_ok in E as ([pl b11] & _ & E). injection E as <- _. cbn [wl_props].
    now apply props_checked in EQ as [_ ->].
  - apply method_check. cbn [cn_props]. now apply props_checked in EP as [-> _].
Qed.
Lemma tail_accepted a body extra e i k : int_enc 0 e -> body ++ extra = spec_u16 i ++ [spec_rc k] ++ e ++ extra -> ak_id a = i -> ak_rc a = k -> ack_accepts a body extra.
Proof. intros HE EB <- <-. right. exists e. split; [assumption|]. rewrite !app_assoc in EB. apply app_inv_tail in EB. now rewrite app_assoc. Qed.
Lemma puback_accepted b a r body : all_bytes b -> read_puback (len b) b = Ok (a, r) -> b = body ++ r -> ack_accepts a body r.
Proof.
  intros HB H. unfold read_puback in H. destruct (len b <? 2); [discriminate|]. remember (len b) as rem eqn:ER. bstep H take_u16 HB i b1 R1. subst c.
  rewrite len_app, spec_u16_len in ER. destruct (rem =? 2) eqn:E2.
  { injection H as <- <-. intros _. left. apply len_zero. lia. }
  bstep H (take_rc puback_codes) HB k b2 R2. subst c. rewrite len_app in ER. change (len [spec_rc k]) with 1 in ER. destruct (rem =? 3) eqn:E3.
  { injection H as <- <-. intros _. left. apply len_zero. lia. }
  apply bind_ok in H as ([p b3] & E & H). injection H as <- <-. intros EB. apply props_left in E as [->|(e & HE & ->)]; [now left| |reflexivity|assumption].
  eapply tail_accepted; [exact HE|now rewrite <- EB|reflexivity|reflexivity].
Qed.
Lemma ack4_accepted tbl cfg b a r body : c_split cfg = false -> all_bytes b -> read_ack4 tbl cfg (len b) b = Ok (a, r) -> b = body ++ r -> ack_accepts a body r.
Proof.
  intros HC HB H. unfold read_ack4 in H. remember (len b) as rem eqn:ER. destruct (rem =? 2) eqn:E2.
  { bstep H take_u16 HB i b1 R1. subst c. injection H as <- <-. intros _. left. rewrite len_app, spec_u16_len in ER. apply len_zero. lia. }
  destruct (rem <? 4); [discriminate|]. bstep H take_u16 HB i b1 R1. subst c. bstep H (take_rc tbl) HB k b2 R2. subst c.
  apply bind_ok in H as ([p b3] & E & H). injection H as <- <-. intros EB. apply props_left in E as [->|(e & HE & ->)]; [now left| |assumption|assumption].
  eapply tail_accepted; [exact HE|now rewrite <- EB|reflexivity|reflexivity].
Qed.
Lemma pubrel_accepted b a r body : all_bytes b -> read_pubrel (len b) b = Ok (a, r) -> b = body ++ r -> ack_accepts a body r.
Proof.
  intros HB H. unfold read_pubrel in H. remember (len b) as rem eqn:ER. destruct (rem =? 2) eqn:E2.
  { bstep H take_u16 HB i b1 R1. subst c. injection H as <- <-. intros _. left. rewrite len_app, spec_u16_len in ER. apply len_zero. lia. }
  destruct (rem =? 3) eqn:E3.
  { bstep H take_u16 HB i b1 R1. subst c. bstep H (take_rc pubrel_codes) HB k b2 R2. subst c. injection H as <- <-. intros _. left.
    rewrite !len_app, spec_u16_len in ER. change (len [spec_rc k]) with 1 in ER. apply len_zero. lia. }
  bstep H take_u16 HB i b1 R1. subst c. bstep H (take_rc pubrel_codes) HB k b2 R2. subst c.
  apply bind_ok in H as ([p b3] & E & H). injection H as <- <-. intros EB. apply props_left in E as [->|(e & HE & ->)]; [now left| |reflexivity|assumption].
  eapply tail_accepted; [exact HE|now rewrite <- EB|reflexivity|reflexivity].
Qed.
Lemma section_spec cfg s body rem : In cfg [suback_cfg; unsuback_cfg] -> props_ok cfg (sa_props s) -> len body = rem -> rem <= 2 + section_len cfg (sa_props s) + len (sa_codes s) ->
  (exists sec, lax_section FromBuffer false (sa_props s) sec /\ body = spec_u16 (sa_id s) ++ sec ++ map spec_rc (sa_codes s)) ->
  exists sec, spec_section_of (sa_props s) sec /\ body = spec_u16 (sa_id s) ++ sec ++ map spec_rc (sa_codes s).
Proof.
  intros HC HP HL HR (sec & LS & EB). exists sec. split; [|assumption].
  assert (HG : cfg_good cfg) by (apply cfg_good_in; cbn in *; intuition).
  apply (lax_section_min cfg); auto; [now apply (suback_auth_ok cfg)|]. rewrite EB, !len_app, len_map_rc, spec_u16_len in HL. lia.
Qed.
Lemma suback_count rem b a r : all_bytes b -> read_suback rem b = Ok (a, r) -> rem <= 2 + section_len suback_cfg (sa_props a) + len (sa_codes a).
Proof.
  intros HB H. unfold read_suback in H. bstep H take_u16 HB i b1 R1. bstep H (take_props suback_cfg eq_refl) HB p b2 R2.
  apply bind_ok in H as ([l b3] & E & H). injection H as <- <-. apply take_codes_ge in E as [_ LE]; [|assumption]. exact LE.
Qed.
Lemma unsuback_count rem b a r : all_bytes b -> read_unsuback rem b = Ok (a, r) -> rem <= 2 + section_len unsuback_cfg (sa_props a) + len (sa_codes a).
Proof.
  intros HB H. unfold read_unsuback in H. bstep H take_u16 HB i b1 R1. bstep H (take_props unsuback_cfg eq_refl) HB p b2 R2.
  apply bind_ok in H as ([l b3] & E & H). injection H as <- <-. apply take_codes_eq in E as [_ LE]; [|assumption]. exact LE.
Qed.
Lemma disconnect_more rem b d r : all_bytes b -> read_disconnect rem b = Ok (d, r) -> rem <> 0 -> len r < len b.
Proof.
  intros HB H HN. unfold read_disconnect in H. replace (rem =? 0) with false in H by lia.
  bstep H (take_rc disconnect_codes) HB k b1 R1. bstep H (take_props disconnect_cfg eq_refl) HB q b2 R2. injection H as _ <-.
  subst c. rewrite !len_app. change (len [spec_rc k]) with 1. lia.
Qed.
Lemma body_accepted t fl b p r body : all_bytes b -> fl < 16 -> read_body (FH t fl (len b)) b = Ok (p, r) -> packet_ok p ->
  b = body ++ r -> lax_body FromBuffer p body -> (whole (type_of p) -> r = []) -> buffer_accepts p body r.
Proof.
  intros HB HF H HO EB LB HW.
  destruct t; cbn [read_body fh_type fh_flags fh_rem] in H; try (apply rmap_ok in H as (a & H & ->)); try (injection H as <- _); cbn [buffer_accepts]; try exact I;
    try (apply HW; cbn; tauto).
  - now apply connect_accepted in H.
  - eapply puback_accepted; eassumption.
  - eapply (ack4_accepted _ pubrec_cfg); try eassumption. reflexivity.
  - eapply pubrel_accepted; eassumption.
  - eapply (ack4_accepted _ pubcomp_cfg); try eassumption. reflexivity.
  - assert (r = []) as -> by (apply HW; cbn; tauto). split; [reflexivity|]. rewrite app_nil_r in EB. subst body.
    destruct HO as (_ & HP & _). eapply (section_spec suback_cfg); [cbn; tauto|assumption|reflexivity|eapply suback_count; eassumption|exact LB].
  - assert (r = []) as -> by (apply HW; cbn; tauto). split; [reflexivity|]. rewrite app_nil_r in EB. subst body.
    destruct HO as (_ & HP & _). eapply (section_spec unsuback_cfg); [cbn; tauto|assumption|reflexivity|eapply unsuback_count; eassumption|exact LB].
  - intros ->. cbn [app] in EB. subst r. destruct (len b =? 0) eqn:E0; [apply len_zero; lia|].
    apply disconnect_more in H; [lia|assumption|lia].
Qed.
Lemma buffer_exactly buf p rest : all_bytes buf -> (read_packet buf = RPacket p rest <->
  exists enc body extra, buf = spec_first p :: enc ++ body ++ extra ++ rest /\ int_enc (len (body ++ extra)) enc /\ packet_ok p /\ lax_body FromBuffer p body /\ buffer_accepts p body extra).
Proof.
  intros HB. split.
  - intros H. assert (HO : packet_ok p) by exact (proj1 (decoded_ok buf HB) _ _ H).
    destruct (buf_cases buf HB) as [buf HT|first rs HL H1|first init rs HL HF HI|first init HL HF HI HN|first enc body HL HV HBd|first enc body rs HL HV HBd].
    1: { unfold read_packet, read_fixed_header in H. replace (len buf <? 2) with true in H by lia. discriminate H. }
    all: inversion HB as [|? ? Hf Hr]; subst; pose proof (legal_first_ok first Hf) as L; rewrite HL in L.
    { rewrite read_illegal in H by assumption. discriminate H. }
    all: destruct L as (t & fl & L).
    { rewrite (read_long first init rs t fl) in H by assumption. discriminate H. }
    { rewrite (read_short_header first init t fl) in H by assumption. discriminate H. }
    { rewrite (read_incomplete first enc body t fl) in H by assumption. discriminate H. }
    rewrite (read_complete first enc body rs t fl) in H by assumption.
    apply all_bytes_app in Hr as [_ Hr]. apply all_bytes_app in Hr as [Hb _].
    destruct (first_byte_of first t fl Hf L) as [EF FL].
    unfold body_result in H. rewrite <- HBd in H. destruct (read_body (FH t fl (len body)) body) as [[q x]|e|k] eqn:E; try discriminate.
    injection H as <- <-. destruct (take_body _ _ _ _ _ Hb FL E) as (c & EB & LB & SF & W).
    pose proof (body_accepted _ _ _ _ _ c Hb FL E HO EB LB W) as BA. subst body.
    exists enc, c, x. split; [rewrite SF, <- EF, <- app_assoc; reflexivity|]. split; [split; [assumption|now symmetry]|]. auto.
  - intros (enc & body & extra & -> & HE & HO & LB & BA). now apply enc_read_packet.
Qed.

(* ---- packets of the stream ---- *)
Lemma sub_topics_one : forall f rem total s l n r, aread_sub_topics f rem total s = AOk l n r -> total <= n /\ (n <= rem -> exists t, l = [t]).
Proof.
  induction f as [|f IH]; intros rem total s l n r H; [discriminate|]. cbn [aread_sub_topics] in H.
  apply abind_ok in H as (t & n1 & s1 & _ & H). apply abind_ok in H as (o & n2 & s2 & _ & H). cbv zeta in H.
  destruct (total + (n1 + n2) <=? rem) eqn:E.
  - injection H as <- <- <-. split; [lia|eauto].
  - apply abind_ok in H as (l' & n' & s3 & E3 & H). injection H as <- <- <-. apply IH in E3 as [H1 _]. split; lia.
Qed.
Lemma stream_exactly first enc body r p : all_bytes (first :: enc ++ body ++ r) -> int_enc (len body) enc ->
  (aread_packet (first :: enc ++ body ++ r) = AOk p (len body) r <-> first = spec_first p /\ packet_ok p /\ lax_body FromStream p body /\ stream_accepts p).
Proof.
  intros HB HE. split.
  - intros H. assert (HO : packet_ok p) by exact (proj2 (decoded_ok _ HB) _ _ _ H).
    destruct (stream_says _ _ _ _ HB H) as (enc' & body' & EQ & V & EL & LB & _). injection EQ as EF EQ.
    assert (body' = body) as ->.
    { rewrite !app_assoc in EQ. apply app_inv_tail in EQ. apply (f_equal (@rev N)) in EQ. rewrite !rev_app_distr in EQ.
      apply (f_equal (firstn (length body))) in EQ. assert (length body' = length body) by (unfold len in EL; lia).
      rewrite <- H0 in EQ at 2. rewrite <- (rev_length body), <- (rev_length body') in EQ.
      rewrite !firstn_app, !firstn_all, !Nat.sub_diag, !firstn_O, !app_nil_r in EQ. apply (f_equal (@rev N)) in EQ. now rewrite !rev_involutive in EQ. }
    split; [assumption|]. split; [assumption|]. split; [assumption|].
    destruct p; try exact I. subst first. unfold aread_packet, aread_fixed_header in H. cbn [aread_u8 abind] in H. rewrite first_byte_read, (aread_enc _ _ _ HE) in H.
    cbn [abind aread_body type_of fh_type fh_rem] in H. apply amap_ok in H as (a & H & EA). injection EA as <-. unfold aread_subscribe in H.
    apply abind_ok in H as (i & n1 & s1 & _ & H). apply abind_ok in H as (q & n2 & s2 & _ & H). apply abind_ok in H as (l & n3 & s3 & E & H).
    injection H as <- EN _. apply sub_topics_one in E as [_ E]. cbn [stream_accepts sb_topics]. apply E. lia.
  - intros (-> & HO & LB & SA). now apply enc_aread_packet.
Qed.
