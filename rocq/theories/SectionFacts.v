(* Property sections with foreign or repeated properties *)
From Verif Require Import Base VarInt Prims Props Codes Packets SpecCodec BaseFacts VarIntFacts PrimFacts PropsFacts PacketFacts GoodFacts FrameFacts.

(* the property struct that reads and writes each section *)
Definition cfg_of (s : section) : pcfg :=
  match s with
  | SConnect => connect_cfg | SWill => will_cfg | SConnAck => connack_cfg | SPublish => publish_cfg
  | SPubAck => puback_cfg | SPubRec => pubrec_cfg | SPubRel => pubrel_cfg | SPubComp => pubcomp_cfg
  | SSubscribe => subscribe_cfg | SSubAck => suback_cfg | SUnsubscribe => unsubscribe_cfg
  | SUnsubAck => unsuback_cfg | SDisconnect => disconnect_cfg | SAuth => auth_cfg
  end.

Lemma typed_kind i : spec_typed i -> has_kind (snd i) (kind_of (fst i)) /\ val_ok (snd i).
Proof. destruct i as [[] []]; cbn; try tauto; intros H; (split; [exact I|assumption]). Qed.

Lemma read_loop_only cfg : forall its pre p0 f, its <> [] -> (length its <= f)%nat ->
  unused cfg p0 -> (forall t, prop_vals t p0 = vals t pre) -> nodups cfg pre ->
  (c_pfi_inverted cfg = true -> vals PayloadFormatIndicator pre = []) ->
  Forall spec_typed its ->
  match read_props_loop f cfg p0 (spec_items its) with
  | Ok _ => Forall (fun i => declares cfg (fst i) = true) its /\ nodups cfg (pre ++ its)
  | Err _ => True
  | Crash _ => False
  end.
Proof.
  induction its as [|[t v] its IH]; intros pre p0 f HE Hf HU HV HN HP HT; [congruence|].
  destruct f as [|f]; [cbn in Hf; lia|]. inversion HT as [|? ? Hi HT']; subst.
  apply typed_kind in Hi as [HK HO]. cbn [fst snd] in *.
  rewrite spec_items_cons. unfold spec_item. cbn [fst snd app]. cbn [read_props_loop].
  rewrite read_ptype_ok. cbn [bind]. destruct (declares cfg t) eqn:HD; cbn [negb]; [|exact I].
  destruct (is_dup cfg t p0) eqn:ED; [exact I|].
  rewrite read_val_ok by assumption. cbn [bind].
  assert (NI : t = PayloadFormatIndicator -> c_pfi_inverted cfg = false).
  { intros ->. destruct (c_pfi_inverted cfg) eqn:EI; [|reflexivity]. exfalso. cbn in ED. rewrite EI in ED.
    pose proof (HV PayloadFormatIndicator) as E. rewrite (HP eq_refl) in E. cbn in E.
    destruct (payload_format_indicator p0); cbn in *; discriminate. }
  assert (ND : nodups cfg (pre ++ [(t, v)])).
  { intros t' S. rewrite vals_app, vals_one, app_length. cbn [fst snd]. specialize (HN t' S).
    destruct (ptype_eqb t t') eqn:E; [|cbn; lia]. apply ptype_eqb_eq in E as <-.
    rewrite is_dup_single in ED by assumption. rewrite HV in ED.
    destruct (vals t pre) as [|x l]; [cbn; lia|]. rewrite len_cons in ED. lia. }
  destruct (step_facts cfg pre p0 t v [] HU HV) as [U' V']; [split; auto|assumption|].
  destruct its as [|i its].
  - cbn. split; [repeat constructor; assumption|assumption].
  - replace (len (spec_items (i :: its)) =? 0) with false
      by (rewrite spec_items_cons, len_app; pose proof (spec_item_len i); lia).
    specialize (IH (pre ++ [(t, v)]) (store cfg t v p0) f ltac:(discriminate) ltac:(cbn in *; lia) U' V' ND).
    destruct (read_props_loop f cfg (store cfg t v p0) (spec_items (i :: its))) as [a|e|c].
    + destruct IH as [I1 I2]; [|assumption|].
      * intros C. rewrite vals_app, vals_one, (HP C). cbn [fst snd app].
        destruct (ptype_eqb t PayloadFormatIndicator) eqn:E; [|reflexivity]. apply ptype_eqb_eq in E. rewrite (NI E) in C. discriminate.
      * split; [constructor; assumption|]. now rewrite <- app_assoc in I2.
    + exact I.
    + apply IH; [|assumption].
      intros C. rewrite vals_app, vals_one, (HP C). cbn [fst snd app].
      destruct (ptype_eqb t PayloadFormatIndicator) eqn:E; [|reflexivity]. apply ptype_eqb_eq in E. rewrite (NI E) in C. discriminate.
Qed.

(* a section is accepted only if all its properties are declared and none is repeated *)
Lemma read_props_only cfg its rest : Forall spec_typed its -> len (spec_items its) <= MAXVAR ->
  (c_split cfg = true \/ rest = []) ->
  match read_props cfg (spec_section its ++ rest) with
  | Ok _ => Forall (fun i => declares cfg (fst i) = true) its /\ nodups cfg its
  | Err _ => True
  | Crash _ => False
  end.
Proof.
  intros HT HL HS. unfold read_props, spec_section. rewrite <- app_assoc, read_varint_ok by assumption. cbn [bind].
  destruct (len (spec_items its) =? 0) eqn:E.
  { apply N.eqb_eq, spec_items_len0 in E. subst its. split; [constructor|]. intros t _. cbn. lia. }
  rewrite len_app. replace (len (spec_items its) + len rest <? len (spec_items its)) with false by lia.
  assert (HE : its <> []) by (intros ->; discriminate E).
  assert (ED : (if c_split cfg then take (len (spec_items its)) (spec_items its ++ rest) else spec_items its ++ rest) = spec_items its).
  { destruct (c_split cfg); [now apply take_app|]. destruct HS as [C| ->]; [discriminate|]. apply app_nil_r. }
  cbv zeta. rewrite ED.
  pose proof (spec_items_len its) as HN. unfold len in HN.
  pose proof (read_loop_only cfg its [] no_props (S (length (spec_items its))) HE ltac:(lia) (unused_no_props cfg)) as R.
  assert (R' : match read_props_loop (S (length (spec_items its))) cfg no_props (spec_items its) with
    | Ok _ => Forall (fun i => declares cfg (fst i) = true) its /\ nodups cfg ([] ++ its)
    | Err _ => True | Crash _ => False end).
  { apply R; [intros t; apply prop_vals_no_props|intros t _; cbn; lia|reflexivity|assumption]. }
  destruct (read_props_loop _ cfg no_props (spec_items its)) as [[p r]|e|c]; cbn [bind]; try exact R'.
  destruct (post_check cfg p); [|exact I]. destruct (c_split cfg); exact R'.
Qed.

(* the stream reader: repeated subscription identifiers are not noticed *)
Definition anodups (its : list item) : Prop :=
  forall t, t <> UserProperty -> t <> SubscriptionIdentifier -> (length (vals t its) <= 1)%nat.

Lemma store_vals cfg t v p t' : has_kind v (kind_of t) -> t' <> SubscriptionIdentifier ->
  (t' = t -> t <> UserProperty -> prop_vals t p = []) ->
  prop_vals t' (store cfg t v p) = prop_vals t' p ++ (if ptype_eqb t t' then [v] else []).
Proof.
  intros HK N HS. destruct (ptype_eqb t t') eqn:E.
  - apply ptype_eqb_eq in E as <-. destruct (ptype_eq_dec t UserProperty) as [->|NU].
    + destruct v; try (exfalso; exact HK). cbn. now rewrite map_app.
    + rewrite (HS eq_refl NU). destruct t; try congruence; destruct v; try (exfalso; exact HK); reflexivity.
  - rewrite app_nil_r. destruct t, v; try (exfalso; exact HK); try (cbn [store]; destruct (c_sublist cfg));
      destruct t'; try reflexivity; try congruence; discriminate E.
Qed.

Lemma aread_loop_only cfg rest : forall its pre p0 f total n, its <> [] -> (length its <= f)%nat ->
  n = total + len (spec_items its) ->
  (forall t, t <> SubscriptionIdentifier -> prop_vals t p0 = vals t pre) -> anodups pre ->
  Forall spec_typed its ->
  match aread_props_loop f cfg p0 total n (spec_items its ++ rest) with
  | AOk _ _ _ => Forall (fun i => declares cfg (fst i) = true) its /\ anodups (pre ++ its)
  | AErr _ => True
  | _ => False
  end.
Proof.
  induction its as [|[t v] its IH]; intros pre p0 f total n HE Hf Hn HV HN HT; [congruence|].
  destruct f as [|f]; [cbn in Hf; lia|]. inversion HT as [|? ? Hi HT']; subst n.
  pose proof Hi as Hi0. subst. apply typed_kind in Hi0 as [HK HO]. cbn [fst snd] in *.
  rewrite spec_items_cons. unfold spec_item. cbn [fst snd app]. cbn [aread_props_loop].
  rewrite aread_ptype_ok. cbn [abind]. destruct (declares cfg t) eqn:HD; cbn [negb]; [|exact I].
  destruct (adup t p0) eqn:ED; [exact I|].
  rewrite <- app_assoc, aread_val_ok by assumption. cbn [abind]. cbv zeta.
  assert (EV : t <> UserProperty -> t <> SubscriptionIdentifier -> vals t pre = []).
  { intros N1 N2. rewrite <- HV by assumption. assert (A : adup t p0 = negb (len (prop_vals t p0) =? 0)).
    { destruct t; try congruence; cbn [adup prop_vals get_prop];
        match goal with |- is_some ?o = _ => destruct o; reflexivity end. }
    rewrite A in ED. apply negb_false_iff, N.eqb_eq in ED. now apply len_zero. }
  assert (ND : anodups (pre ++ [(t, v)])).
  { intros t' N1 N2. rewrite vals_app, vals_one, app_length. cbn [fst snd].
    destruct (ptype_eqb t t') eqn:E; [|specialize (HN t' N1 N2); cbn; lia].
    apply ptype_eqb_eq in E as <-. rewrite EV by assumption. cbn. lia. }
  rewrite (@len_cons N), len_app.
  destruct its as [|i its].
  - cbn [spec_items map concat]. rewrite (@len_nil N).
    match goal with |- context [?a =? ?b] => replace (a =? b) with true by lia end.
    split; [repeat constructor; assumption|assumption].
  - pose proof (spec_item_len i) as LI.
    match goal with |- context [?a =? ?b] => replace (a =? b) with false
      by (rewrite spec_items_cons, len_app; lia) end.
    match goal with |- context [aread_props_loop f cfg ?p ?tt ?nn _] =>
      specialize (IH (pre ++ [(t, v)]) p f tt nn ltac:(discriminate) ltac:(cbn in *; lia) ltac:(lia)) end.
    assert (V' : forall t0, t0 <> SubscriptionIdentifier -> prop_vals t0 (store cfg t v p0) = vals t0 (pre ++ [(t, v)])).
    { intros t0 N0. rewrite vals_app, vals_one. cbn [fst snd].
      destruct (ptype_eq_dec t SubscriptionIdentifier) as [->|NS].
      - rewrite store_vals; [|assumption|assumption|congruence]. now rewrite HV.
      - rewrite store_vals; [|assumption|assumption|]. { now rewrite HV. }
        intros -> NU. rewrite HV by assumption. now apply EV. }
    specialize (IH V' ND HT').
    destruct (aread_props_loop f cfg _ _ _ _) as [a m r|e| |c]; auto.
    destruct IH as [I1 I2]. split; [constructor; assumption|]. now rewrite <- app_assoc in I2.
Qed.

Lemma aread_props_only cfg its rest : Forall spec_typed its -> len (spec_items its) <= MAXVAR ->
  match aread_props cfg (spec_section its ++ rest) with
  | AOk _ _ _ => Forall (fun i => declares cfg (fst i) = true) its /\ anodups its
  | AErr _ => True
  | _ => False
  end.
Proof.
  intros HT HL. unfold aread_props, spec_section. rewrite <- app_assoc, aread_varint_ok by assumption. cbn [abind].
  destruct (len (spec_items its) =? 0) eqn:E.
  { apply N.eqb_eq, spec_items_len0 in E. subst its. split; [constructor|]. intros t _ _. cbn. lia. }
  assert (HE : its <> []) by (intros ->; discriminate E).
  pose proof (spec_items_len its) as HN. unfold len in HN.
  pose proof (aread_loop_only cfg rest its [] no_props (S (length (spec_items its ++ rest))) 0 (len (spec_items its)) HE) as R.
  assert (R' : match aread_props_loop (S (length (spec_items its ++ rest))) cfg no_props 0 (len (spec_items its)) (spec_items its ++ rest) with
    | AOk _ _ _ => Forall (fun i => declares cfg (fst i) = true) its /\ anodups ([] ++ its)
    | AErr _ => True | _ => False end).
  { apply R; [rewrite app_length; lia|lia|intros t _; apply prop_vals_no_props|intros t _ _; cbn; lia|assumption]. }
  destruct (aread_props_loop _ cfg no_props 0 _ _) as [p m r|e| |c]; cbn [abind]; exact R'.
Qed.

Lemma declared_allowed s t : declares (cfg_of s) t = true -> s = SSubAck /\ t = SubscriptionIdentifier \/ spec_allowed s t = true.
Proof. destruct s, t; cbn; auto; discriminate. Qed.
Lemma repeatable_single s t : spec_repeatable s t = false -> single (cfg_of s) t.
Proof. destruct s, t; cbn; intros H; try discriminate; (split; [discriminate|]); try reflexivity; discriminate. Qed.

(* ---- at the level of packets ---- *)

Definition refused (its : list item) (cfg : pcfg) : Prop :=
  forall rest, c_split cfg = true \/ rest = [] -> exists e, read_props cfg (spec_section its ++ rest) = Err e.
Definition arefused (its : list item) (cfg : pcfg) : Prop :=
  forall rest, exists e, aread_props cfg (spec_section its ++ rest) = AErr e.

Lemma carries_sec s its first body : carries s its first body -> len (spec_section its) <= len body.
Proof. intros H. destruct H; rewrite !len_app; lia. Qed.
Lemma sec_items_len its : len (spec_items its) <= len (spec_section its).
Proof. unfold spec_section. rewrite len_app. lia. Qed.

Lemma will_bit f : f < 256 -> f / 4 mod 2 = 1 -> forall g, cflags_from_u8 f = Ok g -> cf_will g = true.
Proof.
  intros H HB g. unfold cflags_from_u8. destruct (qos_from_u8 _); cbn [bind]; try discriminate. intros [= <-]. cbn [cf_will].
  pose proof (sweep (fun x => implb (x / 4 mod 2 =? 1) (test x 4 2)) 256 ltac:(vm_compute; reflexivity) f H) as S. cbv beta in S.
  rewrite HB in S. exact S.
Qed.
Lemma pub_qos fl : fl < 16 -> from_first_byte (48 + fl) = Ok (TPublish, fl) /\
  qos_from_u8 (N.shiftr (N.land fl 6) 1) = qos_from_u8 (fl / 2 mod 4).
Proof.
  intros H.
  pose proof (sweep (fun x => match from_first_byte (48 + x) with Ok (TPublish, y) => y =? x | _ => false end
     && (N.shiftr (N.land x 6) 1 =? x / 2 mod 4)) 16 ltac:(vm_compute; reflexivity) fl H) as S. cbv beta in S.
  apply andb_prop in S as [S1 S2]. apply N.eqb_eq in S2. rewrite S2. split; [|reflexivity].
  destruct (from_first_byte (48 + fl)) as [[[] y]| |]; try discriminate. apply N.eqb_eq in S1. now subst.
Qed.
Lemma qos0 n q : qos_from_u8 n = Ok q -> (qos_eqb q AtMostOnce = true <-> n = 0).
Proof.
  unfold qos_from_u8. destruct (n =? 0) eqn:E0; [intros [= <-]; split; auto; lia|].
  destruct (n =? 1); [intros [= <-]; split; [discriminate|lia]|]. destruct (n =? 2); [intros [= <-]; split; [discriminate|lia]|discriminate].
Qed.

Lemma read_rc_cases tbl c r : (exists x, read_rc tbl (c :: r) = Ok (x, r)) \/ (exists e, read_rc tbl (c :: r) = Err e).
Proof.
  unfold read_rc. rewrite (@len_cons N). match goal with |- context [?a <? 1] => replace (a <? 1) with false by lia end.
  cbn [get_u8 bind]. destruct (rc_from_u8_cases tbl c) as [(x & -> & _)|[-> _]]; cbn [bind]; eauto.
Qed.
Lemma aread_rc_cases tbl c r : (exists x, aread_rc tbl (c :: r) = AOk x 1 r) \/ (exists e, aread_rc tbl (c :: r) = AErr e).
Proof.
  unfold aread_rc. rewrite aread_u8_ok. cbn [abind].
  destruct (rc_from_u8_cases tbl c) as [(x & -> & _)|[-> _]]; eauto.
Qed.
Lemma read_cflags_cases f r : (exists x, read_cflags (f :: r) = Ok (x, r) /\ cflags_from_u8 f = Ok x) \/ (exists e, read_cflags (f :: r) = Err e).
Proof.
  unfold read_cflags. rewrite (@len_cons N). match goal with |- context [?a <? 1] => replace (a <? 1) with false by lia end.
  cbn [get_u8 bind]. destruct (cflags_from_u8_cases f) as [(x & E)|(x & E)]; rewrite E; cbn [bind]; eauto.
Qed.
Lemma aread_cflags_cases f r : (exists x, aread_cflags (f :: r) = AOk x 1 r /\ cflags_from_u8 f = Ok x) \/ (exists e, aread_cflags (f :: r) = AErr e).
Proof.
  unfold aread_cflags. rewrite aread_u8_ok. cbn [abind].
  destruct (cflags_from_u8_cases f) as [(x & E)|(x & E)]; rewrite E; eauto.
Qed.

Lemma read_version5 r : read_protocol_version (5 :: r) = Ok r.
Proof.
  unfold read_protocol_version. rewrite (@len_cons N). match goal with |- context [?a <? 1] => replace (a <? 1) with false by lia end.
  reflexivity.
Qed.
Lemma aread_version5 r : aread_protocol_version (5 :: r) = AOk tt 1 r.
Proof. unfold aread_protocol_version. rewrite aread_u8_ok. reflexivity. Qed.
Lemma read_caflags_any v r : read_caflags (v :: r) = Ok (N.land v 1 =? 1, r).
Proof.
  unfold read_caflags. rewrite (@len_cons N). match goal with |- context [?a <? 1] => replace (a <? 1) with false by lia end.
  reflexivity.
Qed.

Ltac use R := let e := fresh in let E := fresh in destruct R as [e E]; rewrite E; cbn [bind abind rmap amap]; eauto.

Lemma section_body s its first body : carries s its first body ->
  exists t fl, from_first_byte first = Ok (t, fl) /\
    (refused its (cfg_of s) -> exists e, read_body (FH t fl (len body)) body = Err e) /\
    (arefused its (cfg_of s) -> forall rest, exists e, aread_body (FH t fl (len body)) (body ++ rest) = AErr e).
Proof.
  intros H. destruct H; cbn [cfg_of] in *.
  - exists TConnect, 0. split; [reflexivity|]. unfold read_body, aread_body. cbn [fh_type]. split.
    + intros R1. unfold read_connect. rewrite read_bin_ok by (vm_compute; discriminate). cbn [bind]. change (bytes_eqb [77; 81; 84; 84] mqtt_name) with true. cbn [negb app].
      rewrite read_version5. cbn [bind]. destruct (read_cflags_cases f (spec_u16 ka ++ spec_section its ++ post)) as [(x & -> & _)|(e & ->)]; cbn [bind rmap]; [|eauto].
      rewrite get_u16_ok by assumption. cbn [bind]. use (R1 post ltac:(now left)).
    + intros R2 rest. unfold aread_connect. rewrite <- !app_assoc.
      change (spec_data [77; 81; 84; 84]) with ([0; 4] ++ mqtt_name). rewrite aread_exact_ok by reflexivity. cbn [abind].
      change (bytes_eqb ([0; 4] ++ mqtt_name) ([0; 4] ++ mqtt_name)) with true. cbn [negb app]. rewrite aread_version5. cbn [abind].
      destruct (aread_cflags_cases f (spec_u16 ka ++ spec_section its ++ post ++ rest)) as [(x & -> & _)|(e & ->)]; cbn [abind amap]; [|eauto].
      rewrite aread_u16_ok by assumption. cbn [abind]. use (R2 (post ++ rest)).
  - exists TConnect, 0. split; [reflexivity|]. unfold read_body, aread_body. cbn [fh_type]. split.
    + intros R1. unfold read_connect. rewrite read_bin_ok by (vm_compute; discriminate). cbn [bind]. change (bytes_eqb [77; 81; 84; 84] mqtt_name) with true. cbn [negb app].
      rewrite read_version5. cbn [bind]. destruct (read_cflags_cases f (spec_u16 ka ++ sec0 ++ spec_data cid ++ spec_section its ++ post)) as [(x & -> & EX)|(e & ->)]; cbn [bind rmap]; [|eauto].
      rewrite get_u16_ok by assumption. cbn [bind].
      rewrite (read_section connect_cfg p0) by (auto; try (now left); (now apply post_check_auth) || discriminate). cbn [bind].
      rewrite read_str_ok by assumption. cbn [bind]. rewrite (will_bit f H H0 _ EX). unfold read_will. use (R1 post ltac:(now left)).
    + intros R2 rest. unfold aread_connect. rewrite <- !app_assoc.
      change (spec_data [77; 81; 84; 84]) with ([0; 4] ++ mqtt_name). rewrite aread_exact_ok by reflexivity. cbn [abind].
      change (bytes_eqb ([0; 4] ++ mqtt_name) ([0; 4] ++ mqtt_name)) with true. cbn [negb app]. rewrite aread_version5. cbn [abind].
      destruct (aread_cflags_cases f (spec_u16 ka ++ sec0 ++ spec_data cid ++ spec_section its ++ post ++ rest)) as [(x & -> & EX)|(e & ->)]; cbn [abind amap]; [|eauto].
      rewrite aread_u16_ok by assumption. cbn [abind].
      rewrite (aread_section connect_cfg p0) by auto. cbn [abind].
      rewrite aread_str_ok by assumption. cbn [abind]. rewrite (will_bit f H H0 _ EX). unfold aread_will. use (R2 (post ++ rest)).
  - exists TConnAck, 0. split; [reflexivity|]. unfold read_body, aread_body. cbn [fh_type fh_rem]. split.
    + intros R1. unfold read_connack. rewrite N.ltb_irrefl. cbn [app]. rewrite read_caflags_any. cbn [bind].
      destruct (read_rc_cases connack_codes c (spec_section its ++ post)) as [[x ->]|[e ->]]; cbn [bind rmap]; [|eauto]. use (R1 post ltac:(now left)).
    + intros R2 rest. unfold aread_connack. cbn [app]. unfold aread_caflags. rewrite aread_u8_ok. cbn [abind]. rewrite <- app_assoc.
      destruct (aread_rc_cases connack_codes c (spec_section its ++ post ++ rest)) as [[x ->]|[e ->]]; cbn [abind amap]; [|eauto]. use (R2 (post ++ rest)).
  - destruct (pub_qos fl H) as [E1 E2]. exists TPublish, fl. split; [assumption|]. unfold read_body, aread_body. cbn [fh_type fh_rem fh_flags].
    unfold read_publish, aread_publish. rewrite E2.
    destruct (qos_from_u8_cases (fl / 2 mod 4)) as [[q Eq]|[e ->]]; [|split; [intros; cbn; eauto|intros; cbn; eauto]].
    rewrite Eq. pose proof (qos0 _ _ Eq) as Q. cbn [bind]. rewrite (proj2 Q H0). split.
    + intros R1. rewrite read_str_ok by assumption. cbn [bind]. use (R1 post ltac:(now left)).
    + intros R2 rest. rewrite <- !app_assoc. rewrite aread_str_ok by assumption. cbn [abind]. use (R2 (post ++ rest)).
  - destruct (pub_qos fl H) as [E1 E2]. exists TPublish, fl. split; [assumption|]. unfold read_body, aread_body. cbn [fh_type fh_rem fh_flags].
    unfold read_publish, aread_publish. rewrite E2.
    destruct (qos_from_u8_cases (fl / 2 mod 4)) as [[q Eq]|[e ->]]; [|split; [intros; cbn; eauto|intros; cbn; eauto]].
    rewrite Eq. pose proof (qos0 _ _ Eq) as Q. cbn [bind].
    assert (Q' : qos_eqb q AtMostOnce = false) by (destruct (qos_eqb q AtMostOnce); [exfalso; tauto|reflexivity]).
    rewrite Q'. split.
    + intros R1. rewrite read_str_ok by assumption. cbn [bind]. rewrite read_u16_ok by assumption. cbn [bind]. use (R1 post ltac:(now left)).
    + intros R2 rest. rewrite <- !app_assoc. rewrite aread_str_ok by assumption. cbn [abind]. rewrite aread_u16_ok by assumption. cbn [abind].
      use (R2 (post ++ rest)).
  - exists TPubAck, 0. split; [reflexivity|]. unfold read_body, aread_body. cbn [fh_type fh_rem].
    assert (L : 4 <= len (spec_u16 i ++ [c] ++ spec_section its)) by (rewrite !len_app, spec_u16_len, (@len_cons N), (@len_nil N); pose proof (spec_section_len its); lia).
    generalize dependent (len (spec_u16 i ++ [c] ++ spec_section its)). intros n L.
    split.
    + intros R1. unfold read_puback. replace (_ <? 2) with false by lia. rewrite read_u16_ok by assumption. cbn [bind].
      replace (_ =? 2) with false by lia. cbn [app].
      destruct (read_rc_cases puback_codes c (spec_section its)) as [[x ->]|[e ->]]; cbn [bind rmap]; [|eauto].
      replace (_ =? 3) with false by lia. rewrite <- (app_nil_r (spec_section its)). use (R1 [] ltac:(now right)).
    + intros R2 rest. unfold aread_puback. replace (_ <? 2) with false by lia. rewrite <- !app_assoc. rewrite aread_u16_ok by assumption. cbn [abind].
      replace (_ =? 2) with false by lia. cbn [app].
      destruct (aread_rc_cases puback_codes c (spec_section its ++ rest)) as [[x ->]|[e ->]]; cbn [abind amap]; [|eauto].
      replace (_ =? 3) with false by lia. use (R2 rest).
  - exists TPubRec, 0. split; [reflexivity|]. unfold read_body, aread_body. cbn [fh_type fh_rem].
    assert (L : 4 <= len (spec_u16 i ++ [c] ++ spec_section its)) by (rewrite !len_app, spec_u16_len, (@len_cons N), (@len_nil N); pose proof (spec_section_len its); lia).
    generalize dependent (len (spec_u16 i ++ [c] ++ spec_section its)). intros n L.
    split.
    + intros R1. unfold read_ack4. replace (_ =? 2) with false by lia. replace (_ <? 4) with false by lia. rewrite read_u16_ok by assumption. cbn [bind app].
      destruct (read_rc_cases pubrec_codes c (spec_section its)) as [[x ->]|[e ->]]; cbn [bind rmap]; [|eauto].
      rewrite <- (app_nil_r (spec_section its)). use (R1 [] ltac:(now right)).
    + intros R2 rest. unfold aread_pubrec. rewrite <- !app_assoc. rewrite aread_u16_ok by assumption. cbn [abind].
      replace (_ =? 2) with false by lia. cbn [app].
      destruct (aread_rc_cases pubrec_codes c (spec_section its ++ rest)) as [[x ->]|[e ->]]; cbn [abind amap]; [|eauto]. use (R2 rest).
  - exists TPubRel, 0. split; [reflexivity|]. unfold read_body, aread_body. cbn [fh_type fh_rem].
    assert (L : 4 <= len (spec_u16 i ++ [c] ++ spec_section its)) by (rewrite !len_app, spec_u16_len, (@len_cons N), (@len_nil N); pose proof (spec_section_len its); lia).
    generalize dependent (len (spec_u16 i ++ [c] ++ spec_section its)). intros n L.
    split.
    + intros R1. unfold read_pubrel. replace (_ =? 2) with false by lia. replace (_ =? 3) with false by lia. rewrite read_u16_ok by assumption. cbn [bind app].
      destruct (read_rc_cases pubrel_codes c (spec_section its)) as [[x ->]|[e ->]]; cbn [bind rmap]; [|eauto].
      rewrite <- (app_nil_r (spec_section its)). use (R1 [] ltac:(now right)).
    + intros R2 rest. unfold aread_pubrel. rewrite <- !app_assoc. rewrite aread_u16_ok by assumption. cbn [abind].
      replace (_ =? 2) with false by lia. cbn [app].
      destruct (aread_rc_cases pubrel_codes c (spec_section its ++ rest)) as [[x ->]|[e ->]]; cbn [abind amap]; [|eauto].
      replace (_ =? 3) with false by lia. use (R2 rest).
  - exists TPubComp, 0. split; [reflexivity|]. unfold read_body, aread_body. cbn [fh_type fh_rem].
    assert (L : 4 <= len (spec_u16 i ++ [c] ++ spec_section its)) by (rewrite !len_app, spec_u16_len, (@len_cons N), (@len_nil N); pose proof (spec_section_len its); lia).
    generalize dependent (len (spec_u16 i ++ [c] ++ spec_section its)). intros n L.
    split.
    + intros R1. unfold read_ack4. replace (_ =? 2) with false by lia. replace (_ <? 4) with false by lia. rewrite read_u16_ok by assumption. cbn [bind app].
      destruct (read_rc_cases pubcomp_codes c (spec_section its)) as [[x ->]|[e ->]]; cbn [bind rmap]; [|eauto].
      rewrite <- (app_nil_r (spec_section its)). use (R1 [] ltac:(now right)).
    + intros R2 rest. unfold aread_pubcomp. rewrite <- !app_assoc. rewrite aread_u16_ok by assumption. cbn [abind].
      replace (_ =? 2) with false by lia. replace (_ <? 4) with false by lia. cbn [app].
      destruct (aread_rc_cases pubcomp_codes c (spec_section its ++ rest)) as [[x ->]|[e ->]]; cbn [abind amap]; [|eauto]. use (R2 rest).
  - exists TSubscribe, 0. split; [reflexivity|]. unfold read_body, aread_body. cbn [fh_type fh_rem]. split.
    + intros R1. unfold read_subscribe. rewrite read_u16_ok by assumption. cbn [bind]. use (R1 post ltac:(now left)).
    + intros R2 rest. unfold aread_subscribe. rewrite <- !app_assoc. rewrite aread_u16_ok by assumption. cbn [abind]. use (R2 (post ++ rest)).
  - exists TSubAck, 0. split; [reflexivity|]. unfold read_body, aread_body. cbn [fh_type fh_rem]. split.
    + intros R1. unfold read_suback. rewrite read_u16_ok by assumption. cbn [bind]. use (R1 post ltac:(now left)).
    + intros R2 rest. unfold aread_suback. rewrite <- !app_assoc. rewrite aread_u16_ok by assumption. cbn [abind]. use (R2 (post ++ rest)).
  - exists TUnsubscribe, 0. split; [reflexivity|]. unfold read_body, aread_body. cbn [fh_type fh_rem]. split.
    + intros R1. unfold read_unsubscribe. rewrite read_u16_ok by assumption. cbn [bind]. use (R1 post ltac:(now left)).
    + intros R2 rest. unfold aread_unsubscribe. rewrite <- !app_assoc. rewrite aread_u16_ok by assumption. cbn [abind]. use (R2 (post ++ rest)).
  - exists TUnsubAck, 0. split; [reflexivity|]. unfold read_body, aread_body. cbn [fh_type fh_rem]. split.
    + intros R1. unfold read_unsuback. rewrite read_u16_ok by assumption. cbn [bind]. use (R1 post ltac:(now left)).
    + intros R2 rest. unfold aread_unsuback. rewrite <- !app_assoc. rewrite aread_u16_ok by assumption. cbn [abind]. use (R2 (post ++ rest)).
  - exists TDisconnect, 0. split; [reflexivity|]. unfold read_body, aread_body. cbn [fh_type fh_rem].
    assert (L : 1 <= len ([c] ++ spec_section its ++ post)) by (rewrite len_app, (@len_cons N); lia).
    split.
    + intros R1. unfold read_disconnect. replace (_ =? 0) with false by lia. cbn [app].
      destruct (read_rc_cases disconnect_codes c (spec_section its ++ post)) as [[x ->]|[e ->]]; cbn [bind rmap]; [|eauto]. use (R1 post ltac:(now left)).
    + intros R2 rest. unfold aread_disconnect. replace (_ =? 0) with false by lia. cbn [app]. rewrite <- app_assoc.
      destruct (aread_rc_cases disconnect_codes c (spec_section its ++ post ++ rest)) as [[x ->]|[e ->]]; cbn [abind amap]; [|eauto]. use (R2 (post ++ rest)).
  - exists TAuth, 0. split; [reflexivity|]. unfold read_body, aread_body. cbn [fh_type fh_rem]. split.
    + intros R1. unfold read_auth. cbn [app].
      destruct (read_rc_cases auth_codes c (spec_section its ++ post)) as [[x ->]|[e ->]]; cbn [bind rmap]; [|eauto]. use (R1 post ltac:(now left)).
    + intros R2 rest. unfold aread_auth. cbn [app]. rewrite <- app_assoc.
      destruct (aread_rc_cases auth_codes c (spec_section its ++ post ++ rest)) as [[x ->]|[e ->]]; cbn [abind amap]; [|eauto]. use (R2 (post ++ rest)).
Qed.

Definition spec_foreign (s : section) (its : list item) : Prop :=
  exists t v, In (t, v) its /\ spec_allowed s t = false /\ ~ (s = SSubAck /\ t = SubscriptionIdentifier).
Definition spec_repeated (s : section) (its : list item) (t : ptype) : Prop :=
  spec_repeatable s t = false /\ (2 <= length (vals t its))%nat.

Lemma section_refused s its : Forall spec_typed its -> len (spec_items its) <= MAXVAR ->
  spec_foreign s its \/ (exists t, spec_repeated s its t) -> refused its (cfg_of s).
Proof.
  intros HT HL HB rest HR. pose proof (read_props_only (cfg_of s) its rest HT HL HR) as R.
  destruct (read_props (cfg_of s) (spec_section its ++ rest)) as [x|e|c]; [exfalso|eauto|contradiction].
  destruct R as [RD RN]. destruct HB as [(t & v & HI & HA & HX)|(t & HP & H2)].
  - rewrite Forall_forall in RD. apply RD in HI. cbn [fst] in HI. apply declared_allowed in HI as [HI|HI]; [tauto|congruence].
  - apply repeatable_single in HP. specialize (RN t HP). lia.
Qed.
Lemma section_arefused s its : Forall spec_typed its -> len (spec_items its) <= MAXVAR ->
  spec_foreign s its \/ (exists t, spec_repeated s its t /\ t <> SubscriptionIdentifier) -> arefused its (cfg_of s).
Proof.
  intros HT HL HB rest. pose proof (aread_props_only (cfg_of s) its rest HT HL) as R.
  destruct (aread_props (cfg_of s) (spec_section its ++ rest)) as [x n r|e| |c]; [exfalso|eauto|contradiction|contradiction].
  destruct R as [RD RN]. destruct HB as [(t & v & HI & HA & HX)|(t & (HP & H2) & HS)].
  - rewrite Forall_forall in RD. apply RD in HI. cbn [fst] in HI. apply declared_allowed in HI as [HI|HI]; [tauto|congruence].
  - assert (t <> UserProperty) by (intros ->; destruct s; discriminate HP). specialize (RN t H HS). lia.
Qed.

Lemma packet_refused s its first body rest : carries s its first body -> Forall spec_typed its -> len body <= MAXVAR ->
  spec_foreign s its \/ (exists t, spec_repeated s its t) ->
  exists e, read_packet (first :: spec_varint (len body) ++ body ++ rest) = RBad e rest.
Proof.
  intros HC HT HL HB. pose proof (carries_sec _ _ _ _ HC). pose proof (sec_items_len its).
  destruct (section_body _ _ _ _ HC) as (t & fl & E & S & _).
  destruct S as (e & S); [apply section_refused; auto; lia|].
  destruct (spec_varint_is_varint (len body) HL) as [V1 V2]. exists e.
  rewrite (read_complete _ _ _ _ t fl) by (auto; now rewrite V2). unfold body_result. now rewrite V2, S.
Qed.
Lemma packet_arefused s its first body rest : carries s its first body -> Forall spec_typed its -> len body <= MAXVAR ->
  spec_foreign s its \/ (exists t, spec_repeated s its t /\ t <> SubscriptionIdentifier) ->
  exists e, aread_packet (first :: spec_varint (len body) ++ body ++ rest) = AErr e.
Proof.
  intros HC HT HL HB. pose proof (carries_sec _ _ _ _ HC). pose proof (sec_items_len its).
  destruct (section_body _ _ _ _ HC) as (t & fl & E & _ & S).
  specialize (S (section_arefused s its HT ltac:(lia) HB) rest) as (e & S). exists e.
  unfold aread_packet, aread_fixed_header. rewrite aread_u8_ok. cbn [abind]. rewrite E.
  rewrite aread_varint_ok by assumption. cbn [abind]. exact S.
Qed.
