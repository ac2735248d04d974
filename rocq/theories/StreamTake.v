(* What the stream reader takes, for every announced length *)
From Verif Require Import Base VarInt Prims Props Codes Packets SpecCodec SpecLenient SpecAccept BaseFacts VarIntFacts PrimFacts PropsFacts PacketFacts GoodFacts SyncGood FrameFacts SectionFacts CountFacts FrameMore LenientFacts LenientMore AcceptFacts AcceptMore AcceptAll.

(* ---- the announced length of what is returned ---- *)
Lemma varint_some s a n r : aread_varint s = AOk a n r -> 1 <= n.
Proof.
  intros H. pose proof (count_varint _ _ _ _ H) as C. unfold aread_varint in H.
  assert (L : forall k i v l s v' n r, read_varint_loop k i v l s = ViOk v' n r -> l + 1 <= n).
  { clear. induction k as [|k IH]; intros i v l s v' n r H; [discriminate|]. destruct s as [|x s]; [discriminate|]. cbn [read_varint_loop] in H.
    cbv zeta in H. destruct (N.land x 128 =? 0); [injection H as _ <- _; lia|apply IH in H; lia]. }
  destruct (read_varint_loop 4 0 0 0 s) eqn:E; try discriminate. injection H as _ <- _. apply L in E. lia.
Qed.
Lemma props_some cfg s a n r : aread_props cfg s = AOk a n r -> 1 <= n.
Proof.
  unfold aread_props. intros H. apply abind_ok in H as (k & l & s1 & E & H). apply varint_some in E. destruct (k =? 0).
  - injection H as _ <- _. lia.
  - apply abind_ok in H as (p & t & s2 & _ & H). injection H as _ <- _. lia.
Qed.
Lemma puback_takes rem s a n r : aread_puback rem s = AOk a n r -> rem = n \/ (3 < rem /\ 3 < n).
Proof.
  unfold aread_puback. intros H. destruct (rem <? 2) eqn:E1; [discriminate|]. apply abind_ok in H as (i & n1 & s1 & _ & H).
  destruct (rem =? 2) eqn:E2; [injection H as _ <- _; lia|]. apply abind_ok in H as (c & n2 & s2 & EC & H). apply count_rc in EC as [-> _].
  apply abind_ok in H as (p & n3 & s3 & EP & H). injection H as _ <- _. destruct (rem =? 3) eqn:E3.
  - injection EP as _ <- _. lia.
  - apply props_some in EP. lia.
Qed.
Lemma pubrec_takes rem s a n r : aread_pubrec rem s = AOk a n r -> rem = n \/ (rem <> 2 /\ 3 < n).
Proof.
  unfold aread_pubrec. intros H. apply abind_ok in H as (i & n1 & s1 & _ & H).
  destruct (rem =? 2) eqn:E2; [injection H as _ <- _; lia|]. apply abind_ok in H as (c & n2 & s2 & EC & H). apply count_rc in EC as [-> _].
  apply abind_ok in H as (p & n3 & s3 & EP & H). injection H as _ <- _. apply props_some in EP. lia.
Qed.
Lemma pubrel_takes rem s a n r : aread_pubrel rem s = AOk a n r -> rem = n \/ (rem <> 2 /\ rem <> 3 /\ 3 < n).
Proof.
  unfold aread_pubrel. intros H. apply abind_ok in H as (i & n1 & s1 & _ & H).
  destruct (rem =? 2) eqn:E2; [injection H as _ <- _; lia|]. apply abind_ok in H as (c & n2 & s2 & EC & H). apply count_rc in EC as [-> _].
  destruct (rem =? 3) eqn:E3; [injection H as _ <- _; lia|].
  apply abind_ok in H as (p & n3 & s3 & EP & H). injection H as _ <- _. apply props_some in EP. lia.
Qed.
Lemma sub_topics_never : forall f rem total s l n r, rem < total -> aread_sub_topics f rem total s <> AOk l n r.
Proof.
  induction f as [|f IH]; intros rem total s l n r HT H; [discriminate|]. cbn [aread_sub_topics] in H.
  apply abind_ok in H as (t & n1 & s1 & _ & H). apply abind_ok in H as (o & n2 & s2 & _ & H). cbv zeta in H.
  replace (total + (n1 + n2) <=? rem) with false in H by lia. apply abind_ok in H as (l' & n' & s3 & E3 & H). now apply IH in E3; [|lia].
Qed.
Lemma subscribe_takes rem s a n r : aread_subscribe rem s = AOk a n r -> n <= rem /\ exists t, sb_topics a = [t].
Proof.
  unfold aread_subscribe. intros H. apply abind_ok in H as (i & n1 & s1 & _ & H). apply abind_ok in H as (p & n2 & s2 & _ & H).
  apply abind_ok in H as (l & n3 & s3 & E & H). injection H as <- <- _. cbn [sb_topics]. cbn [aread_sub_topics] in E.
  apply abind_ok in E as (t & m1 & u1 & _ & E). apply abind_ok in E as (o & m2 & u2 & _ & E). cbv zeta in E.
  destruct (2 + n2 + (m1 + m2) <=? rem) eqn:EL.
  - injection E as <- <- _. split; [lia|eauto].
  - apply abind_ok in E as (l' & n' & u3 & E3 & _). now apply sub_topics_never in E3; [|lia].
Qed.
Lemma unsub_topics_takes : forall f rem total s l n r, all_bytes s -> aread_unsub_topics f rem total s = AOk l n r ->
  rem <= n /\ l <> [] /\ forall l' t, l = l' ++ [t] -> l' <> [] \/ total < rem -> n < rem + len (spec_data t).
Proof.
  induction f as [|f IH]; intros rem total s l n r HB H; [discriminate|]. cbn [aread_unsub_topics] in H.
  apply abind_ok in H as (t & n1 & s1 & E1 & H). destruct (atake_str _ _ _ _ HB E1) as (c & -> & ->). apply count_str in E1. rewrite len_app in E1.
  apply all_bytes_app in HB as [_ HB]. cbv zeta in H. destruct (rem <=? total + n1) eqn:EL.
  - injection H as <- <- <-. split; [lia|]. split; [discriminate|]. intros [|x l'] u EQ HT.
    + injection EQ as <-. destruct HT as [HT|HT]; [now destruct HT|lia].
    + injection EQ as _ EQ. now destruct l'.
  - apply abind_ok in H as (l2 & n2 & s2 & E2 & H). injection H as <- <- <-. apply IH in E2 as (H1 & H2 & H3); [|assumption].
    split; [assumption|]. split; [discriminate|]. intros [|x l'] u EQ HT.
    + injection EQ as _ ->. now destruct H2.
    + injection EQ as _ ->. apply (H3 l' u eq_refl). right. lia.
Qed.
Lemma unsubscribe_takes rem s a n r : all_bytes s -> aread_unsubscribe rem s = AOk a n r ->
  rem <= n /\ forall l t, ub_topics a = l ++ [t] -> l <> [] -> n < rem + len (spec_data t).
Proof.
  intros HB H. unfold aread_unsubscribe in H. astep H atake_u16 HB i s1 R1. astep H (atake_props unsubscribe_cfg false) HB p s2 R2.
  apply abind_ok in H as (l & n3 & s3 & E & H). injection H as <- <- _. cbn [ub_topics]. apply unsub_topics_takes in E as (H1 & _ & H3); [|assumption].
  split; [assumption|]. intros l' t EQ HN. eapply H3; [exact EQ|now left].
Qed.
Lemma codes_takes tbl : forall f rem total s l n r, aread_codes_ge f tbl rem total s = AOk l n r -> (rem <= total /\ l = [] /\ n = total) \/ n = rem.
Proof.
  induction f as [|f IH]; intros rem total s l n r H; [discriminate|]. cbn [aread_codes_ge] in H. destruct (rem <=? total) eqn:E.
  - injection H as <- <- _. left. repeat split. lia.
  - apply abind_ok in H as (c & n1 & s1 & EC & H). apply count_rc in EC as [-> _]. apply abind_ok in H as (l2 & n2 & s2 & E2 & H). injection H as _ <- _.
    apply IH in E2 as [(H1 & _ & ->) | -> ]; right; lia.
Qed.
Lemma unsuback_takes rem s a n r : aread_unsuback rem s = AOk a n r -> rem = n \/ (rem < n /\ sa_codes a = []).
Proof.
  unfold aread_unsuback. intros H. apply abind_ok in H as (i & n1 & s1 & _ & H). apply abind_ok in H as (p & n2 & s2 & _ & H).
  apply abind_ok in H as (l & n3 & s3 & E & H). injection H as <- <- _. cbn [sa_codes]. apply codes_takes in E as [(H1 & -> & ->) | -> ]; [|now left].
  destruct (rem =? 2 + n2) eqn:EE; [left; lia|right; split; [lia|reflexivity]].
Qed.
Lemma disconnect_takes rem s a n r : aread_disconnect rem s = AOk a n r -> rem = 0 <-> n = 0.
Proof.
  unfold aread_disconnect. intros H. destruct (rem =? 0) eqn:E; [injection H as _ <- _; lia|].
  apply abind_ok in H as (c & n2 & s2 & EC & H). apply count_rc in EC as [-> _]. apply abind_ok in H as (p & n3 & s3 & _ & H). injection H as _ <- _. lia.
Qed.
Lemma body_takes t fl rem s p n r body : all_bytes s -> aread_body (FH t fl rem) s = AOk p n r -> len body = n ->
  (In (type_of p) [TPublish; TPubComp; TSubAck] -> rem = len body) -> stream_takes p rem body.
Proof.
  intros HB H HL HW. destruct t; cbn [aread_body fh_type fh_flags fh_rem] in H; try (apply amap_ok in H as (a & H & ->)); try (injection H as <- _ _);
    cbn [stream_takes]; try exact I; try (apply HW; cbn; tauto); rewrite ?HL.
  - now apply puback_takes in H.
  - now apply pubrec_takes in H.
  - now apply pubrel_takes in H.
  - now apply subscribe_takes in H.
  - now apply unsubscribe_takes in H.
  - now apply unsuback_takes in H.
  - apply disconnect_takes in H. rewrite H, <- HL. split; [apply len_zero|now intros ->].
Qed.

(* ---- and the other way round ---- *)
Lemma any_puback rem a body rest : ack_ok puback_codes puback_cfg a -> lax_ack FromStream TPubAck a body -> 3 < rem -> 3 < len body ->
  aread_puback rem (body ++ rest) = AOk a (len body) rest.
Proof.
  intros HO HS HR HB. pose proof HO as (HI & HC & HP). unfold aread_puback.
  destruct (alax_ack_forms _ _ _ _ _ HO HS) as [(-> & E)|[(-> & _ & E)|(sec & Hs & EB & HL)]].
  - rewrite spec_u16_len in HB. lia.
  - change (len (spec_u16 (ak_id a) ++ [spec_rc (ak_rc a)])) with 3 in HB. lia.
  - dec (rem <? 2) false. replace (body ++ rest) with (spec_u16 (ak_id a) ++ spec_rc (ak_rc a) :: sec ++ rest) by (rewrite EB, <- app_assoc; reflexivity). rewrite aread_u16_ok by assumption. cbn [abind].
    dec (rem =? 2) false. rewrite aread_rc_ok by auto with codes. cbn [abind]. dec (rem =? 3) false.
    alsec puback_cfg true (ak_props a). cbn [abind]. rewrite EB. nrw. destruct a; cbn; f_equal; lia.
Qed.
Lemma any_pubrec rem a body rest : ack_ok pubrec_codes pubrec_cfg a -> lax_ack FromStream TPubRec a body -> rem <> 2 -> 3 < len body ->
  aread_pubrec rem (body ++ rest) = AOk a (len body) rest.
Proof.
  intros HO HS HR HB. pose proof HO as (HI & HC & HP). unfold aread_pubrec.
  destruct (alax_ack_forms _ _ _ _ _ HO HS) as [(-> & E)|[(-> & _ & E)|(sec & Hs & EB & HL)]].
  - rewrite spec_u16_len in HB. lia.
  - change (len (spec_u16 (ak_id a) ++ [spec_rc (ak_rc a)])) with 3 in HB. lia.
  - replace (body ++ rest) with (spec_u16 (ak_id a) ++ spec_rc (ak_rc a) :: sec ++ rest) by (rewrite EB, <- app_assoc; reflexivity). rewrite aread_u16_ok by assumption. cbn [abind].
    dec (rem =? 2) false. rewrite aread_rc_ok by auto with codes. cbn [abind].
    alsec pubrec_cfg true (ak_props a). cbn [abind]. rewrite EB. nrw. destruct a; cbn; f_equal; lia.
Qed.
Lemma any_pubrel rem a body rest : ack_ok pubrel_codes pubrel_cfg a -> lax_ack FromStream TPubRel a body -> rem <> 2 -> rem <> 3 -> 3 < len body ->
  aread_pubrel rem (body ++ rest) = AOk a (len body) rest.
Proof.
  intros HO HS HR HR3 HB. pose proof HO as (HI & HC & HP). unfold aread_pubrel.
  destruct (alax_ack_forms _ _ _ _ _ HO HS) as [(-> & E)|[(-> & _ & E)|(sec & Hs & EB & HL)]].
  - rewrite spec_u16_len in HB. lia.
  - change (len (spec_u16 (ak_id a) ++ [spec_rc (ak_rc a)])) with 3 in HB. lia.
  - replace (body ++ rest) with (spec_u16 (ak_id a) ++ spec_rc (ak_rc a) :: sec ++ rest) by (rewrite EB, <- app_assoc; reflexivity). rewrite aread_u16_ok by assumption. cbn [abind].
    dec (rem =? 2) false. rewrite aread_rc_ok by auto with codes. cbn [abind]. dec (rem =? 3) false.
    alsec pubrel_cfg true (ak_props a). cbn [abind]. rewrite EB. nrw. destruct a; cbn; f_equal; lia.
Qed.
Lemma any_subscribe rem s body rest : packet_ok (PSubscribe s) -> lax_body FromStream (PSubscribe s) body -> len body <= rem ->
  (exists t, sb_topics s = [t]) -> aread_subscribe rem (body ++ rest) = AOk s (len body) rest.
Proof.
  intros (HI & HP & HT & HN) (sec & tb & Hsec & Htb & ->) HR ([t o] & H1). unfold aread_subscribe.
  rewrite <- !app_assoc. rewrite aread_u16_ok by assumption. cbn [abind].
  alsec subscribe_cfg false (sb_props s). cbn [abind]. rewrite H1 in Htb, HT.
  inversion Htb as [|? ? v ? b Hv Ev L]; subst. inversion L; subst. inversion HT; subst. cbn [fst] in *.
  cbn [aread_sub_topics]. rewrite <- !app_assoc. rewrite aread_str_ok by assumption. cbn [abind app].
  rewrite (aread_sopts_lax v o) by assumption. cbn [abind].
  assert (EL : 2 + len sec + (len (spec_data t) + 1) = len (spec_u16 (sb_id s) ++ sec ++ spec_data t ++ [v])).
  { nrw. lia. }
  rewrite EL. change (len (spec_u16 (sb_id s) ++ sec ++ spec_data t ++ [v]) <= rem) in HR.
  match goal with |- context [?a <=? ?b] => replace (a <=? b) with true by lia end. cbn [abind].
  destruct s; cbn in *. now subst.
Qed.
Lemma any_unsub_topics : forall l f rem total rest, Forall str_ok l -> l <> [] -> (length l <= f)%nat -> rem <= total + len (concat (map spec_data l)) ->
  (forall l' t, l = l' ++ [t] -> l' <> [] -> total + len (concat (map spec_data l)) < rem + len (spec_data t)) ->
  aread_unsub_topics f rem total (concat (map spec_data l) ++ rest) = AOk l (total + len (concat (map spec_data l))) rest.
Proof.
  induction l as [|t l IH]; intros f rem total rest HF HN HL HR HT; [congruence|].
  destruct f as [|f]; [cbn in HL; lia|]. inversion HF; subst.
  cbn [aread_unsub_topics map concat]. rewrite <- app_assoc. rewrite aread_str_ok by assumption. cbn [abind]. rewrite len_app. cbn [map concat] in HR. rewrite len_app in HR.
  destruct l as [|x l].
  - cbn [map concat]. cbn [map concat] in HR. rewrite (@len_nil N) in *.
    match goal with |- context [?a <=? ?b] => replace (a <=? b) with true by lia end. cbn [app]. f_equal; lia.
  - destruct (exists_last (l := x :: l)) as (l' & u & EL); [discriminate|].
    assert (LT : total + len (concat (map spec_data (t :: x :: l))) < rem + len (spec_data u)) by (apply (HT (t :: l') u); [cbn [app]; now rewrite <- EL|discriminate]).
    cbn [map concat] in LT. rewrite len_app in LT. change (spec_data x ++ concat (map spec_data l)) with (concat (map spec_data (x :: l))) in *. rewrite EL in LT at 1. rewrite map_app, concat_app, len_app in LT. cbn [map concat] in LT. rewrite app_nil_r in LT.
    match goal with |- context [?a <=? ?b] => replace (a <=? b) with false by lia end.
    rewrite IH; [cbn [abind]; f_equal; lia|assumption|discriminate|cbn in *; lia|lia|].
    intros l2 u2 E2 _. specialize (HT (t :: l2) u2). cbn [app] in HT. rewrite E2 in HT. specialize (HT eq_refl). rewrite <- E2 in HT.
    cbn [map concat] in HT. rewrite len_app in HT. change (spec_data x ++ concat (map spec_data l)) with (concat (map spec_data (x :: l))) in HT.
    assert (t :: l2 <> []) as HN2 by discriminate. specialize (HT HN2). lia.
Qed.
Lemma any_unsubscribe rem s body rest : packet_ok (PUnsubscribe s) -> lax_body FromStream (PUnsubscribe s) body -> rem <= len body ->
  (forall l t, ub_topics s = l ++ [t] -> l <> [] -> len body < rem + len (spec_data t)) -> aread_unsubscribe rem (body ++ rest) = AOk s (len body) rest.
Proof.
  intros (HI & HP & HT & HN) (sec & Hsec & ->) HR HX. unfold aread_unsubscribe.
  rewrite <- !app_assoc. rewrite aread_u16_ok by assumption. cbn [abind].
  alsec unsubscribe_cfg false (ub_props s). cbn [abind].
  assert (EL : len (spec_u16 (ub_id s) ++ sec ++ concat (map spec_data (ub_topics s))) = 2 + len sec + len (concat (map spec_data (ub_topics s)))).
  { rewrite !len_app, spec_u16_len. lia. }
  rewrite EL in *. rewrite any_unsub_topics; auto.
  - cbn [abind]. now destruct s.
  - pose proof (spec_datas_length (ub_topics s)). rewrite app_length. lia.
Qed.
Lemma any_unsuback rem s body rest : packet_ok (PUnsubAck s) -> lax_body FromStream (PUnsubAck s) body -> rem < len body -> sa_codes s = [] ->
  aread_unsuback rem (body ++ rest) = AOk s (len body) rest.
Proof.
  intros (HI & HP & HC) (sec & Hsec & ->) HR H0. unfold aread_unsuback. rewrite H0 in *. cbn [map] in *. rewrite app_nil_r in *.
  rewrite <- !app_assoc. rewrite aread_u16_ok by assumption. cbn [abind].
  alsec unsuback_cfg false (sa_props s). cbn [abind aread_codes_ge].
  rewrite len_app, spec_u16_len in *. replace (rem <=? 2 + len sec) with true by lia. cbn [abind]. destruct s; cbn in *. now subst.
Qed.
Lemma any_disconnect rem d body rest : packet_ok (PDisconnect d) -> lax_body FromStream (PDisconnect d) body -> (rem = 0 <-> body = []) ->
  aread_disconnect rem (body ++ rest) = AOk d (len body) rest.
Proof.
  intros HO HS HR. destruct (rem =? 0) eqn:E.
  - assert (rem = 0) as -> by lia. assert (body = []) as -> by now apply HR. now apply (aread_lax_disconnect d []).
  - pose proof HO as (HC & HP). unfold aread_disconnect. rewrite E. destruct HS as [(_ & _ & ->)|(sec & Hsec & ->)]; [assert (rem = 0) by (now apply HR); lia|].
    cbn [app]. rewrite aread_rc_ok by auto with codes. cbn [abind].
    alsec disconnect_cfg false (dc_props d). cbn [abind]. nrw. destruct d; cbn; f_equal; lia.
Qed.
Lemma any_body p rem body rest : packet_ok p -> lax_body FromStream p body -> stream_takes p rem body ->
  aread_body (FH (type_of p) (spec_flags p) rem) (body ++ rest) = AOk p (len body) rest.
Proof.
  intros HO HS HR. unfold aread_body. cbn [fh_type fh_rem fh_flags].
  destruct p; cbn [type_of]; cbn [stream_takes] in HR.
  - now rewrite (aread_lax_connect c).
  - now rewrite (aread_lax_connack c).
  - subst rem. now rewrite (aread_lax_publish p).
  - destruct HR as [-> |[H1 H2]]; [now rewrite (aread_lax_puback a)|now rewrite (any_puback rem a)].
  - destruct HR as [-> |[H1 H2]]; [now rewrite (aread_lax_pubrec a)|now rewrite (any_pubrec rem a)].
  - destruct HR as [-> |(H1 & H2 & H3)]; [now rewrite (aread_lax_pubrel a)|now rewrite (any_pubrel rem a)].
  - subst rem. now rewrite (aread_lax_pubcomp a).
  - destruct HR as [H1 H2]. now rewrite (any_subscribe rem s).
  - subst rem. now rewrite (aread_lax_suback s).
  - destruct HR as [H1 H2]. now rewrite (any_unsubscribe rem u).
  - destruct HR as [-> |[H1 H2]]; [now rewrite (aread_lax_unsuback u)|now rewrite (any_unsuback rem u)].
  - cbn in HS. now subst.
  - cbn in HS. now subst.
  - now rewrite (any_disconnect rem d).
  - now rewrite (aread_lax_auth a).
Qed.
Lemma stream_any s p n r : all_bytes s -> (aread_packet s = AOk p n r <->
  exists rem enc body, s = spec_first p :: enc ++ body ++ r /\ int_enc rem enc /\ n = len body /\ packet_ok p /\ lax_body FromStream p body /\ stream_takes p rem body).
Proof.
  intros HB. split.
  - intros H. assert (HO : packet_ok p) by exact (proj2 (decoded_ok _ HB) _ _ _ H).
    destruct (stream_says _ _ _ _ HB H) as (enc & body & -> & V & EL & LB & HW). exists (groups_value enc), enc, body.
    split; [reflexivity|]. split; [now split|]. split; [now symmetry|]. split; [assumption|]. split; [assumption|].
    unfold aread_packet, aread_fixed_header in H. cbn [aread_u8 abind] in H. rewrite first_byte_read, (aread_enc (groups_value enc) enc _ (conj V eq_refl)) in H.
    cbn [abind] in H. inversion HB as [|? ? _ HB']; subst. apply all_bytes_app in HB' as [_ HB'].
    eapply body_takes; [exact HB'|exact H|reflexivity|assumption].
  - intros (rem & enc & body & -> & E & -> & HO & LB & ST). unfold aread_packet, aread_fixed_header. cbn [aread_u8 abind].
    rewrite first_byte_read, (aread_enc _ _ _ E). cbn [abind]. now apply any_body.
Qed.
