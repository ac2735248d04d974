(* What the decoders return is what the bytes say: the packets *)
From Coq Require Import Permutation.
From Verif Require Import Base VarInt Prims Props Codes Packets SpecCodec SpecLenient BaseFacts VarIntFacts PrimFacts PropsFacts PacketFacts GoodFacts SyncGood FrameFacts SectionFacts CountFacts LenientFacts.

(* ---- bits ---- *)
Definition rhandling_dec (a b : rhandling) : {a = b} + {a <> b}. Proof. decide equality. Defined.
Lemma sopts_of v o : v < 256 -> sopts_from_u8 v = Ok o -> v mod 64 = spec_sopts o.
Proof.
  intros H E. pose (P := fun v => match sopts_from_u8 v with Ok o => v mod 64 =? spec_sopts o | _ => true end).
  assert (S : P v = true) by (revert v H E; intros v H _; revert v H; apply (sweep P 256); vm_compute; reflexivity).
  unfold P in S. rewrite E in S. lia.
Qed.
Definition flags_say (f : cflags) (v : N) : bool :=
  Bool.eqb (N.testbit v 7) (cf_username f) && Bool.eqb (N.testbit v 6) (cf_password f) && Bool.eqb (N.testbit v 5) (cf_will_retain f)
  && Bool.eqb (N.testbit v 2) (cf_will f) && Bool.eqb (N.testbit v 1) (cf_clean_start f) && (v / 8 mod 4 =? spec_qos (cf_will_qos f)) && (v / 8 mod 4 <=? 2).
Lemma cflags_of v f : v < 256 -> cflags_from_u8 v = Ok f -> flags_say f v = true.
Proof.
  intros H E. pose (P := fun v => match cflags_from_u8 v with Ok f => flags_say f v | _ => true end).
  assert (S : P v = true) by (revert v H E; intros v H _; revert v H; apply (sweep P 256); vm_compute; reflexivity).
  unfold P in S. now rewrite E in S.
Qed.
Lemma caflags_of v : v < 256 -> v mod 2 = spec_bit (N.land v 1 =? 1).
Proof. intros H. apply N.eqb_eq. revert v H. apply (sweep (fun v => v mod 2 =? spec_bit (N.land v 1 =? 1)) 256). vm_compute. reflexivity. Qed.

Definition first_of (t : pkt_type) (fl : N) : N :=
  match t with
  | TConnect => 16 | TConnAck => 32 | TPublish => 48 + fl | TPubAck => 64 | TPubRec => 80 | TPubRel => 98 | TPubComp => 112
  | TSubscribe => 130 | TSubAck => 144 | TUnsubscribe => 162 | TUnsubAck => 176 | TPingReq => 192 | TPingResp => 208 | TDisconnect => 224 | TAuth => 240
  end.
Lemma first_byte_of v t fl : v < 256 -> from_first_byte v = Ok (t, fl) -> v = first_of t fl /\ fl < 16.
Proof.
  intros H E. pose (P := fun v => match from_first_byte v with Ok (t, fl) => (v =? first_of t fl) && (fl <? 16) | _ => true end).
  assert (S : P v = true) by (revert v H E; intros v H _; revert v H; apply (sweep P 256); vm_compute; reflexivity).
  unfold P in S. rewrite E in S. lia.
Qed.
Lemma pub_flags fl q : fl < 16 -> qos_from_u8 (N.shiftr (N.land fl 6) 1) = Ok q ->
  48 + fl = 16 * 3 + 8 * spec_bit (negb (N.land fl 8 =? 0)) + 2 * spec_qos q + spec_bit (negb (N.land fl 1 =? 0)).
Proof.
  intros H E. pose (P := fun fl => match qos_from_u8 (N.shiftr (N.land fl 6) 1) with
     | Ok q => 48 + fl =? 16 * 3 + 8 * spec_bit (negb (N.land fl 8 =? 0)) + 2 * spec_qos q + spec_bit (negb (N.land fl 1 =? 0)) | _ => true end).
  assert (S : P fl = true) by (revert fl H E; intros v H _; revert v H; apply (sweep P 16); vm_compute; reflexivity).
  unfold P in S. rewrite E in S. lia.
Qed.

Lemma take_sopts : takes (fun o c => exists v, c = [v] /\ v < 256 /\ v mod 64 = spec_sopts o) read_sopts.
Proof. exact (take_one sopts_from_u8 (fun o v => v mod 64 = spec_sopts o) sopts_of). Qed.
Lemma atake_sopts : atakes (fun o c => exists v, c = [v] /\ v < 256 /\ v mod 64 = spec_sopts o) aread_sopts.
Proof. exact (atake_one sopts_from_u8 (fun o v => v mod 64 = spec_sopts o) sopts_of). Qed.
Lemma take_cflags : takes (fun o c => exists v, c = [v] /\ v < 256 /\ flags_say o v = true) read_cflags.
Proof. exact (take_one cflags_from_u8 (fun o v => flags_say o v = true) cflags_of). Qed.
Lemma atake_cflags : atakes (fun o c => exists v, c = [v] /\ v < 256 /\ flags_say o v = true) aread_cflags.
Proof. exact (atake_one cflags_from_u8 (fun o v => flags_say o v = true) cflags_of). Qed.
Lemma take_caflags : takes (fun s c => exists v, c = [v] /\ v < 256 /\ v mod 2 = spec_bit s) read_caflags.
Proof.
  intros b a r HB H. unfold read_caflags in H. destruct (len b <? 1); [discriminate|]. bstep H take_get8 HB v b' R. destruct R as [-> Hv].
  injection H as <- <-. exists [v]. split; [reflexivity|]. exists v. auto using caflags_of.
Qed.
Lemma atake_caflags : atakes (fun s c => exists v, c = [v] /\ v < 256 /\ v mod 2 = spec_bit s) aread_caflags.
Proof.
  intros b a n r HB H. unfold aread_caflags in H. astep H atake_u8 HB v b' R. destruct R as [-> Hv].
  injection H as <- <- <-. exists [v]. split; [reflexivity|]. exists v. auto using caflags_of.
Qed.

(* ---- the packets of the buffer ---- *)
Lemma take_opt_str x : takes (fun o c => c = spec_opt o /\ is_some o = x) (read_opt_str x).
Proof.
  intros b a r HB H. destruct x; cbn [read_opt_str] in H.
  - bstep H take_str HB s b' R. injection H as <- <-. subst c. exists (spec_data s). repeat split.
  - injection H as <- <-. exists []. repeat split.
Qed.
Lemma take_will q rt : takes (fun w c => lax_will FromBuffer w c /\ wl_qos w = q /\ wl_retain w = rt) (read_will q rt).
Proof.
  intros b a r HB H. unfold read_will in H. bstep H (take_props will_cfg eq_refl) HB p b1 R1. bstep H take_str HB tp b2 R2. bstep H take_bin HB pl b3 R3.
  injection H as <- <-. subst. exists (c ++ spec_data tp ++ spec_data pl). split; [now rewrite <- !app_assoc|]. split; [|split; reflexivity].
  exists c. split; [assumption|reflexivity].
Qed.
Lemma flags_lax cs w u pw ka p cid f v : flags_say f v = true -> v < 256 -> cf_clean_start f = cs -> is_some u = cf_username f -> is_some pw = cf_password f ->
  match w with Some w => cf_will f = true /\ wl_qos w = cf_will_qos f /\ wl_retain w = cf_will_retain f | None => cf_will f = false end ->
  lax_cflags (Connect cs w u pw ka p cid) v.
Proof.
  unfold flags_say. intros S Hv E1 E2 E3 EW. rewrite !andb_true_iff in S. destruct S as [[[[[[S1 S2] S3] S4] S5] S6] S7].
  apply Bool.eqb_prop in S1, S2, S3, S4, S5. unfold lax_cflags. cbn [cn_username cn_password cn_will cn_clean_start].
  rewrite S1, S2, S4, S5, E1, E2, E3. destruct w as [w|]; cbn [is_some].
  - destruct EW as (-> & EQ & ER). repeat split; try lia; injection H as <-; [now rewrite S3, ER|rewrite EQ; lia].
  - rewrite EW. repeat split; try lia; discriminate.
Qed.
Lemma take_connect : takes (fun c b => lax_body FromBuffer (PConnect c) b) read_connect.
Proof.
  intros b a r HB H. unfold read_connect in H. bstep H take_bin HB name b1 R1. destruct (bytes_eqb name mqtt_name) eqn:EN; cbn [negb] in H; [|discriminate].
  assert (name = mqtt_name).
  { clear - EN. revert EN. generalize mqtt_name. induction name as [|x n IH]; intros [|y m] E; try discriminate; [reflexivity|]. cbn in E.
    apply andb_true_iff in E as [E1 E2]. f_equal; [lia|auto]. }
  apply bind_ok in H as (b2 & EV & H). unfold read_protocol_version in EV. destruct (len b1 <? 1); [discriminate|].
  bstep EV take_get8 HB v b3 R2. destruct R2 as [-> _]. destruct (v =? 3); [discriminate|]. destruct (v =? 4); [discriminate|]. destruct (v =? 5) eqn:E5; [|discriminate].
  injection EV as ->. bstep H take_cflags HB f b3 R2. destruct R2 as (fv & -> & Hf & FS). bstep H take_get16 HB ka b4 R3.
  bstep H (take_props connect_cfg eq_refl) HB p b5 R4. bstep H take_str HB cid b6 R5.
  apply bind_ok in H as ([w b7] & EW & H).
  assert (W : exists wb, b6 = wb ++ b7 /\ match w with Some w => cf_will f = true /\ wl_qos w = cf_will_qos f /\ wl_retain w = cf_will_retain f /\ lax_will FromBuffer w wb
                                          | None => cf_will f = false /\ wb = [] end).
  { destruct (cf_will f).
    - bstep EW (take_will (cf_will_qos f) (cf_will_retain f)) HB w' b8 R6. injection EW as <- <-. destruct R6 as (L & Q & T). eexists. eauto.
    - injection EW as <- <-. exists []. auto. }
  destruct W as (wb & -> & HW). apply all_bytes_app in HB as [_ HB].
  bstep H (take_opt_str (cf_username f)) HB u b8 R6. destruct R6 as [-> EU]. bstep H (take_opt_str (cf_password f)) HB pw b9 R7. destruct R7 as [-> EP].
  injection H as <- <-. subst. assert (v = 5) by lia. subst v.
  eexists. split; cycle 1.
  - eexists. exists wb, fv. split; [exact R4|]. split.
    + apply (flags_lax _ _ _ _ _ _ _ f); try assumption; [reflexivity|]. destruct w; intuition.
    + split; [cbn [cn_will]; destruct w; intuition|]. cbn [cn_keep_alive cn_client_id cn_username cn_password]. reflexivity.
  - unfold mqtt_name. rewrite <- !app_assoc. reflexivity.
Qed.
Lemma take_connack rem : takes (fun c b => lax_body FromBuffer (PConnAck c) b) (read_connack rem).
Proof.
  intros b a r HB H. unfold read_connack in H. destruct (len b <? rem); [discriminate|].
  bstep H take_caflags HB f b1 R1. bstep H (take_rc connack_codes) HB k b2 R2. bstep H (take_props connack_cfg eq_refl) HB p b3 R3.
  injection H as <- <-. destruct R1 as (v & -> & Hv & E). subst. exists ([v; spec_rc k] ++ c1). split; [reflexivity|]. exists c1, v. auto.
Qed.
Lemma take_publish fl b a r : all_bytes b -> fl < 16 -> read_publish fl b = Ok (a, r) -> r = [] /\ lax_body FromBuffer (PPublish a) b /\ spec_first (PPublish a) = 48 + fl.
Proof.
  intros HB HF H. unfold read_publish in H. apply bind_ok in H as (q & EQ & H). bstep H take_str HB tp b1 R1.
  apply bind_ok in H as ([i b2] & EI & H).
  assert (W : exists ib, b1 = ib ++ b2 /\ ib = match i with Some i => spec_u16 i | None => [] end).
  { destruct (qos_eqb q AtMostOnce).
    - injection EI as <- <-. exists []. auto.
    - bstep EI take_u16 HB j b3 R3. injection EI as <- <-. eexists. split; [reflexivity|]. assumption. }
  destruct W as (ib & -> & EIB). apply all_bytes_app in HB as [_ HB].
  bstep H (take_props publish_cfg eq_refl) HB p b3 R3. injection H as <- <-. split; [reflexivity|]. split.
  - exists c0. split; [exact R3|]. cbn [pb_topic pb_pkid pb_payload]. now subst.
  - cbn [spec_first pb_dup pb_qos pb_retain]. symmetry. now apply pub_flags.
Qed.

Lemma no_props_empty : empty_props no_props.
Proof. intros t. apply prop_vals_no_props. Qed.
Lemma take_puback rem b a r : all_bytes b -> len b = rem -> read_puback rem b = Ok (a, r) -> exists c, b = c ++ r /\ lax_body FromBuffer (PPubAck a) c.
Proof.
  intros HB HL H. unfold read_puback in H. destruct (rem <? 2); [discriminate|]. bstep H take_u16 HB i b1 R1. subst c. destruct (rem =? 2).
  { injection H as <- <-. exists (spec_u16 i). split; [reflexivity|]. left. auto using no_props_empty. }
  bstep H (take_rc puback_codes) HB k b2 R2. subst c. destruct (rem =? 3).
  { injection H as <- <-. exists (spec_u16 i ++ [spec_rc k]). split; [now rewrite <- app_assoc|]. right. left. cbn. auto using no_props_empty. }
  apply bind_ok in H as ([p b3] & E & H). apply take_props_ack in E as (c & -> & LS); [|reflexivity|assumption]. injection H as <- <-.
  exists (spec_u16 i ++ [spec_rc k] ++ c). split; [now rewrite <- !app_assoc|]. right. right. exists c. split; [exact LS|reflexivity].
Qed.
Lemma take_ack4 tbl cfg ty rem b a r : c_split cfg = false -> all_bytes b -> read_ack4 tbl cfg rem b = Ok (a, r) -> exists c, b = c ++ r /\ lax_ack FromBuffer ty a c.
Proof.
  intros HC HB H. unfold read_ack4 in H. destruct (rem =? 2).
  { bstep H take_u16 HB i b1 R1. subst c. injection H as <- <-. exists (spec_u16 i). split; [reflexivity|]. left. auto using no_props_empty. }
  destruct (rem <? 4); [discriminate|]. bstep H take_u16 HB i b1 R1. subst c.
  bstep H (take_rc tbl) HB k b2 R2. subst c.
  apply bind_ok in H as ([p b3] & E & H). apply take_props_ack in E as (c & -> & LS); [|assumption|assumption]. injection H as <- <-.
  exists (spec_u16 i ++ [spec_rc k] ++ c). split; [now rewrite <- !app_assoc|]. right. right. exists c. split; [exact LS|reflexivity].
Qed.
Lemma take_pubrel rem b a r : all_bytes b -> read_pubrel rem b = Ok (a, r) -> exists c, b = c ++ r /\ lax_body FromBuffer (PPubRel a) c.
Proof.
  intros HB H. unfold read_pubrel in H. destruct (rem =? 2).
  { bstep H take_u16 HB i b1 R1. subst c. injection H as <- <-. exists (spec_u16 i). split; [reflexivity|]. left. auto using no_props_empty. }
  destruct (rem =? 3).
  { bstep H take_u16 HB i b1 R1. subst c. bstep H (take_rc pubrel_codes) HB k b2 R2. subst c. injection H as <- <-.
    exists (spec_u16 i ++ [spec_rc k]). split; [now rewrite <- app_assoc|]. right. left. cbn. auto using no_props_empty. }
  bstep H take_u16 HB i b1 R1. subst c. bstep H (take_rc pubrel_codes) HB k b2 R2. subst c.
  apply bind_ok in H as ([p b3] & E & H). apply take_props_ack in E as (c & -> & LS); [|reflexivity|assumption]. injection H as <- <-.
  exists (spec_u16 i ++ [spec_rc k] ++ c). split; [now rewrite <- !app_assoc|]. right. right. exists c. split; [exact LS|reflexivity].
Qed.

Lemma take_sub_topics : forall f b l r, all_bytes b -> read_sub_topics f b = Ok (l, r) -> r = [] /\ lax_topics l b.
Proof.
  induction f as [|f IH]; intros b l r HB H; [discriminate|]. cbn [read_sub_topics] in H. bstep H take_str HB t b1 R1. bstep H take_sopts HB o b2 R2.
  destruct R2 as (v & -> & Hv & E). subst c. destruct (len b2 =? 0) eqn:E2.
  - injection H as <- <-. apply N.eqb_eq, len_zero in E2. subst b2. split; [reflexivity|]. repeat constructor; assumption.
  - apply bind_ok in H as ([l' b3] & E3 & H). injection H as <- <-. apply IH in E3 as [-> L]; [|assumption]. split; [reflexivity|]. now constructor.
Qed.
Lemma take_subscribe b a r : all_bytes b -> read_subscribe b = Ok (a, r) -> r = [] /\ lax_body FromBuffer (PSubscribe a) b.
Proof.
  intros HB H. unfold read_subscribe in H. bstep H take_u16 HB i b1 R1. bstep H (take_props subscribe_cfg eq_refl) HB p b2 R2.
  apply bind_ok in H as ([l b3] & E & H). injection H as <- <-. apply take_sub_topics in E as [-> L]; [|assumption]. split; [reflexivity|].
  exists c0, b2. subst c. auto.
Qed.
Lemma take_unsub_topics : forall f b l r, all_bytes b -> read_unsub_topics f b = Ok (l, r) -> r = [] /\ b = concat (map spec_data l).
Proof.
  induction f as [|f IH]; intros b l r HB H; [discriminate|]. cbn [read_unsub_topics] in H. bstep H take_str HB t b1 R1. subst c.
  destruct (len b1 =? 0) eqn:E2.
  - injection H as <- <-. apply N.eqb_eq, len_zero in E2. subst b1. split; reflexivity.
  - apply bind_ok in H as ([l' b3] & E3 & H). injection H as <- <-. apply IH in E3 as [-> ->]; [|assumption]. split; reflexivity.
Qed.
Lemma take_unsubscribe b a r : all_bytes b -> read_unsubscribe b = Ok (a, r) -> r = [] /\ lax_body FromBuffer (PUnsubscribe a) b.
Proof.
  intros HB H. unfold read_unsubscribe in H. bstep H take_u16 HB i b1 R1. bstep H (take_props unsubscribe_cfg eq_refl) HB p b2 R2.
  apply bind_ok in H as ([l b3] & E & H). injection H as <- <-. apply take_unsub_topics in E as [-> L]; [|assumption]. split; [reflexivity|].
  exists c0. split; [assumption|]. subst. reflexivity.
Qed.
Lemma take_codes_ge tbl rem : forall f n b l r, all_bytes b -> read_codes_ge f tbl rem n b = Ok (l, r) -> b = map spec_rc l ++ r /\ rem <= n + len l.
Proof.
  induction f as [|f IH]; intros n b l r HB H; [discriminate|]. cbn [read_codes_ge] in H. destruct (rem <=? n) eqn:E.
  - injection H as <- <-. split; [reflexivity|]. lia.
  - bstep H (take_rc tbl) HB k b1 R1. apply bind_ok in H as ([l' b2] & E2 & H). injection H as <- <-. apply IH in E2 as [-> LE]; [|assumption].
    subst c. split; [reflexivity|]. rewrite (@len_cons rc). lia.
Qed.
Lemma take_codes_eq tbl rem : forall f n b l r, all_bytes b -> read_codes_eq f tbl rem n b = Ok (l, r) -> b = map spec_rc l ++ r /\ rem <= n + len l.
Proof.
  induction f as [|f IH]; intros n b l r HB H; [discriminate|]. cbn [read_codes_eq] in H. destruct (n =? rem) eqn:E.
  - injection H as <- <-. split; [reflexivity|]. change (len (@nil rc)) with 0. lia.
  - bstep H (take_rc tbl) HB k b1 R1. apply bind_ok in H as ([l' b2] & E2 & H). injection H as <- <-. apply IH in E2 as [-> LE]; [|assumption].
    subst c. split; [reflexivity|]. rewrite (@len_cons rc). lia.
Qed.

(* the length computed from the properties is at most the one read *)
Lemma vals_perm : forall a b : list item, (forall t, vals t a = vals t b) -> Permutation a b.
Proof.
  induction a as [|[t v] a IH]; intros b H.
  - destruct b as [|[t v] b]; [constructor|]. specialize (H t). exfalso. unfold vals in H. cbn [filter map fst snd] in H.
    assert (E : ptype_eqb t t = true) by (apply ptype_eqb_eq; reflexivity). rewrite E in H. discriminate H.
  - assert (X : exists b1 b2, b = b1 ++ (t, v) :: b2 /\ vals t b1 = []).
    { specialize (H t). change ((t, v) :: a) with ([(t, v)] ++ a) in H. rewrite vals_app, vals_one in H. cbn [fst snd] in H.
      assert (E : ptype_eqb t t = true) by (apply ptype_eqb_eq; reflexivity). rewrite E in H. cbn [app] in H. clear IH.
      revert H. generalize (vals t a). induction b as [|[t' v'] b IHb]; intros l H; [discriminate H|].
      change ((t', v') :: b) with ([(t', v')] ++ b) in H. rewrite vals_app, vals_one in H. cbn [fst snd] in H. destruct (ptype_eqb t' t) eqn:ET.
      - apply ptype_eqb_eq in ET. subst t'. cbn in H. injection H as <- _. exists [], b. auto.
      - cbn [app] in H. destruct (IHb l H) as (b1 & b2 & -> & V). exists ((t', v') :: b1), b2. split; [reflexivity|].
        change ((t', v') :: b1) with ([(t', v')] ++ b1). rewrite vals_app, vals_one. cbn [fst]. now rewrite ET. }
    destruct X as (b1 & b2 & -> & V). apply Permutation_cons_app. apply IH. intros u. specialize (H u).
    change ((t, v) :: a) with ([(t, v)] ++ a) in H. change ((t, v) :: b2) with ([(t, v)] ++ b2) in H. rewrite !vals_app, !vals_one in H. cbn [fst snd] in H.
    rewrite vals_app. destruct (ptype_eqb t u) eqn:EU; [|exact H]. apply ptype_eqb_eq in EU. subst u. rewrite V in H |- *. now injection H.
Qed.
Lemma items_len_perm a b : Permutation a b -> len (spec_items a) = len (spec_items b).
Proof. induction 1; rewrite ?spec_items_cons, ?len_app in *; lia. Qed.
Lemma varint_min e : is_varint e -> len (spec_varint (groups_value e)) <= len e.
Proof.
  intros V. apply spec_varint_minimal; auto. pose proof (groups_value_bound e) as G. destruct V as (i & l & _ & _ & _ & L).
  assert (128 ^ len e <= 128 ^ 4) by (apply N.pow_le_mono_r; lia). change (128 ^ 4) with 268435456 in *. unfold MAXVAR. lia.
Qed.
Lemma lax_val_len v b : lax_val v b -> len (spec_val v) <= len b.
Proof. destruct v; cbn [lax_val spec_val]; intros H; try (rewrite H; lia). destruct H as [V <-]. now apply varint_min. Qed.
Lemma lax_items_len its b : lax_items its b -> len (spec_items its) <= len b.
Proof.
  induction 1 as [|t v vb its b LV LI IH]; [apply N.le_refl|]. rewrite spec_items_cons. unfold spec_item. cbn [fst snd]. apply lax_val_len in LV.
  rewrite len_app, !(@len_cons N), len_app. lia.
Qed.
Lemma varint_len_mono a b : a <= b -> variable_integer_len a <= variable_integer_len b.
Proof. intros H. unfold variable_integer_len. repeat match goal with |- context [?x <? ?y] => destruct (x <? y) eqn:?; try lia | |- context [?x <=? ?y] => destruct (x <=? y) eqn:?; try lia end. Qed.
Lemma lax_section_len cfg p sec : cfg_good cfg -> props_ok cfg p -> auth_ok p -> lax_section FromBuffer false p sec -> section_len cfg p <= len sec.
Proof.
  intros HG HP HA (its & e & ib & LI & (H1 & H2) & -> & V & EV). cbv beta iota in *.
  rewrite section_len_spec by assumption. unfold spec_section. rewrite !len_app.
  assert (A : arranges (its_of (c_decl cfg) p) p) by (now apply its_of_decl_arranges).
  assert (E : len (spec_items (its_of (c_decl cfg) p)) = len (spec_items its)).
  { apply items_len_perm, vals_perm. intros t. rewrite A. destruct (ptype_eq_dec t SubscriptionIdentifier) as [->|N]; symmetry; auto. }
  rewrite E. pose proof (lax_items_len _ _ LI) as L. enough (len (spec_varint (len (spec_items its))) <= len e) by lia.
  rewrite spec_varint_len. apply N.le_trans with (variable_integer_len (groups_value e)); [apply varint_len_mono; lia|].
  rewrite <- spec_varint_len. now apply varint_min.
Qed.
Lemma suback_auth_ok cfg p : In cfg [suback_cfg; unsuback_cfg] -> props_ok cfg p -> auth_ok p.
Proof.
  intros HC HP d E. exfalso.
  destruct (props_ok_vals cfg p AuthenticationData (VBin d) HP) as [D _]; [cbn; rewrite E; cbn; auto|].
  cbn in HC. destruct HC as [<-|[<-|[]]]; discriminate D.
Qed.
Lemma len_map_rc l : len (map spec_rc l) = len l.
Proof. unfold len. now rewrite map_length. Qed.
Lemma suback_rest cfg p i c l r rem : In cfg [suback_cfg; unsuback_cfg] -> props_ok cfg p -> lax_section FromBuffer false p c ->
  len (spec_u16 i ++ c ++ map spec_rc l ++ r) = rem -> rem <= 2 + section_len cfg p + len l -> r = [].
Proof.
  intros HC HP LS EL LE. assert (HG : cfg_good cfg) by (apply cfg_good_in; cbn in *; intuition).
  pose proof (lax_section_len cfg p c HG HP (suback_auth_ok _ _ HC HP) LS) as L.
  rewrite !len_app, len_map_rc in EL. change (len (spec_u16 i)) with 2 in EL. apply len_zero. lia.
Qed.
Lemma take_suback rem b a r : all_bytes b -> len b = rem -> read_suback rem b = Ok (a, r) -> r = [] /\ lax_body FromBuffer (PSubAck a) b.
Proof.
  intros HB HL H. unfold read_suback in H. bstep H take_u16 HB i b1 R1. apply bind_ok in H as ([p b2] & EP & H).
  pose proof (sgood_props suback_cfg b1 HB) as G. rewrite EP in G. destruct G as [_ GP].
  destruct (take_props suback_cfg eq_refl _ _ _ HB EP) as (c1 & -> & LS). apply all_bytes_app in HB as [_ HB].
  apply bind_ok in H as ([l b3] & E & H). injection H as <- <-. apply take_codes_ge in E as [-> LE]; [|assumption]. subst c.
  assert (r0 : b3 = []) by (eapply (suback_rest suback_cfg p); eauto; cbn; auto). subst b3. rewrite app_nil_r. split; [reflexivity|]. exists c1. auto.
Qed.
Lemma take_unsuback rem b a r : all_bytes b -> len b = rem -> read_unsuback rem b = Ok (a, r) -> r = [] /\ lax_body FromBuffer (PUnsubAck a) b.
Proof.
  intros HB HL H. unfold read_unsuback in H. bstep H take_u16 HB i b1 R1. apply bind_ok in H as ([p b2] & EP & H).
  pose proof (sgood_props unsuback_cfg b1 HB) as G. rewrite EP in G. destruct G as [_ GP].
  destruct (take_props unsuback_cfg eq_refl _ _ _ HB EP) as (c1 & -> & LS). apply all_bytes_app in HB as [_ HB].
  apply bind_ok in H as ([l b3] & E & H). injection H as <- <-. apply take_codes_eq in E as [-> LE]; [|assumption]. subst c.
  assert (r0 : b3 = []) by (eapply (suback_rest unsuback_cfg p); eauto; cbn; auto). subst b3. rewrite app_nil_r. split; [reflexivity|]. exists c1. auto.
Qed.
Lemma take_disconnect rem b a r : all_bytes b -> len b = rem -> read_disconnect rem b = Ok (a, r) -> exists c, b = c ++ r /\ lax_body FromBuffer (PDisconnect a) c.
Proof.
  intros HB HL H. unfold read_disconnect in H. destruct (rem =? 0).
  - injection H as <- <-. exists []. split; [reflexivity|]. left. auto using no_props_empty.
  - bstep H (take_rc disconnect_codes) HB k b1 R1. bstep H (take_props disconnect_cfg eq_refl) HB p b2 R2. injection H as <- <-. subst c.
    exists ([spec_rc k] ++ c0). split; [reflexivity|]. right. exists c0. auto.
Qed.
Lemma take_auth b a r : all_bytes b -> read_auth b = Ok (a, r) -> exists c, b = c ++ r /\ lax_body FromBuffer (PAuth a) c.
Proof.
  intros HB H. unfold read_auth in H.
  bstep H (take_rc auth_codes) HB k b1 R1. bstep H (take_props auth_cfg eq_refl) HB p b2 R2. injection H as <- <-. subst c.
  exists ([spec_rc k] ++ c0). split; [reflexivity|]. exists c0. auto.
Qed.

Lemma rmap_ok {A B} (f : A -> B) m b r : rmap f m = Ok (b, r) -> exists a, m = Ok (a, r) /\ b = f a.
Proof. destruct m as [[a r']|e|c]; cbn; intros H; try discriminate. injection H as <- <-. eauto. Qed.
Definition whole (t : pkt_type) : Prop := In t [TPublish; TSubscribe; TUnsubscribe; TSubAck; TUnsubAck].
Lemma take_body t fl b p r : all_bytes b -> fl < 16 -> read_body (FH t fl (len b)) b = Ok (p, r) ->
  exists c, b = c ++ r /\ lax_body FromBuffer p c /\ spec_first p = first_of t fl /\ (whole (type_of p) -> r = []).
Proof.
  intros HB HF H.
  destruct t; cbn [read_body fh_type fh_flags fh_rem] in H; try (apply rmap_ok in H as (a & H & ->)).
  - apply take_connect in H as (c & -> & L); [|assumption]. exists c. split; [reflexivity|]. split; [assumption|]. split; [reflexivity|]. cbn. intuition discriminate.
  - apply take_connack in H as (c & -> & L); [|assumption]. exists c. split; [reflexivity|]. split; [assumption|]. split; [reflexivity|]. cbn. intuition discriminate.
  - apply take_publish in H as (-> & L & E); [|assumption|assumption]. exists b. rewrite app_nil_r. auto.
  - apply take_puback in H as (c & -> & L); [|assumption|reflexivity]. exists c. split; [reflexivity|]. split; [assumption|]. split; [reflexivity|]. cbn. intuition discriminate.
  - apply (take_ack4 _ _ TPubRec) in H as (c & -> & L); [|reflexivity|assumption]. exists c. split; [reflexivity|]. split; [assumption|]. split; [reflexivity|]. cbn. intuition discriminate.
  - apply take_pubrel in H as (c & -> & L); [|assumption]. exists c. split; [reflexivity|]. split; [assumption|]. split; [reflexivity|]. cbn. intuition discriminate.
  - apply (take_ack4 _ _ TPubComp) in H as (c & -> & L); [|reflexivity|assumption]. exists c. split; [reflexivity|]. split; [assumption|]. split; [reflexivity|]. cbn. intuition discriminate.
  - apply take_subscribe in H as (-> & L); [|assumption]. exists b. rewrite app_nil_r. auto.
  - apply take_suback in H as (-> & L); [|assumption|reflexivity]. exists b. rewrite app_nil_r. auto.
  - apply take_unsubscribe in H as (-> & L); [|assumption]. exists b. rewrite app_nil_r. auto.
  - apply take_unsuback in H as (-> & L); [|assumption|reflexivity]. exists b. rewrite app_nil_r. auto.
  - injection H as <- <-. exists []. repeat split. cbn. intuition discriminate.
  - injection H as <- <-. exists []. repeat split. cbn. intuition discriminate.
  - apply take_disconnect in H as (c & -> & L); [|assumption|reflexivity]. exists c. split; [reflexivity|]. split; [assumption|]. split; [reflexivity|]. cbn. intuition discriminate.
  - apply take_auth in H as (c & -> & L); [|assumption]. exists c. split; [reflexivity|]. split; [assumption|]. split; [reflexivity|]. cbn. intuition discriminate.
Qed.
Lemma buffer_says buf p rest : all_bytes buf -> read_packet buf = RPacket p rest ->
  exists enc body extra, buf = spec_first p :: enc ++ body ++ extra ++ rest /\ int_enc (len (body ++ extra)) enc /\ lax_body FromBuffer p body /\
    (In (type_of p) [TPublish; TSubscribe; TUnsubscribe; TSubAck; TUnsubAck] -> extra = []).
Proof.
  intros HB H. destruct (buf_cases buf HB) as [buf HT|first rs HL H1|first init rs HL HF HI|first init HL HF HI HN|first enc body HL HV HBd|first enc body rs HL HV HBd].
  - unfold read_packet, read_fixed_header in H. replace (len buf <? 2) with true in H by lia. discriminate H.
  - inversion HB as [|? ? Hf Hr]; subst. pose proof (legal_first_ok first Hf) as L. rewrite HL in L.
    rewrite read_illegal in H by assumption. discriminate H.
  - inversion HB as [|? ? Hf Hr]; subst. pose proof (legal_first_ok first Hf) as L. rewrite HL in L. destruct L as (t & fl & L).
    rewrite (read_long first init rs t fl) in H by assumption. discriminate H.
  - inversion HB as [|? ? Hf Hr]; subst. pose proof (legal_first_ok first Hf) as L. rewrite HL in L. destruct L as (t & fl & L).
    rewrite (read_short_header first init t fl) in H by assumption. discriminate H.
  - inversion HB as [|? ? Hf Hr]; subst. pose proof (legal_first_ok first Hf) as L. rewrite HL in L. destruct L as (t & fl & L).
    rewrite (read_incomplete first enc body t fl) in H by assumption. discriminate H.
  - inversion HB as [|? ? Hf Hr]; subst. pose proof (legal_first_ok first Hf) as L. rewrite HL in L. destruct L as (t & fl & L).
    rewrite (read_complete first enc body rs t fl) in H by assumption.
    apply all_bytes_app in Hr as [_ Hr]. apply all_bytes_app in Hr as [Hb _].
    destruct (first_byte_of first t fl Hf L) as [EF FL].
    unfold body_result in H. rewrite <- HBd in H. destruct (read_body (FH t fl (len body)) body) as [[q x]|e|k] eqn:E; try discriminate.
    injection H as <- <-. apply take_body in E as (c & -> & LB & SF & W); [|assumption|assumption].
    exists enc, c, x. split; [rewrite SF, <- EF, <- app_assoc; reflexivity|]. split; [split; [assumption|now symmetry]|]. auto.
Qed.

(* ---- the packets of the stream ---- *)
Lemma atake_opt_str x : atakes (fun o c => c = spec_opt o /\ is_some o = x) (aread_opt_str x).
Proof.
  intros b a n r HB H. destruct x; cbn [aread_opt_str] in H.
  - astep H atake_str HB s b' R. injection H as <- <- <-. subst c. exists (spec_data s). repeat split.
  - injection H as <- <- <-. exists []. repeat split.
Qed.
Lemma atake_will q rt : atakes (fun w c => lax_will FromStream w c /\ wl_qos w = q /\ wl_retain w = rt) (aread_will q rt).
Proof.
  intros b a n r HB H. unfold aread_will in H. astep H (atake_props will_cfg false) HB p b1 R1. astep H atake_str HB tp b2 R2. astep H atake_bin HB pl b3 R3.
  injection H as <- _ <-. subst. exists (c ++ spec_data tp ++ spec_data pl). split; [now rewrite <- !app_assoc|]. split; [|split; reflexivity].
  exists c. split; [assumption|reflexivity].
Qed.
Lemma atake_connect : atakes (fun c b => lax_body FromStream (PConnect c) b) aread_connect.
Proof.
  intros b a n r HB H. unfold aread_connect in H. astep H (atake_exact 6) HB name b1 R1. destruct R1 as [-> _].
  destruct (bytes_eqb name ([0; 4] ++ mqtt_name)) eqn:EN; cbn [negb] in H; [|discriminate].
  assert (EName : name = [0; 4] ++ mqtt_name).
  { clear - EN. revert EN. generalize ([0; 4] ++ mqtt_name). induction name as [|x n IH]; intros [|y m] E; try discriminate; [reflexivity|]. cbn in E.
    apply andb_true_iff in E as [E1 E2]. f_equal; [lia|auto]. }
  apply abind_ok in H as (un & k & b2 & EV & H). unfold aread_protocol_version in EV.
  astep EV atake_u8 HB v b3 R2. destruct R2 as [-> _]. destruct (v =? 5) eqn:E5; [|destruct (v =? 4); [discriminate|]; destruct (v =? 3); discriminate].
  injection EV as _ _ ->. astep H atake_cflags HB f b3 R2. destruct R2 as (fv & -> & Hf & FS). astep H atake_u16 HB ka b4 R3.
  astep H (atake_props connect_cfg false) HB p b5 R4. astep H atake_str HB cid b6 R5.
  apply abind_ok in H as (w & kw & b7 & EW & H).
  assert (W : exists wb, b6 = wb ++ b7 /\ match w with Some w => cf_will f = true /\ wl_qos w = cf_will_qos f /\ wl_retain w = cf_will_retain f /\ lax_will FromStream w wb
                                          | None => cf_will f = false /\ wb = [] end).
  { destruct (cf_will f).
    - astep EW (atake_will (cf_will_qos f) (cf_will_retain f)) HB w' b8 R6. injection EW as <- _ <-. destruct R6 as (L & Q & T). eexists. eauto.
    - injection EW as <- _ <-. exists []. auto. }
  destruct W as (wb & -> & HW). apply all_bytes_app in HB as [_ HB].
  astep H (atake_opt_str (cf_username f)) HB u b8 R6. destruct R6 as [-> EU]. astep H (atake_opt_str (cf_password f)) HB pw b9 R7. destruct R7 as [-> EP].
  injection H as <- _ <-. subst. assert (v = 5) by lia. subst v.
  eexists. split; cycle 1.
  - eexists. exists wb, fv. split; [exact R4|]. split.
    + apply (flags_lax _ _ _ _ _ _ _ f); try assumption; [reflexivity|]. destruct w; intuition.
    + split; [cbn [cn_will]; destruct w; intuition|]. cbn [cn_keep_alive cn_client_id cn_username cn_password]. reflexivity.
  - unfold mqtt_name. rewrite <- !app_assoc. reflexivity.
Qed.
Lemma atake_connack : atakes (fun c b => lax_body FromStream (PConnAck c) b) aread_connack.
Proof.
  intros b a n r HB H. unfold aread_connack in H.
  astep H atake_caflags HB f b1 R1. astep H (atake_rc connack_codes) HB k b2 R2. astep H (atake_props connack_cfg false) HB p b3 R3.
  injection H as <- _ <-. destruct R1 as (v & -> & Hv & E). subst. exists ([v; spec_rc k] ++ c1). split; [reflexivity|]. exists c1, v. auto.
Qed.
Lemma atake_publish fl rem : fl < 16 -> atakes (fun p b => lax_body FromStream (PPublish p) b /\ spec_first (PPublish p) = 48 + fl) (aread_publish fl rem).
Proof.
  intros HF b a n r HB H. unfold aread_publish in H. destruct (qos_from_u8 (N.shiftr (N.land fl 6) 1)) as [q|e|k] eqn:EQ; try discriminate.
  astep H atake_str HB tp b1 R1. apply abind_ok in H as (i & k & b2 & EI & H).
  assert (W : exists ib, b1 = ib ++ b2 /\ ib = match i with Some i => spec_u16 i | None => [] end).
  { destruct (qos_eqb q AtMostOnce).
    - injection EI as <- _ <-. exists []. auto.
    - astep EI atake_u16 HB j b3 R3. injection EI as <- _ <-. eexists. split; [reflexivity|]. assumption. }
  destruct W as (ib & -> & EIB). apply all_bytes_app in HB as [_ HB].
  astep H (atake_props publish_cfg false) HB p b3 R3. match type of H with (if ?c then _ else _) = _ => destruct c; [discriminate|] end.
  apply abind_ok in H as (pl & m & r' & EP & H). injection H as <- _ <-.
  destruct (atake_exact _ _ _ _ _ HB EP) as (c1 & -> & -> & _).
  exists (spec_data tp ++ ib ++ c0 ++ pl). split; [rewrite <- !app_assoc; now subst|]. split.
  - exists c0. split; [exact R3|]. cbn [pb_topic pb_pkid pb_payload]. now subst.
  - cbn [spec_first pb_dup pb_qos pb_retain]. symmetry. now apply pub_flags.
Qed.
Lemma atake_puback rem : atakes (fun p b => lax_body FromStream (PPubAck p) b) (aread_puback rem).
Proof.
  intros b a n r HB H. unfold aread_puback in H. destruct (rem <? 2); [discriminate|]. astep H atake_u16 HB i b1 R1. subst c. destruct (rem =? 2).
  { injection H as <- _ <-. exists (spec_u16 i). split; [reflexivity|]. left. auto using no_props_empty. }
  astep H (atake_rc puback_codes) HB k b2 R2. subst c. apply abind_ok in H as (p & m & b3 & E & H). injection H as <- _ <-. destruct (rem =? 3).
  { injection E as <- _ <-. exists (spec_u16 i ++ [spec_rc k]). split; [now rewrite <- app_assoc|]. right. left. cbn. auto using no_props_empty. }
  destruct (atake_props _ true _ _ _ _ HB E) as (c & -> & LS).
  exists (spec_u16 i ++ [spec_rc k] ++ c). split; [now rewrite <- !app_assoc|]. right. right. exists c. split; [exact LS|reflexivity].
Qed.
Lemma atake_pubrec rem : atakes (fun p b => lax_body FromStream (PPubRec p) b) (aread_pubrec rem).
Proof.
  intros b a n r HB H. unfold aread_pubrec in H. astep H atake_u16 HB i b1 R1. subst c. destruct (rem =? 2).
  { injection H as <- _ <-. exists (spec_u16 i). split; [reflexivity|]. left. auto using no_props_empty. }
  astep H (atake_rc pubrec_codes) HB k b2 R2. subst c. astep H (atake_props pubrec_cfg true) HB p b3 LS. injection H as <- _ <-.
  exists (spec_u16 i ++ [spec_rc k] ++ c). split; [now rewrite <- !app_assoc|]. right. right. exists c. split; [exact LS|reflexivity].
Qed.
Lemma atake_pubrel rem : atakes (fun p b => lax_body FromStream (PPubRel p) b) (aread_pubrel rem).
Proof.
  intros b a n r HB H. unfold aread_pubrel in H. astep H atake_u16 HB i b1 R1. subst c. destruct (rem =? 2).
  { injection H as <- _ <-. exists (spec_u16 i). split; [reflexivity|]. left. auto using no_props_empty. }
  astep H (atake_rc pubrel_codes) HB k b2 R2. subst c. destruct (rem =? 3).
  { injection H as <- _ <-. exists (spec_u16 i ++ [spec_rc k]). split; [now rewrite <- app_assoc|]. right. left. cbn. auto using no_props_empty. }
  astep H (atake_props pubrel_cfg true) HB p b3 LS. injection H as <- _ <-.
  exists (spec_u16 i ++ [spec_rc k] ++ c). split; [now rewrite <- !app_assoc|]. right. right. exists c. split; [exact LS|reflexivity].
Qed.
Lemma atake_pubcomp rem : atakes (fun p b => lax_body FromStream (PPubComp p) b) (aread_pubcomp rem).
Proof.
  intros b a n r HB H. unfold aread_pubcomp in H. astep H atake_u16 HB i b1 R1. subst c. destruct (rem =? 2).
  { injection H as <- _ <-. exists (spec_u16 i). split; [reflexivity|]. left. auto using no_props_empty. }
  destruct (rem <? 4); [discriminate|].
  astep H (atake_rc pubcomp_codes) HB k b2 R2. subst c. astep H (atake_props pubcomp_cfg true) HB p b3 LS.
  match type of H with (if ?c then _ else _) = _ => destruct c; [discriminate|] end. injection H as <- _ <-.
  exists (spec_u16 i ++ [spec_rc k] ++ c). split; [now rewrite <- !app_assoc|]. right. right. exists c. split; [exact LS|reflexivity].
Qed.
Lemma atake_sub_topics : forall f rem t, atakes lax_topics (aread_sub_topics f rem t).
Proof.
  induction f as [|f IH]; intros rem tot b l n r HB H; [discriminate|]. cbn [aread_sub_topics] in H. astep H atake_str HB t b1 R1. astep H atake_sopts HB o b2 R2.
  destruct R2 as (v & -> & Hv & E). subst c. match type of H with (if ?c then _ else _) = _ => destruct c end.
  - injection H as <- _ <-. exists (spec_data t ++ [v] ++ []). split; [now rewrite <- !app_assoc|]. now repeat constructor.
  - apply abind_ok in H as (l' & k & b3 & E3 & H). injection H as <- _ <-. apply IH in E3 as (c & -> & L); [|assumption].
    exists (spec_data t ++ [v] ++ c). split; [now rewrite <- !app_assoc|]. now constructor.
Qed.
Lemma atake_subscribe rem : atakes (fun p b => lax_body FromStream (PSubscribe p) b) (aread_subscribe rem).
Proof.
  intros b a n r HB H. unfold aread_subscribe in H. astep H atake_u16 HB i b1 R1. astep H (atake_props subscribe_cfg false) HB p b2 R2.
  apply abind_ok in H as (l & k & b3 & E & H). injection H as <- _ <-. apply atake_sub_topics in E as (c' & -> & L); [|assumption].
  exists (spec_u16 i ++ c0 ++ c'). split; [subst; now rewrite <- !app_assoc|]. exists c0, c'. auto.
Qed.
Lemma atake_unsub_topics : forall f rem t, atakes (fun l c => c = concat (map spec_data l)) (aread_unsub_topics f rem t).
Proof.
  induction f as [|f IH]; intros rem tot b l n r HB H; [discriminate|]. cbn [aread_unsub_topics] in H. astep H atake_str HB t b1 R1. subst c.
  match type of H with (if ?c then _ else _) = _ => destruct c end.
  - injection H as <- _ <-. exists (spec_data t). split; [reflexivity|]. cbn. now rewrite app_nil_r.
  - apply abind_ok in H as (l' & k & b3 & E3 & H). injection H as <- _ <-. apply IH in E3 as (c & -> & ->); [|assumption].
    eexists. split; [|reflexivity]. cbn. now rewrite <- app_assoc.
Qed.
Lemma atake_unsubscribe rem : atakes (fun p b => lax_body FromStream (PUnsubscribe p) b) (aread_unsubscribe rem).
Proof.
  intros b a n r HB H. unfold aread_unsubscribe in H. astep H atake_u16 HB i b1 R1. astep H (atake_props unsubscribe_cfg false) HB p b2 R2.
  apply abind_ok in H as (l & k & b3 & E & H). injection H as <- _ <-. apply atake_unsub_topics in E as (c' & -> & ->); [|assumption].
  eexists. split; cycle 1; [exists c0; split; [exact R2|reflexivity]|]. subst. cbn [ub_id ub_topics]. now rewrite <- !app_assoc.
Qed.
Lemma atake_codes_eq tbl : forall f rem t, atakes (fun l c => c = map spec_rc l) (aread_codes_eq f tbl rem t).
Proof.
  induction f as [|f IH]; intros rem t b l n r HB H; [discriminate|]. cbn [aread_codes_eq] in H. destruct (rem =? t).
  - injection H as <- _ <-. exists []. auto.
  - astep H (atake_rc tbl) HB k b1 R1. apply abind_ok in H as (l' & m & b2 & E2 & H). injection H as <- _ <-. apply IH in E2 as (c' & -> & ->); [|assumption].
    subst c. exists (spec_rc k :: map spec_rc l'). auto.
Qed.
Lemma atake_codes_ge tbl : forall f rem t, atakes (fun l c => c = map spec_rc l) (aread_codes_ge f tbl rem t).
Proof.
  induction f as [|f IH]; intros rem t b l n r HB H; [discriminate|]. cbn [aread_codes_ge] in H. destruct (rem <=? t).
  - injection H as <- _ <-. exists []. auto.
  - astep H (atake_rc tbl) HB k b1 R1. apply abind_ok in H as (l' & m & b2 & E2 & H). injection H as <- _ <-. apply IH in E2 as (c' & -> & ->); [|assumption].
    subst c. exists (spec_rc k :: map spec_rc l'). auto.
Qed.
Lemma atake_suback rem : atakes (fun p b => lax_body FromStream (PSubAck p) b) (aread_suback rem).
Proof.
  intros b a n r HB H. unfold aread_suback in H. astep H atake_u16 HB i b1 R1. astep H (atake_props suback_cfg false) HB p b2 R2.
  apply abind_ok in H as (l & k & b3 & E & H). injection H as <- _ <-. apply atake_codes_eq in E as (c' & -> & ->); [|assumption].
  eexists. split; cycle 1; [exists c0; split; [exact R2|reflexivity]|]. subst. cbn [sa_id sa_codes]. now rewrite <- !app_assoc.
Qed.
Lemma atake_unsuback rem : atakes (fun p b => lax_body FromStream (PUnsubAck p) b) (aread_unsuback rem).
Proof.
  intros b a n r HB H. unfold aread_unsuback in H. astep H atake_u16 HB i b1 R1. astep H (atake_props unsuback_cfg false) HB p b2 R2.
  apply abind_ok in H as (l & k & b3 & E & H). injection H as <- _ <-. apply atake_codes_ge in E as (c' & -> & ->); [|assumption].
  eexists. split; cycle 1; [exists c0; split; [exact R2|reflexivity]|]. subst. cbn [sa_id sa_codes]. now rewrite <- !app_assoc.
Qed.
Lemma atake_disconnect rem : atakes (fun p b => lax_body FromStream (PDisconnect p) b) (aread_disconnect rem).
Proof.
  intros b a n r HB H. unfold aread_disconnect in H. destruct (rem =? 0).
  - injection H as <- _ <-. exists []. split; [reflexivity|]. left. auto using no_props_empty.
  - astep H (atake_rc disconnect_codes) HB k b1 R1. astep H (atake_props disconnect_cfg false) HB p b2 R2. injection H as <- _ <-. subst c.
    exists ([spec_rc k] ++ c0). split; [reflexivity|]. right. exists c0. auto.
Qed.
Lemma atake_auth : atakes (fun p b => lax_body FromStream (PAuth p) b) aread_auth.
Proof.
  intros b a n r HB H. unfold aread_auth in H.
  astep H (atake_rc auth_codes) HB k b1 R1. astep H (atake_props auth_cfg false) HB p b2 R2. injection H as <- _ <-. subst c.
  exists ([spec_rc k] ++ c0). split; [reflexivity|]. exists c0. auto.
Qed.
Lemma atake_body t fl rem : fl < 16 -> atakes (fun p c => lax_body FromStream p c /\ spec_first p = first_of t fl) (aread_body (FH t fl rem)).
Proof.
  intros HF b p n r HB H.
  destruct t; cbn [aread_body fh_type fh_flags fh_rem] in H; try (apply amap_ok in H as (a & H & ->));
    try (injection H as <- _ <-; exists []; repeat split; fail);
    first [ apply atake_connect in H | apply atake_connack in H | apply (atake_publish fl rem HF) in H | apply atake_puback in H | apply atake_pubrec in H | apply atake_pubrel in H
          | apply atake_pubcomp in H | apply atake_subscribe in H | apply atake_suback in H | apply atake_unsubscribe in H | apply atake_unsuback in H
          | apply atake_disconnect in H | apply atake_auth in H ]; try assumption; destruct H as (c & -> & L); exists c; (split; [reflexivity|]); try (split; [exact L|reflexivity]).
Qed.
Lemma stream_says s p n r : all_bytes s -> aread_packet s = AOk p n r ->
  exists enc body, s = spec_first p :: enc ++ body ++ r /\ is_varint enc /\ len body = n /\ lax_body FromStream p body /\
    (In (type_of p) [TPublish; TPubComp; TSubAck] -> groups_value enc = len body).
Proof.
  intros Hs H. unfold aread_packet in H. apply abind_ok in H as (h & m & s1 & EH & HBd).
  unfold aread_fixed_header in EH. destruct s as [|first s]; [discriminate|]. cbn [aread_u8 abind] in EH.
  inversion Hs as [|? ? Hf Hr]; subst. destruct (from_first_byte first) as [[t fl]|e|c] eqn:EF; try discriminate.
  destruct (first_byte_of first t fl Hf EF) as [-> FL].
  apply abind_ok in EH as (rem & l & s2 & EV & EH). injection EH as <- _ <-.
  destruct (atake_varint _ _ _ _ Hr EV) as (enc & -> & V & EG). apply all_bytes_app in Hr as [_ Hr].
  destruct (atake_body _ _ _ FL _ _ _ _ Hr HBd) as (c & -> & L & EF').
  apply count_body in HBd as [HL HE]. rewrite len_app in HL. exists enc, c. split; [now rewrite EF'|]. split; [assumption|]. split; [lia|].
  split; [assumption|]. intros HT. specialize (HE HT). cbn [fh_rem] in HE. lia.
Qed.
