(* What the decoders return is what the bytes say *)
From Verif Require Import Base VarInt Prims Props Codes Packets SpecCodec SpecLenient BaseFacts VarIntFacts PrimFacts PropsFacts PacketFacts GoodFacts SyncGood FrameFacts SectionFacts CountFacts.

Lemma bind_ok {A B} (m : res A) (k : A -> res B) b : bind m k = Ok b -> exists a, m = Ok a /\ k a = Ok b.
Proof. destruct m; cbn; intros H; try discriminate. eauto. Qed.

Definition takes {A} (R : A -> bytes -> Prop) (f : bytes -> res (A * bytes)) : Prop :=
  forall b a r, all_bytes b -> f b = Ok (a, r) -> exists c, b = c ++ r /\ R a c.
Definition atakes {A} (R : A -> bytes -> Prop) (f : bytes -> ares A) : Prop :=
  forall b a n r, all_bytes b -> f b = AOk a n r -> exists c, b = c ++ r /\ R a c.

Lemma u16_split x y : x < 256 -> y < 256 -> [x; y] = spec_u16 (x * 256 + y).
Proof. intros. unfold spec_u16. f_equal; [|f_equal]; lia. Qed.
Lemma u32_split x y z w : x < 256 -> y < 256 -> z < 256 -> w < 256 -> [x; y; z; w] = spec_u32 (((x * 256 + y) * 256 + z) * 256 + w).
Proof. intros. unfold spec_u32. f_equal; [|f_equal; [|f_equal; [|f_equal]]]; lia. Qed.

Ltac bytes_inv := repeat match goal with [ H : all_bytes (_ :: _) |- _ ] => inversion H; clear H; subst | [ H : Forall is_byte (_ :: _) |- _ ] => inversion H; clear H; subst end.

Lemma take_get8 : takes (fun n c => c = [n] /\ n < 256) get_u8.
Proof. intros [|x b] a r HB H; [discriminate|]. injection H as <- <-. bytes_inv. exists [x]. auto. Qed.
Lemma take_get16 : takes (fun n c => c = spec_u16 n) get_u16.
Proof. intros [|x [|y b]] a r HB H; try discriminate. injection H as <- <-. bytes_inv. exists [x; y]. split; [reflexivity|]. now apply u16_split. Qed.
Lemma take_get32 : takes (fun n c => c = spec_u32 n) get_u32.
Proof. intros [|x [|y [|z [|w b]]]] a r HB H; try discriminate. injection H as <- <-. bytes_inv. exists [x; y; z; w]. split; [reflexivity|]. now apply u32_split. Qed.
Lemma take_u8 : takes (fun n c => c = [n] /\ n < 256) read_u8.
Proof. intros b a r HB H. unfold read_u8 in H. destruct (len b <? 1); [discriminate|]. now apply take_get8. Qed.
Lemma take_u16 : takes (fun n c => c = spec_u16 n) read_u16.
Proof. intros b a r HB H. unfold read_u16 in H. destruct (len b <? 2); [discriminate|]. now apply take_get16. Qed.
Lemma take_u32 : takes (fun n c => c = spec_u32 n) read_u32.
Proof. intros b a r HB H. unfold read_u32 in H. destruct (len b <? 4); [discriminate|]. now apply take_get32. Qed.
Lemma atake_u8 : atakes (fun n c => c = [n] /\ n < 256) aread_u8.
Proof. intros [|x b] a n r HB H; [discriminate|]. injection H as <- _ <-. bytes_inv. exists [x]. auto. Qed.
Lemma atake_u16 : atakes (fun n c => c = spec_u16 n) aread_u16.
Proof. intros [|x [|y b]] a n r HB H; try discriminate. injection H as <- _ <-. bytes_inv. exists [x; y]. split; [reflexivity|]. now apply u16_split. Qed.
Lemma atake_u32 : atakes (fun n c => c = spec_u32 n) aread_u32.
Proof. intros [|x [|y [|z [|w b]]]] a n r HB H; try discriminate. injection H as <- _ <-. bytes_inv. exists [x; y; z; w]. split; [reflexivity|]. now apply u32_split. Qed.

(* inversion of one step *)
Ltac rest_bytes HB E := let HB' := fresh "HB" in pose proof HB as HB'; rewrite E in HB'; apply all_bytes_app in HB' as [_ HB'].
Ltac bstep H L HB x r R :=
  let E := fresh "E" in let c := fresh "c" in let EB := fresh "EB" in
  apply bind_ok in H as ([x r] & E & H); cbv beta iota zeta in H;
  destruct (L _ _ _ HB E) as (c & EB & R); clear E;
  match type of EB with ?b = _ ++ _ => subst b end; apply all_bytes_app in HB as [_ HB].

Lemma take_bin : takes (fun s c => c = spec_data s) read_bin.
Proof.
  intros b a r HB H. unfold read_bin in H. destruct (len b <? 2); [discriminate|].
  bstep H take_get16 HB n b' R. destruct (len b' <? n) eqn:EL; [discriminate|]. injection H as <- <-. subst c.
  exists (spec_u16 n ++ take n b'). rewrite <- app_assoc, take_drop. split; [reflexivity|]. unfold spec_data. rewrite len_take by lia. reflexivity.
Qed.
Lemma take_str : takes (fun s c => c = spec_data s) read_str.
Proof.
  intros b a r HB H. unfold read_str in H. apply bind_ok in H as ([s r'] & E & H). cbv beta iota zeta in H.
  destruct (utf8_valid s); [|discriminate]. injection H as <- <-. now apply take_bin.
Qed.
Lemma atake_exact n : atakes (fun d c => c = d /\ len d = n) (aread_exact n).
Proof.
  intros b a m r HB H. unfold aread_exact in H. destruct (len b <? n) eqn:E; [discriminate|]. injection H as <- _ <-.
  exists (take n b). rewrite take_drop. repeat split. rewrite len_take by lia. reflexivity.
Qed.
Ltac astep H L HB x r R :=
  let n := fresh "n" in let E := fresh "E" in let c := fresh "c" in let EB := fresh "EB" in
  apply abind_ok in H as (x & n & r & E & H); cbv beta iota zeta in H;
  destruct (L _ _ _ _ HB E) as (c & EB & R); clear E;
  match type of EB with ?b = _ ++ _ => subst b end; apply all_bytes_app in HB as [_ HB].
Lemma atake_bin : atakes (fun s c => c = spec_data s) aread_bin.
Proof.
  intros b a n r HB H. unfold aread_bin in H.
  astep H atake_u16 HB k b' R. subst c. apply abind_ok in H as (d & m & r' & E & H). injection H as <- _ <-.
  destruct (atake_exact _ _ _ _ _ HB E) as (c & EB & -> & EL). subst b'. exists (spec_u16 k ++ d).
  rewrite <- app_assoc. split; [reflexivity|]. unfold spec_data. now rewrite EL.
Qed.
Lemma atake_str : atakes (fun s c => c = spec_data s) aread_str.
Proof.
  intros b a n r HB H. unfold aread_str in H. apply abind_ok in H as (s & m & r' & E & H).
  destruct (utf8_valid s); [|discriminate]. injection H as <- <- <-. now apply atake_bin in E.
Qed.
Lemma take_one {A} (g : N -> res A) (P : A -> N -> Prop) : (forall v a, v < 256 -> g v = Ok a -> P a v) ->
  takes (fun a c => exists v, c = [v] /\ v < 256 /\ P a v)
    (fun b => if len b <? 1 then Err (InsufficientData 0 1) else let* (v, r) := get_u8 b in let* q := g v in Ok (q, r)).
Proof.
  intros HG b a r HB H. destruct (len b <? 1); [discriminate|]. bstep H take_get8 HB v b' R. destruct R as [-> Hv].
  apply bind_ok in H as (q & E & H). injection H as <- <-. exists [v]. split; [reflexivity|]. exists v. auto.
Qed.
Lemma atake_one {A} (g : N -> res A) (P : A -> N -> Prop) : (forall v a, v < 256 -> g v = Ok a -> P a v) ->
  atakes (fun a c => exists v, c = [v] /\ v < 256 /\ P a v)
    (fun s => aw* (v, n, r) := aread_u8 s in match g v with Ok q => AOk q 1 r | Err e => AErr e | Crash c => ACrash c end).
Proof.
  intros HG b a n r HB H. astep H atake_u8 HB v b' R. destruct R as [-> Hv].
  destruct (g v) as [q|e|k] eqn:E; try discriminate. injection H as <- <- <-. exists [v]. split; [reflexivity|]. exists v. auto.
Qed.
Lemma qos_of v q : qos_from_u8 v = Ok q -> v = spec_qos q.
Proof. unfold qos_from_u8. destruct (v =? 0) eqn:E0; [|destruct (v =? 1) eqn:E1; [|destruct (v =? 2) eqn:E2]]; intros H; try discriminate; injection H as <-; cbn; lia. Qed.
Lemma take_qos : takes (fun q c => c = [spec_qos q]) read_qos.
Proof.
  intros b a r HB H. destruct (take_one qos_from_u8 (fun q v => v = spec_qos q) (fun v a _ => qos_of v a) b a r HB H) as (c & EB & v & -> & _ & ->). eauto.
Qed.
Lemma atake_qos : atakes (fun q c => c = [spec_qos q]) aread_qos.
Proof.
  intros b a n r HB H. destruct (atake_one qos_from_u8 (fun q v => v = spec_qos q) (fun v a _ => qos_of v a) b a n r HB H) as (c & EB & v & -> & _ & ->). eauto.
Qed.
Lemma take_bool : takes (fun q c => c = [spec_bit q]) read_bool.
Proof.
  intros b a r HB H. unfold read_bool in H. destruct (len b <? 1); [discriminate|]. bstep H take_get8 HB v b' R. destruct R as [-> Hv].
  destruct (v =? 0) eqn:E0; [|destruct (v =? 1) eqn:E1; [|discriminate]]; injection H as <- <-; exists [v]; (split; [reflexivity|]); cbn; f_equal; lia.
Qed.
Lemma atake_bool : atakes (fun q c => c = [spec_bit q]) aread_bool.
Proof.
  intros b a n r HB H. unfold aread_bool in H. astep H atake_u8 HB v b' R. destruct R as [-> Hv].
  destruct (v =? 0) eqn:E0; [|destruct (v =? 1) eqn:E1; [|discriminate]]; injection H as <- <- <-; exists [v]; (split; [reflexivity|]); cbn; f_equal; lia.
Qed.
Lemma ptype_of v t : v < 256 -> ptype_from_u8 v = Ok t -> v = spec_id t.
Proof.
  intros H E. pose (P := fun v => match ptype_from_u8 v with Ok t => v =? spec_id t | _ => true end).
  assert (S : P v = true) by (revert v H E; intros v H _; revert v H; apply (sweep P 256); vm_compute; reflexivity).
  unfold P in S. rewrite E in S. lia.
Qed.
Lemma take_ptype : takes (fun t c => c = [spec_id t]) read_ptype.
Proof.
  intros b a r HB H. destruct (take_one ptype_from_u8 (fun q v => v = spec_id q) ptype_of b a r HB H) as (c & EB & v & -> & _ & ->). eauto.
Qed.
Lemma atake_ptype : atakes (fun t c => c = [spec_id t]) aread_ptype.
Proof.
  intros b a n r HB H. destruct (atake_one ptype_from_u8 (fun q v => v = spec_id q) ptype_of b a n r HB H) as (c & EB & v & -> & _ & ->). eauto.
Qed.
Lemma rc_of tbl v c : v < 256 -> rc_from_u8 tbl v = Ok c -> v = spec_rc c.
Proof. intros _ E. destruct (rc_from_u8_cases tbl v) as [(c' & E' & _ & S)|[E' _]]; rewrite E in E'; [|discriminate]. injection E' as ->. now rewrite S. Qed.
Lemma take_rc tbl : takes (fun t c => c = [spec_rc t]) (read_rc tbl).
Proof.
  intros b a r HB H. destruct (take_one (rc_from_u8 tbl) (fun q v => v = spec_rc q) (rc_of tbl) b a r HB H) as (c & EB & v & -> & _ & ->). eauto.
Qed.
Lemma atake_rc tbl : atakes (fun t c => c = [spec_rc t]) (aread_rc tbl).
Proof.
  intros b a n r HB H. destruct (atake_one (rc_from_u8 tbl) (fun q v => v = spec_rc q) (rc_of tbl) b a n r HB H) as (c & EB & v & -> & _ & ->). eauto.
Qed.
Lemma take_varint b v k r : all_bytes b -> read_varint b = Ok (v, k, r) -> exists c, b = c ++ r /\ int_enc v c.
Proof.
  intros HB H. unfold read_varint in H. pose proof (read_varint_loop_classify b HB) as C.
  destruct (read_varint_loop 4 0 0 0 b); try discriminate. injection H as <- <- <-. destruct C as (e & V & -> & _ & -> & _).
  exists e. repeat split; auto.
Qed.
Lemma atake_varint : atakes int_enc aread_varint.
Proof.
  intros b v k r HB H. unfold aread_varint in H. pose proof (read_varint_loop_classify b HB) as C.
  destruct (read_varint_loop 4 0 0 0 b); try discriminate. injection H as <- <- <-. destruct C as (e & V & -> & _ & -> & _).
  exists e. repeat split; auto.
Qed.

Lemma take_val u k : takes (fun v c => lax_val v c /\ has_kind v k) (read_val u k).
Proof.
  intros b a r HB H. destruct k; cbn [read_val] in H.
  - destruct u; (bstep H take_get8 HB v b' R || bstep H take_u8 HB v b' R); injection H as <- <-; destruct R as [-> _]; exists [v]; repeat split.
  - destruct u; (bstep H take_get16 HB v b' R || bstep H take_u16 HB v b' R); injection H as <- <-; subst c; exists (spec_u16 v); repeat split.
  - destruct u; (bstep H take_get32 HB v b' R || bstep H take_u32 HB v b' R); injection H as <- <-; subst c; exists (spec_u32 v); repeat split.
  - apply bind_ok in H as ([[v n] r'] & E & H). injection H as <- <-. apply take_varint in E as (c & -> & V); [|assumption].
    exists c. split; [reflexivity|]. split; [assumption|exact I].
  - bstep H take_str HB v b' R. injection H as <- <-. subst c. exists (spec_data v). repeat split.
  - bstep H take_bin HB v b' R. injection H as <- <-. subst c. exists (spec_data v). repeat split.
  - bstep H take_qos HB v b' R. injection H as <- <-. subst c. exists [spec_qos v]. repeat split.
  - bstep H take_bool HB v b' R. injection H as <- <-. subst c. exists [spec_bit v]. repeat split.
  - bstep H take_str HB v b' R. bstep H take_str HB w b'' R2. injection H as <- <-. subst. exists (spec_data v ++ spec_data w).
    rewrite <- app_assoc. repeat split.
Qed.
Lemma atake_val k : atakes (fun v c => lax_val v c /\ has_kind v k) (aread_val k).
Proof.
  intros b a n0 r HB H. destruct k; cbn [aread_val] in H.
  - astep H atake_u8 HB v b' R; injection H as <- <- <-; destruct R as [-> _]; exists [v]; repeat split.
  - astep H atake_u16 HB v b' R; injection H as <- <- <-; subst c; exists (spec_u16 v); repeat split.
  - astep H atake_u32 HB v b' R; injection H as <- <- <-; subst c; exists (spec_u32 v); repeat split.
  - astep H atake_varint HB v b' R; injection H as <- <- <-. exists c. split; [reflexivity|]. split; [assumption|exact I].
  - astep H atake_str HB v b' R; injection H as <- <- <-; subst c; exists (spec_data v); repeat split.
  - astep H atake_bin HB v b' R; injection H as <- <- <-; subst c; exists (spec_data v); repeat split.
  - astep H atake_qos HB v b' R; injection H as <- <- <-; subst c; exists [spec_qos v]; repeat split.
  - astep H atake_bool HB v b' R; injection H as <- <- <-; subst c; exists [spec_bit v]; repeat split.
  - astep H atake_str HB v b' R. astep H atake_str HB w b'' R2. injection H as <- <- <-. subst. exists (spec_data v ++ spec_data w).
    rewrite <- app_assoc. repeat split.
Qed.

(* ---- sections ---- *)
Lemma lax_items_app a ab b bb : lax_items a ab -> lax_items b bb -> lax_items (a ++ b) (ab ++ bb).
Proof. induction 1; intros H2; [assumption|]. cbn [app]. rewrite <- app_assoc. constructor; auto. Qed.
Lemma lax_items_one t v vb : lax_val v vb -> lax_items [(t, v)] (spec_id t :: vb).
Proof. intros H. rewrite <- (app_nil_r vb). repeat constructor. assumption. Qed.

Lemma take_loop cfg : forall f pre p b a r, all_bytes b -> unused cfg p -> (forall t, prop_vals t p = vals t pre) ->
  (c_pfi_inverted cfg = true -> vals PayloadFormatIndicator pre = []) ->
  read_props_loop f cfg p b = Ok (a, r) ->
  exists its ib, b = ib ++ r /\ lax_items its ib /\ ib <> [] /\ r = [] /\ (forall t, prop_vals t a = vals t (pre ++ its)).
Proof.
  induction f as [|f IH]; intros pre p b a r HB HU HV HP H; [discriminate|]. cbn [read_props_loop] in H.
  bstep H take_ptype HB t b' R. subst c. destruct (declares cfg t) eqn:HD; cbn [negb] in H; [|discriminate].
  destruct (is_dup cfg t p) eqn:ED; [discriminate|].
  bstep H (take_val (c_unchecked cfg) (kind_of t)) HB v b2 R. destruct R as [LV HK].
  assert (NI : t = PayloadFormatIndicator -> c_pfi_inverted cfg = false).
  { intros ->. destruct (c_pfi_inverted cfg) eqn:EI; [|reflexivity]. exfalso. cbn in ED. rewrite EI in ED.
    pose proof (HV PayloadFormatIndicator) as E. rewrite (HP eq_refl) in E. cbn in E.
    destruct (payload_format_indicator p); cbn in *; discriminate. }
  destruct (store_facts cfg t v p HK HU) as [U' V'].
  { intros S. rewrite is_dup_single in ED by assumption. apply negb_false_iff, N.eqb_eq in ED. now apply len_zero. }
  assert (V2 : forall t', prop_vals t' (store cfg t v p) = vals t' (pre ++ [(t, v)])).
  { intros t'. rewrite V', vals_app, vals_one, HV. reflexivity. }
  destruct (len b2 =? 0) eqn:EL.
  - injection H as <- <-. apply N.eqb_eq, len_zero in EL. subst b2. exists [(t, v)], (spec_id t :: c).
    split; [cbn; now rewrite app_nil_r|]. split; [now apply lax_items_one|]. split; [discriminate|]. split; [reflexivity|assumption].
  - apply (IH (pre ++ [(t, v)])) in H as (its & ib & -> & LI & NE & ER & V3); try assumption.
    + exists ((t, v) :: its), (spec_id t :: c ++ ib). split; [cbn; now rewrite app_assoc|]. split; [now constructor|].
      split; [discriminate|]. split; [assumption|]. intros t'. rewrite V3, <- app_assoc. reflexivity.
    + intros C. rewrite vals_app, vals_one, (HP C). cbn [fst snd app].
      destruct (ptype_eqb t PayloadFormatIndicator) eqn:E; [|reflexivity]. apply ptype_eqb_eq in E. rewrite (NI E) in C. discriminate.
Qed.

Lemma take_props cfg : c_split cfg = true -> takes (lax_section FromBuffer false) (read_props cfg).
Proof.
  intros HS b a r HB H. unfold read_props in H. apply bind_ok in H as ([[n k] b'] & E & H).
  apply take_varint in E as (e & -> & V & EV); [|assumption]. apply all_bytes_app in HB as [_ HB].
  destruct (n =? 0) eqn:E0.
  - injection H as <- <-. exists e. split; [reflexivity|]. exists [], e, []. split; [constructor|].
    split; [split; [intros t _; symmetry; apply prop_vals_no_props|reflexivity]|]. split; [now rewrite app_nil_r|]. split; [assumption|].
    cbv beta iota. rewrite EV. change (len (@nil N)) with 0. lia.
  - destruct (len b' <? n) eqn:EL; [discriminate|]. rewrite HS in H. cbv zeta in H.
    apply bind_ok in H as ([p r'] & E & H). destruct (post_check cfg p); [|discriminate]. injection H as <- <-.
    apply (take_loop cfg _ []) in E as (its & ib & EB & LI & _ & -> & HV);
      [|now apply all_bytes_take|apply unused_no_props|intros; apply prop_vals_no_props|reflexivity].
    rewrite app_nil_r in EB. exists (e ++ ib). split; [rewrite <- app_assoc, <- EB, take_drop; reflexivity|].
    exists its, e, ib. split; [assumption|]. split; [split; [intros t _; symmetry; apply HV|symmetry; apply HV]|].
    split; [reflexivity|]. split; [assumption|]. rewrite <- EB, len_take by lia. assumption.
Qed.
Lemma take_props_ack cfg b a r : c_split cfg = false -> all_bytes b -> read_props cfg b = Ok (a, r) ->
  exists c, b = c ++ r /\ lax_section FromBuffer true a c.
Proof.
  intros HS HB H. unfold read_props in H. apply bind_ok in H as ([[n k] b'] & E & H).
  apply take_varint in E as (e & -> & V & EV); [|assumption]. apply all_bytes_app in HB as [_ HB].
  destruct (n =? 0) eqn:E0.
  - injection H as <- <-. exists e. split; [reflexivity|]. exists [], e, []. split; [constructor|].
    split; [split; [intros t _; symmetry; apply prop_vals_no_props|reflexivity]|]. split; [now rewrite app_nil_r|]. split; [assumption|].
    cbv beta iota. rewrite EV. change (len (@nil N)) with 0. split; [lia|reflexivity].
  - destruct (len b' <? n) eqn:EL; [discriminate|]. rewrite HS in H. cbv zeta in H.
    apply bind_ok in H as ([p r'] & E & H). destruct (post_check cfg p); [|discriminate]. injection H as <- <-.
    apply (take_loop cfg _ []) in E as (its & ib & EB & LI & _ & -> & HV);
      [|assumption|apply unused_no_props|intros; apply prop_vals_no_props|reflexivity].
    rewrite app_nil_r in EB. subst b'. exists (e ++ ib). split; [now rewrite app_nil_r|].
    exists its, e, ib. split; [assumption|]. split; [split; [intros t _; symmetry; apply HV|symmetry; apply HV]|].
    split; [reflexivity|]. split; [assumption|]. split; [lia|]. intros G. lia.
Qed.

Definition lax_subid (pre : list item) (p : props) : Prop :=
  exists l, vals SubscriptionIdentifier pre = map VVar l ++ prop_vals SubscriptionIdentifier p /\ (subscription_identifier p = None -> l = []).
Lemma atake_loop cfg : forall f pre p total n b a m r, all_bytes b -> unused cfg p ->
  (forall t, t <> SubscriptionIdentifier -> prop_vals t p = vals t pre) -> lax_subid pre p ->
  aread_props_loop f cfg p total n b = AOk a m r ->
  exists its ib, b = ib ++ r /\ lax_items its ib /\ m = n /\ m = total + len ib /\ holds FromStream (pre ++ its) a.
Proof.
  induction f as [|f IH]; intros pre p total n b a m r HB HU HV HI H; [discriminate|]. cbn [aread_props_loop] in H.
  apply abind_ok in H as (t & k1 & b1 & E1 & H). pose proof (count_ptype _ _ _ _ E1) as L1.
  destruct (atake_ptype _ _ _ _ HB E1) as (c & -> & ->). apply all_bytes_app in HB as [_ HB].
  destruct (declares cfg t) eqn:HD; cbn [negb] in H; [|discriminate]. destruct (adup t p) eqn:ED; [discriminate|].
  apply abind_ok in H as (v & k2 & b2 & E2 & H). pose proof (count_val _ _ _ _ _ E2) as L2.
  destruct (atake_val _ _ _ _ _ HB E2) as (c & -> & LV & HK). apply all_bytes_app in HB as [_ HB]. cbv zeta in H.
  rewrite len_app in L1, L2. rewrite (@len_cons N) in L1. cbn [len length] in L1.
  assert (EK : k1 + k2 = 1 + len c) by (change (len (@nil N)) with 0 in L1; lia). clear L1 L2.
  assert (V2 : forall t', t' <> SubscriptionIdentifier -> prop_vals t' (store cfg t v p) = vals t' (pre ++ [(t, v)])).
  { intros t' N'. rewrite store_vals; [|assumption|assumption|].
    - now rewrite vals_app, vals_one, HV.
    - intros -> NU. assert (A : adup t p = negb (len (prop_vals t p) =? 0)).
      { destruct t; try congruence; cbn [adup prop_vals get_prop]; match goal with |- is_some ?o = _ => destruct o; reflexivity end. }
      rewrite A in ED. apply negb_false_iff, N.eqb_eq in ED. now apply len_zero. }
  assert (U2 : unused cfg (store cfg t v p)).
  { unfold unused in *. destruct t, v; try (exfalso; exact HK); cbn [store]; destruct (c_sublist cfg) eqn:EC; cbn; assumption. }
  assert (S2 : lax_subid (pre ++ [(t, v)]) (store cfg t v p)).
  { destruct HI as (l & EL & HL). destruct (ptype_eq_dec t SubscriptionIdentifier) as [->|NS].
    - destruct v; try (exfalso; exact HK). unfold lax_subid. rewrite vals_app, vals_one. cbn [fst snd].
      unfold unused in HU. cbn [store]. destruct (c_sublist cfg).
      + exists l. cbn [prop_vals get_prop push_subid subscription_identifiers subscription_identifier] in *. rewrite EL, HU.
        cbn [option_map opt_list]. rewrite map_app, !app_nil_r. cbn [map]. rewrite <- app_assoc. split; [reflexivity|]. intros _. now apply HL.
      + exists (l ++ opt_list (subscription_identifier p)). cbn [prop_vals get_prop set_prop subscription_identifiers subscription_identifier] in *. rewrite EL, HU.
        rewrite map_app. replace (map VVar (opt_list (subscription_identifier p))) with (opt_list (option_map VVar (subscription_identifier p))) by (destruct (subscription_identifier p); reflexivity).
        split; [reflexivity|]. intros C. discriminate C.
    - exists l. assert (E : prop_vals SubscriptionIdentifier (store cfg t v p) = prop_vals SubscriptionIdentifier p).
      { destruct t, v; try (exfalso; exact HK); try congruence; reflexivity. }
      assert (E' : subscription_identifier (store cfg t v p) = subscription_identifier p).
      { destruct t, v; try (exfalso; exact HK); try congruence; reflexivity. }
      rewrite E, E', vals_app, vals_one, EL. cbn [fst]. assert (EN : ptype_eqb t SubscriptionIdentifier = false).
      { destruct (ptype_eqb t SubscriptionIdentifier) eqn:EE; [|reflexivity]. now apply ptype_eqb_eq in EE. }
      rewrite EN, app_nil_r. auto. }
  destruct (total + k1 + k2 =? n) eqn:EN.
  - injection H as <- <- <-. exists [(t, v)], (spec_id t :: c). split; [reflexivity|]. split; [now apply lax_items_one|].
    split; [lia|]. split; [rewrite (@len_cons N); lia|]. split; [|assumption]. intros t' N'. symmetry. now apply V2.
  - apply (IH (pre ++ [(t, v)])) in H as (its & ib & -> & LI & EM & ET & HH); try assumption.
    exists ((t, v) :: its), (spec_id t :: c ++ ib). split; [cbn; now rewrite app_assoc|]. split; [now constructor|].
    split; [assumption|]. split; [rewrite (@len_cons N), len_app; lia|]. now rewrite <- app_assoc in HH.
Qed.
Lemma atake_props cfg ack : atakes (lax_section FromStream ack) (aread_props cfg).
Proof.
  intros b a m r HB H. unfold aread_props in H. apply abind_ok in H as (n & k & b' & E & H).
  destruct (atake_varint _ _ _ _ HB E) as (e & -> & V & EV). apply all_bytes_app in HB as [_ HB].
  destruct (n =? 0) eqn:E0.
  - injection H as <- <- <-. exists e. split; [reflexivity|]. exists [], e, []. split; [constructor|].
    split; [split; [intros t _; symmetry; apply prop_vals_no_props|exists []; split; reflexivity]|]. split; [now rewrite app_nil_r|]. split; [assumption|].
    cbv beta iota. rewrite EV. change (len (@nil N)) with 0. lia.
  - apply abind_ok in H as (p & tt & r' & E1 & H). injection H as <- <- <-.
    apply (atake_loop cfg _ []) in E1 as (its & ib & -> & LI & EM & ET & HH);
      [|assumption|apply unused_no_props|intros; apply prop_vals_no_props|exists []; split; [reflexivity|reflexivity]].
    exists (e ++ ib). split; [now rewrite <- app_assoc|]. exists its, e, ib. cbn in HH.
    split; [assumption|]. split; [assumption|]. split; [reflexivity|]. split; [assumption|]. cbv beta iota. destruct ack; lia.
Qed.
