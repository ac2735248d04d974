(* C07: exactly which bytes make the buffer decoder panic *)
From Verif Require Import Base VarInt Prims Props Codes Packets SpecCodec SpecLenient SpecPanic BaseFacts VarIntFacts PrimFacts PropsFacts PacketFacts GoodFacts SyncGood FrameFacts SectionFacts CountFacts FrameMore LenientFacts LenientMore AcceptFacts AcceptMore AcceptAll.

Lemma bind_crash {A B} (m : res A) (k : A -> res B) c : bind m k = Crash c -> m = Crash c \/ exists a, m = Ok a /\ k a = Crash c.
Proof. destruct m; cbn; intros H; try discriminate; eauto. injection H as ->. now left. Qed.
Lemma sgood_no {A} k (P : A -> Prop) f b c : sgood false k P f -> all_bytes b -> f b <> Crash c.
Proof. intros G HB E. specialize (G b HB). rewrite E in G. destruct c; [discriminate G|exact G]. Qed.

Lemma val_crash k b c : all_bytes b -> read_val true k b = Crash c ->
  match k with K8 => len b < 1 | K16 => len b < 2 | K32 => len b < 4 | _ => False end.
Proof.
  intros HB H. destruct k; cbn [read_val] in H.
  - destruct b; [reflexivity|discriminate].
  - destruct b as [|? [|? ?]]; [reflexivity|reflexivity|discriminate].
  - destruct b as [|? [|? [|? [|? ?]]]]; try reflexivity; discriminate.
  - apply bind_crash in H as [H|([[? ?] ?] & _ & H)]; [|discriminate].
    refine (sgood_no _ _ read_varint' b c (sgood_varint false) HB _). unfold read_varint'. rewrite H. reflexivity.
  - apply bind_crash in H as [H|([? ?] & _ & H)]; [|discriminate]. exact (sgood_no _ _ _ b c (sgood_str false) HB H).
  - apply bind_crash in H as [H|([? ?] & _ & H)]; [|discriminate]. exact (sgood_no _ _ _ b c (sgood_bin false) HB H).
  - apply bind_crash in H as [H|([? ?] & _ & H)]; [|discriminate]. exact (sgood_no _ _ _ b c (sgood_qos false) HB H).
  - apply bind_crash in H as [H|([? ?] & _ & H)]; [|discriminate]. exact (sgood_no _ _ _ b c (sgood_bool false) HB H).
  - apply bind_crash in H as [H|([? r] & E & H)]; [exact (sgood_no _ _ _ b c (sgood_str false) HB H)|].
    destruct (take_str _ _ _ HB E) as (x & -> & _). apply all_bytes_app in HB as [_ HB].
    apply bind_crash in H as [H|([? ?] & _ & H)]; [|discriminate]. exact (sgood_no _ _ _ r c (sgood_str false) HB H).
Qed.
Lemma crash_size t b c : In t (c_decl connect_cfg) -> all_bytes b -> read_val true (kind_of t) b = Crash c -> exists n, fixed_size t = Some n /\ len b < n.
Proof.
  intros HI HB H. apply val_crash in H; [|assumption]. cbn in HI.
  repeat (destruct HI as [<-|HI]; [cbn [kind_of fixed_size] in *; try (now destruct H); try (eexists; split; [reflexivity|assumption])|]). destruct HI.
Qed.
Lemma size_crash t b n : fixed_size t = Some n -> len b < n -> read_val true (kind_of t) b = Crash Panicked /\ In t (c_decl connect_cfg) /\ single connect_cfg t /\ t <> PayloadFormatIndicator.
Proof.
  intros H L. destruct t; try discriminate H; injection H as <-; (split; [|split; [cbn; tauto|split; [split; discriminate|discriminate]]]);
    cbn [kind_of read_val]; destruct b as [|? [|? [|? [|? ?]]]]; try reflexivity; exfalso; rewrite !(@len_cons N) in L; lia.
Qed.
Lemma declares_in t : declares connect_cfg t = true <-> In t (c_decl connect_cfg).
Proof. unfold declares. split; [intros H; apply existsb_exists in H as (x & HI & E); apply ptype_eqb_eq in E; now subst|intros H; apply existsb_exists; exists t; split; [assumption|now apply ptype_eqb_eq]]. Qed.

Lemma loop_crash : forall f pre p b c, all_bytes b -> (length b < f)%nat -> props_ok connect_cfg p -> (forall t, prop_vals t p = vals t pre) ->
  read_props_loop f connect_cfg p b = Crash c ->
  exists its ib a t cut n, b = ib ++ spec_id t :: cut /\ lax_items its ib /\ props_ok connect_cfg a /\ (forall t, prop_vals t a = vals t (pre ++ its)) /\
    get_prop t a = None /\ fixed_size t = Some n /\ len cut < n.
Proof.
  induction f as [|f IH]; intros pre p b k HB HL HP HV H; [lia|]. cbn [read_props_loop] in H.
  apply bind_crash in H as [H|([t r] & E & H)]; [now apply (sgood_no _ _ _ b k (sgood_ptype false)) in H|].
  destruct (take_ptype _ _ _ HB E) as (c & -> & ->). clear E. apply all_bytes_app in HB as [_ HB].
  destruct (declares connect_cfg t) eqn:HD; cbn [negb] in H; [|discriminate]. destruct (is_dup connect_cfg t p) eqn:ED; [discriminate|].
  apply declares_in in HD as HI. apply bind_crash in H as [H|([v r'] & E & H)].
  - destruct (crash_size t r k HI HB H) as (n & HS & HN). exists [], [], p, t, r, n. rewrite app_nil_r.
    destruct (size_crash t r n HS HN) as (_ & _ & SG & NP).
    split; [reflexivity|]. split; [constructor|]. split; [assumption|]. split; [assumption|]. split; [|now split].
    destruct t; try discriminate HS; cbn [is_dup] in ED; cbn [get_prop is_some] in *; match goal with |- option_map _ ?x = None => destruct x; [discriminate ED|reflexivity] end.
  - cbv zeta in H. pose proof (sgood_val true (kind_of t) r HB) as G. change (c_unchecked connect_cfg) with true in E. rewrite E in G. destruct G as (_ & Hv).
    destruct (take_val true (kind_of t) _ _ _ HB E) as (c & -> & LV & HK). apply all_bytes_app in HB as [_ HB].
    pose proof (props_ok_unused _ _ HP) as HU. destruct (store_facts connect_cfg t v p HK HU) as [U' V'].
    { intros S. rewrite is_dup_single in ED by (assumption || reflexivity). apply negb_false_iff, N.eqb_eq in ED. now apply len_zero. }
    destruct (len r' =? 0) eqn:EL; [discriminate H|].
    rewrite !app_length in HL. cbn [length] in HL.
    apply (IH (pre ++ [(t, v)])) in H as (its & ib & a & t' & cut & n & -> & LI & HA & VA & R).
    + exists ((t, v) :: its), (spec_id t :: c ++ ib), a, t', cut, n. split; [cbn; now rewrite app_assoc|]. split; [now constructor|].
      split; [assumption|]. split; [|assumption]. intros x. rewrite VA, <- app_assoc. reflexivity.
    + assumption.
    + lia.
    + now apply store_ok.
    + intros x. rewrite V', vals_app, vals_one, HV. reflexivity.
Qed.

Lemma loop_reach its ib : lax_items its ib -> forall pre p0 f tail,
  unused connect_cfg p0 -> (forall t, prop_vals t p0 = vals t pre) -> Forall (item_ok connect_cfg) its -> nodups connect_cfg (pre ++ its) -> tail <> [] ->
  exists p', unused connect_cfg p' /\ (forall t, prop_vals t p' = vals t (pre ++ its)) /\
    read_props_loop (length its + f) connect_cfg p0 (ib ++ tail) = read_props_loop f connect_cfg p' tail.
Proof.
  induction 1 as [|t v vb its ib LV LI IH]; intros pre p0 f tail HU HV HF HN HT.
  { exists p0. rewrite app_nil_r. auto. }
  inversion HF as [|? ? Hi HF']; subst. pose proof Hi as (Hd & Hk & Hv). cbn [fst snd] in *.
  destruct (step_facts connect_cfg pre p0 t v its HU HV Hi HN) as [U' V'].
  assert (Dup : is_dup connect_cfg t p0 = false).
  { destruct (single_dec connect_cfg t) as [S|S]; [|now apply is_dup_multi].
    rewrite is_dup_single; auto. rewrite HV, (nodups_snoc connect_cfg pre t v its HN S). reflexivity. }
  cbn [length Nat.add read_props_loop app]. rewrite read_ptype_ok. cbn [bind]. rewrite Hd. cbn [negb]. rewrite Dup.
  rewrite <- app_assoc, (read_lax_val _ _ v vb) by assumption. cbn [bind].
  replace (len (ib ++ tail) =? 0) with false.
  2: { symmetry. apply N.eqb_neq. rewrite len_app. destruct tail; [congruence|]. rewrite (@len_cons N). lia. }
  destruct (IH (pre ++ [(t, v)]) (store connect_cfg t v p0) f tail U' V' HF') as (p' & U2 & V2 & R); [now rewrite <- app_assoc|assumption|].
  exists p'. split; [assumption|]. split; [|exact R]. intros t'. now rewrite V2, <- app_assoc.
Qed.

Lemma section_crash b c : all_bytes b -> (read_props connect_cfg b = Crash c <-> c = Panicked /\ cut_properties b).
Proof.
  intros HB. split.
  - intros H. unfold read_props in H. apply bind_crash in H as [H|([[n k] r] & E & H)].
    { exfalso. refine (sgood_no _ _ read_varint' b c (sgood_varint false) HB _). unfold read_varint'. now rewrite H. }
    pose proof HB as HB0. apply take_varint in E as (e & -> & V & EV); [|assumption]. apply all_bytes_app in HB as [_ HB].
    destruct (n =? 0) eqn:E0; [discriminate|]. destruct (len r <? n) eqn:EL; [discriminate|]. cbv zeta in H. change (c_split connect_cfg) with true in H. cbv iota in H.
    apply bind_crash in H as [H|([p r'] & _ & H)]; [|destruct (post_check connect_cfg p); discriminate].
    assert (HT : all_bytes (take n r)) by now apply all_bytes_take.
    split. { pose proof (loop_good connect_cfg (S (length (take n r))) no_props _ HT ltac:(lia) ltac:(apply no_props_ok)) as G. rewrite H in G. destruct c; [reflexivity|contradiction]. }
    apply (loop_crash _ []) in H as (its & ib & a & t & cut & m & ED & LI & HA & VA & HG & HS & HC);
      [|assumption|lia|apply no_props_ok|intros; apply prop_vals_no_props].
    exists e, its, ib, a, t, cut, m, (drop n r). rewrite <- ED, take_drop. split; [reflexivity|]. split; [split; [assumption|rewrite len_take by lia; assumption]|].
    split; [assumption|]. split; [split; [intros x _; symmetry; apply VA|symmetry; apply VA]|]. auto.
  - intros (-> & enc & its & ib & p & t & cut & n & more & -> & HE & LI & HH & HP & HG & HS & HC).
    apply holds_arranges in HH as HA. unfold read_props. rewrite (read_enc _ _ _ HE). cbn [bind].
    assert (L : 1 <= len (ib ++ spec_id t :: cut)) by (rewrite len_app, (@len_cons N); lia).
    replace (len (ib ++ spec_id t :: cut) =? 0) with false by lia. rewrite (len_app _ more).
    replace (len (ib ++ spec_id t :: cut) + len more <? len (ib ++ spec_id t :: cut)) with false by lia.
    cbv zeta. change (c_split connect_cfg) with true. cbv iota. rewrite take_app by reflexivity.
    destruct (loop_reach its ib LI [] no_props (S (length (ib ++ spec_id t :: cut)) - length its) (spec_id t :: cut)) as (p' & U' & V' & R).
    { apply unused_no_props. } { intros x. now rewrite prop_vals_no_props. } { eapply arranges_items_ok; eauto. } { eapply arranges_nodups; eauto. } { discriminate. }
    assert (p' = p) as -> by (eapply (props_ext connect_cfg); [|exact U'|now apply props_ok_unused]; intros x; rewrite V'; apply HA).
    pose proof (lax_items_count _ _ LI) as LC. rewrite app_length in *. cbn [length] in *.
    replace (length its + (S (length ib + S (length cut)) - length its))%nat with (S (length ib + S (length cut))) in R by lia.
    rewrite R. destruct (S (length ib + S (length cut)) - length its)%nat as [|f] eqn:EF; [lia|].
    destruct (size_crash t cut n HS HC) as (CR & HI & SG & NP).
    cbn [read_props_loop]. rewrite read_ptype_ok. cbn [bind]. rewrite (proj2 (declares_in t) HI). cbn [negb].
    assert (Dup : is_dup connect_cfg t p = false).
    { destruct t; try discriminate HS; cbn [is_dup]; now rewrite HG. }
    rewrite Dup. change (c_unchecked connect_cfg) with true. rewrite CR. reflexivity.
Qed.

Lemma eqb_eq : forall a b, bytes_eqb a b = true -> a = b.
Proof. induction a as [|x a IH]; intros [|y b] H; try discriminate; [reflexivity|]. cbn [bytes_eqb] in H. apply andb_true_iff in H as [H1 H2]. apply N.eqb_eq in H1. f_equal; auto. Qed.
Lemma name_eq b : bytes_eqb b mqtt_name = true -> b = [77; 81; 84; 84].
Proof. apply eqb_eq. Qed.
Lemma flags_ok f : f < 256 -> ((exists x, cflags_from_u8 f = Ok x) <-> f / 8 mod 4 <> 3).
Proof.
  intros H. unfold cflags_from_u8. assert (E : N.shiftr (N.land f 24) 3 = f / 8 mod 4).
  { change 24 with (N.shiftl (N.ones 2) 3). rewrite N.shiftr_land, N.shiftr_shiftl_l, N.sub_diag, N.shiftl_0_r by lia.
    rewrite N.land_ones, N.shiftr_div_pow2. reflexivity. }
  rewrite E. assert (B : f / 8 mod 4 < 4) by (apply N.mod_lt; lia). unfold qos_from_u8.
  destruct (f / 8 mod 4 =? 0) eqn:E0; [cbn; split; [intros _; lia|eauto]|].
  destruct (f / 8 mod 4 =? 1) eqn:E1; [cbn; split; [intros _; lia|eauto]|].
  destruct (f / 8 mod 4 =? 2) eqn:E2; [cbn; split; [intros _; lia|eauto]|]. cbn.
  split; [intros [x X]; discriminate|intros; lia].
Qed.
Lemma flags_crash f c : cflags_from_u8 f <> Crash c.
Proof. unfold cflags_from_u8, qos_from_u8. repeat (destruct (_ =? _); [discriminate|]). discriminate. Qed.

Definition connect_panics_on (b : bytes) : Prop :=
  exists flags tail, b = [0; 4; 77; 81; 84; 84; 5; flags] ++ tail /\ flags / 8 mod 4 <> 3 /\
    (len tail < 2 \/ exists k1 k2 b', tail = k1 :: k2 :: b' /\ cut_properties b').
Lemma connect_crash b c : all_bytes b -> (read_connect b = Crash c <-> c = Panicked /\ connect_panics_on b).
Proof.
  intros HB. split.
  - intros H. unfold read_connect in H.
    apply bind_crash in H as [H|([name b1] & E & H)]; [now apply (sgood_no _ _ _ b c (sgood_bin false)) in H|].
    destruct (take_bin _ _ _ HB E) as (x & -> & ->). clear E. apply all_bytes_app in HB as [_ HB].
    destruct (bytes_eqb name mqtt_name) eqn:EN; cbn [negb] in H; [|discriminate]. apply name_eq in EN as ->.
    destruct b1 as [|v b1]; [discriminate H|]. inversion HB as [|? ? _ HB1]; subst. clear HB.
    unfold read_protocol_version in H. replace (len (v :: b1) <? 1) with false in H by (rewrite (@len_cons N); lia). cbn [get_u8 bind] in H.
    destruct (v =? 3); [discriminate|]. destruct (v =? 4); [discriminate|]. destruct (v =? 5) eqn:E5; [|discriminate]. apply N.eqb_eq in E5 as ->. cbn [bind] in H.
    destruct b1 as [|f tail]; [discriminate H|]. inversion HB1 as [|? ? Hf HT]; subst. clear HB1.
    unfold read_cflags in H. replace (len (f :: tail) <? 1) with false in H by (rewrite (@len_cons N); lia). cbn [get_u8 bind] in H.
    destruct (cflags_from_u8 f) as [fl|e|k] eqn:EF; [|discriminate|now apply flags_crash in EF]. cbn [bind] in H.
    assert (HF : f / 8 mod 4 <> 3) by (apply flags_ok; [assumption|eauto]).
    assert (G : c = Panicked /\ (len tail < 2 \/ exists k1 k2 b', tail = k1 :: k2 :: b' /\ cut_properties b')).
    { apply bind_crash in H as [H|([ka b2] & E & H)].
      - destruct tail as [|k1 [|k2 b2]]; [injection H as <-; split; [reflexivity|left; reflexivity]|injection H as <-; split; [reflexivity|left; reflexivity]|discriminate].
      - destruct tail as [|k1 [|k2 b3]]; [discriminate|discriminate|]. injection E as _ <-.
        inversion HT as [|? ? _ HT1]; subst. inversion HT1 as [|? ? _ HT2]; subst. clear HT HT1.
        apply bind_crash in H as [H|([p b4] & E & H)].
        + apply section_crash in H as [-> H]; [|assumption]. split; [reflexivity|]. right. eauto.
        + exfalso. destruct (take_props connect_cfg eq_refl _ _ _ HT2 E) as (x & -> & _). apply all_bytes_app in HT2 as [_ HB].
          apply bind_crash in H as [H|([cid b5] & E2 & H)]; [now apply (sgood_no _ _ _ b4 c (sgood_str false)) in H|].
          destruct (take_str _ _ _ HB E2) as (y & -> & _). apply all_bytes_app in HB as [_ HB].
          assert (W : sgood false 0 (opt_ok will_ok) (fun b => if cf_will fl then let* (w, b) := read_will (cf_will_qos fl) (cf_will_retain fl) b in Ok (Some w, b) else Ok (None, b))).
          { destruct (cf_will fl); [|now apply sgood_ret]. sb 0%nat 0%nat ltac:(apply sgood_will). intros w Hw. now apply sgood_ret. }
          apply bind_crash in H as [H|([w b6] & E3 & H)]; [now apply (sgood_no _ _ _ b5 c W) in H|].
          specialize (W b5 HB). cbv beta in W. rewrite E3 in W. destruct W as ((z & -> & _) & _). apply all_bytes_app in HB as [_ HB].
          apply bind_crash in H as [H|([u b7] & E4 & H)]; [now apply (sgood_no _ _ _ b6 c (sgood_opt_str false _)) in H|].
          pose proof (sgood_opt_str false (cf_username fl) b6 HB) as G. rewrite E4 in G. destruct G as ((z' & -> & _) & _). apply all_bytes_app in HB as [_ HB].
          apply bind_crash in H as [H|([pw b8] & E5 & H)]; [now apply (sgood_no _ _ _ b7 c (sgood_opt_str false _)) in H|]. discriminate. }
    destruct G as [-> G]. split; [reflexivity|]. exists f, tail. split; [reflexivity|]. split; assumption.
  - intros (-> & f & tail & -> & HF & HT). unfold read_connect. cbn [app].
    assert (HB' : all_bytes (f :: tail)) by (apply (all_bytes_app [0; 4; 77; 81; 84; 84; 5]) in HB; apply HB).
    inversion HB' as [|? ? Hf HTb]; subst.
    change (read_bin (0 :: 4 :: 77 :: 81 :: 84 :: 84 :: 5 :: f :: tail)) with (read_bin (spec_data mqtt_name ++ 5 :: f :: tail)).
    rewrite read_bin_ok by (vm_compute; discriminate). cbn [bind]. change (bytes_eqb mqtt_name mqtt_name) with true. cbn [negb].
    unfold read_protocol_version. replace (len (5 :: f :: tail) <? 1) with false by (rewrite (@len_cons N); lia). cbn [get_u8 bind].
    change (5 =? 3) with false. change (5 =? 4) with false. change (5 =? 5) with true. cbv iota. cbn [bind].
    unfold read_cflags. replace (len (f :: tail) <? 1) with false by (rewrite (@len_cons N); lia). cbn [get_u8 bind].
    destruct (proj2 (flags_ok f Hf) HF) as [fl EF]. rewrite EF. cbn [bind].
    destruct HT as [HT|(k1 & k2 & b' & -> & HT)].
    + destruct tail as [|x [|y tail]]; [reflexivity|reflexivity|]. rewrite !(@len_cons N) in HT. lia.
    + cbn [get_u16 bind]. inversion HTb as [|? ? _ H1]; subst. inversion H1 as [|? ? _ H2]; subst.
      rewrite (proj2 (section_crash b' Panicked H2) (conj eq_refl HT)). reflexivity.
Qed.

Lemma decode_panics s c : all_bytes s -> (read_packet s = RCrash c <-> c = Panicked /\ panics s).
Proof.
  intros HB. split.
  - intros H. destruct (buf_cases s HB) as [s HT|first rs HL H1|first init rs HL HF HI|first init HL HF HI HN|first enc body HL HV HBd|first enc body rs HL HV HBd].
    1: { unfold read_packet, read_fixed_header in H. replace (len s <? 2) with true in H by lia. discriminate H. }
    all: pose proof (read_packet_det _ HB) as D; rewrite H in D; destruct D as (-> & (r0 & E0) & _).
    all: inversion HB as [|? ? Hf Hr]; subst; pose proof (legal_first_ok first Hf) as L; rewrite HL in L.
    { rewrite read_illegal in H by assumption. discriminate H. }
    all: destruct L as (t & fl & L).
    { rewrite (read_long first init rs t fl) in H by assumption. discriminate H. }
    { rewrite (read_short_header first init t fl) in H by assumption. discriminate H. }
    { rewrite (read_incomplete first enc body t fl) in H by assumption. discriminate H. }
    injection E0 as E0 _. subst first. change (from_first_byte 16) with (@Ok (pkt_type * N) (TConnect, 0)) in L. injection L as <- <-.
    rewrite (read_complete 16 enc body rs TConnect 0) in H by (assumption || reflexivity).
    apply all_bytes_app in Hr as [_ Hr]. apply all_bytes_app in Hr as [Hb _]. unfold body_result in H. cbn [read_body fh_type] in H.
    assert (C : read_connect body = Crash Panicked).
    { destruct (read_connect body) as [[q x]|e|k]; cbn [rmap] in H; try discriminate. now injection H as ->. }
    apply connect_crash in C as (_ & f & tail & -> & HF & HT); [|assumption]. split; [reflexivity|].
    exists enc, f, tail, rs. split; [reflexivity|]. split; [|auto]. split; [assumption|]. rewrite <- HBd, len_app. reflexivity.
  - intros (-> & enc & f & tail & rs & -> & [HV HG] & HF & HT).
    rewrite (read_complete 16 enc _ rs TConnect 0); [|reflexivity|assumption|rewrite HG, len_app; reflexivity].
    inversion HB as [|? ? _ Hr]; subst. apply all_bytes_app in Hr as [_ Hr]. destruct (proj1 (all_bytes_app ([0; 4; 77; 81; 84; 84; 5; f] ++ tail) rs) Hr) as [Hb _].
    unfold body_result. cbn [read_body fh_type]. rewrite (proj2 (connect_crash _ Panicked Hb)); [reflexivity|]. split; [reflexivity|]. exists f, tail. auto.
Qed.
