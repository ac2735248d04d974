(* The decoders accept the encodings of SpecLenient: sections *)
From Coq Require Import Permutation.
From Verif Require Import Base VarInt Prims Props Codes Packets SpecCodec SpecLenient SpecAccept BaseFacts VarIntFacts PrimFacts PropsFacts PacketFacts GoodFacts SyncGood FrameFacts SectionFacts CountFacts LenientFacts LenientMore.

Lemma read_enc v e r : int_enc v e -> read_varint (e ++ r) = Ok (v, len e, r).
Proof.
  intros [(i & l & -> & HF & Hl & HL) <-]. unfold read_varint. rewrite <- app_assoc. cbn [app].
  assert (L : len (i ++ [l]) = len i + 1) by (rewrite len_app; reflexivity). rewrite L in HL.
  rewrite (read_varint_loop_spec i 4 l 0 0 0 r); [|assumption|assumption|unfold len in *; lia].
  cbn. f_equal. f_equal. f_equal; lia.
Qed.
Lemma aread_enc v e r : int_enc v e -> aread_varint (e ++ r) = AOk v (len e) r.
Proof.
  intros H. pose proof (read_enc v e r H) as E. unfold read_varint in E. unfold aread_varint.
  destruct (read_varint_loop 4 0 0 0 (e ++ r)); try discriminate. now injection E as -> -> ->.
Qed.

Lemma read_lax_val u k v vb r : has_kind v k -> val_ok v -> lax_val v vb -> read_val u k (vb ++ r) = Ok (v, r).
Proof.
  intros HK HV HL. destruct v; cbn [lax_val] in HL; try (subst vb; now apply read_val_ok).
  destruct k; try (exfalso; exact HK). cbn [read_val]. rewrite (read_enc n) by assumption. reflexivity.
Qed.
Lemma aread_lax_val k v vb r : has_kind v k -> val_ok v -> lax_val v vb -> aread_val k (vb ++ r) = AOk v (len vb) r.
Proof.
  intros HK HV HL. destruct v; cbn [lax_val] in HL; try (subst vb; now apply aread_val_ok).
  destruct k; try (exfalso; exact HK). cbn [aread_val]. rewrite (aread_enc n) by assumption. reflexivity.
Qed.

Lemma lax_items_count its ib : lax_items its ib -> (length its <= length ib)%nat.
Proof. induction 1; cbn [length]; [lia|]. rewrite app_length. lia. Qed.
Lemma lax_items_nil its ib : lax_items its ib -> (its = [] <-> ib = []).
Proof. destruct 1; split; try discriminate; reflexivity. Qed.

Lemma read_lax_loop cfg its ib : lax_items its ib -> forall pre p0 f,
  unused cfg p0 -> (forall t, prop_vals t p0 = vals t pre) ->
  Forall (item_ok cfg) its -> nodups cfg (pre ++ its) ->
  (c_pfi_inverted cfg = true -> vals PayloadFormatIndicator its = []) -> its <> [] ->
  exists p', unused cfg p' /\ (forall t, prop_vals t p' = vals t (pre ++ its)) /\
    read_props_loop (length its + f) cfg p0 ib = Ok (p', []).
Proof.
  induction 1 as [|t v vb its ib LV LI IH]; intros pre p0 f HU HV HF HN HP HE; [congruence|].
  inversion HF as [|? ? Hi HF']; subst. pose proof Hi as (Hd & Hk & Hv). cbn [fst snd] in *.
  destruct (step_facts cfg pre p0 t v its HU HV Hi HN) as [U' V'].
  assert (Dup : is_dup cfg t p0 = false).
  { destruct (single_dec cfg t) as [S|S]; [|now apply is_dup_multi].
    rewrite is_dup_single; auto.
    - rewrite HV, (nodups_snoc cfg pre t v its HN S). reflexivity.
    - intros ->. destruct (c_pfi_inverted cfg) eqn:E; [|reflexivity].
      specialize (HP eq_refl). unfold vals in HP. cbn in HP. discriminate. }
  cbn [length Nat.add read_props_loop]. rewrite read_ptype_ok. cbn [bind]. rewrite Hd. cbn [negb]. rewrite Dup.
  rewrite (read_lax_val _ _ v vb) by assumption. cbn [bind].
  destruct its as [|i its].
  - assert (ib = []) as -> by (now apply (lax_items_nil [] ib)). change (len (@nil N) =? 0) with true. cbv iota.
    exists (store cfg t v p0). auto.
  - destruct (IH (pre ++ [(t, v)]) (store cfg t v p0) f U' V' HF') as (p' & U2 & V2 & R).
    + now rewrite <- app_assoc.
    + intros E. specialize (HP E). change ((t, v) :: i :: its) with ([(t, v)] ++ i :: its) in HP.
      rewrite vals_app in HP. now apply app_eq_nil in HP.
    + discriminate.
    + destruct (len ib =? 0) eqn:EL.
      { apply N.eqb_eq, len_zero in EL. apply (lax_items_nil _ _ LI) in EL. discriminate. }
      exists p'. split; [assumption|]. split; [|exact R]. intros t'. now rewrite V2, <- app_assoc.
Qed.

Lemma holds_arranges its p : holds FromBuffer its p -> arranges its p.
Proof. intros [H1 H2] t. destruct (ptype_eq_dec t SubscriptionIdentifier) as [->|N]; auto. Qed.

Lemma read_lax_section cfg p sec rest :
  props_ok cfg p -> lax_section FromBuffer (negb (c_split cfg)) p sec -> (c_split cfg = true \/ rest = [] \/ int_enc 0 sec) ->
  (c_pfi_inverted cfg = true -> payload_format_indicator p = None) -> post_check cfg p = true ->
  read_props cfg (sec ++ rest) = Ok (p, rest).
Proof.
  intros HP (its & e & ib & LI & HH & -> & V & EV) HS HI HC. apply holds_arranges in HH as HA.
  assert (EN : int_enc (groups_value e) e) by (split; [assumption|reflexivity]).
  unfold read_props. rewrite <- app_assoc, (read_enc _ _ _ EN). cbn [bind].
  destruct (groups_value e =? 0) eqn:E0.
  - apply N.eqb_eq in E0. assert (ib = []) as ->.
    { destruct (c_split cfg); cbn in EV; [apply len_zero; lia|now apply EV]. }
    assert (its = []) as -> by (now apply (lax_items_nil _ _ LI)).
    pose proof (arranges_nil _ _ HA eq_refl) as HE. now rewrite (empty_props_eq cfg p HP HE).
  - assert (GL : groups_value e <= len ib) by (destruct (c_split cfg); cbn in EV; [rewrite EV; lia|apply EV]).
    rewrite len_app. replace (len ib + len rest <? groups_value e) with false by lia.
    assert (HE : its <> []).
    { intros ->. assert (ib = []) as -> by (now apply (lax_items_nil _ _ LI)). change (len (@nil N)) with 0 in GL. lia. }
    destruct (read_lax_loop cfg its ib LI [] no_props (S (length ib) - length its)) as (p' & U' & V' & R).
    { apply unused_no_props. }
    { intros t. now rewrite prop_vals_no_props. }
    { eapply arranges_items_ok; eauto. }
    { eapply arranges_nodups; eauto. }
    { intros C. rewrite HA. cbn. now rewrite (HI C). }
    { assumption. }
    assert (p' = p) as -> by (eapply (props_ext cfg); [|exact U'|now apply props_ok_unused]; intros t; rewrite V'; apply HA).
    pose proof (lax_items_count _ _ LI). replace (length its + (S (length ib) - length its))%nat with (S (length ib)) in R by lia.
    destruct (c_split cfg) eqn:ES; cbn in EV.
    + rewrite take_app, drop_app by assumption. rewrite R. cbn [bind]. now rewrite HC.
    + assert (rest = []) as ->.
      { destruct HS as [C|[->|C]]; [discriminate|reflexivity|]. exfalso.
        pose proof (read_enc _ _ [] C) as E1. rewrite <- app_assoc in E1. rewrite (read_enc _ _ _ EN) in E1. injection E1 as E1 _ _. lia. }
      rewrite app_nil_r, R. cbn [bind]. now rewrite HC.
Qed.

Lemma astore_facts cfg pre t v p : has_kind v (kind_of t) -> unused cfg p ->
  (forall t', t' <> SubscriptionIdentifier -> prop_vals t' p = vals t' pre) -> lax_subid pre p ->
  (t <> SubscriptionIdentifier -> t <> UserProperty -> prop_vals t p = []) ->
  unused cfg (store cfg t v p) /\ (forall t', t' <> SubscriptionIdentifier -> prop_vals t' (store cfg t v p) = vals t' (pre ++ [(t, v)])) /\
  lax_subid (pre ++ [(t, v)]) (store cfg t v p).
Proof.
  intros HK HU HV HI HD. split; [|split].
  - unfold unused in *. destruct t, v; try (exfalso; exact HK); cbn [store]; destruct (c_sublist cfg) eqn:EC; cbn; assumption.
  - intros t' N'. rewrite store_vals; [|assumption|assumption|].
    + now rewrite vals_app, vals_one, HV.
    + intros -> NU. now apply HD.
  - destruct HI as (l & EL & HL). destruct (ptype_eq_dec t SubscriptionIdentifier) as [->|NS].
    + destruct v; try (exfalso; exact HK). unfold lax_subid. rewrite vals_app, vals_one. cbn [fst snd].
      unfold unused in HU. cbn [store]. destruct (c_sublist cfg).
      * exists l. cbn [prop_vals get_prop push_subid subscription_identifiers subscription_identifier] in *. rewrite EL, HU.
        cbn [option_map opt_list]. rewrite map_app, !app_nil_r. cbn [map]. rewrite <- app_assoc. split; [reflexivity|]. intros _. now apply HL.
      * exists (l ++ opt_list (subscription_identifier p)). cbn [prop_vals get_prop set_prop subscription_identifiers subscription_identifier] in *. rewrite EL, HU.
        rewrite map_app. replace (map VVar (opt_list (subscription_identifier p))) with (opt_list (option_map VVar (subscription_identifier p))) by (destruct (subscription_identifier p); reflexivity).
        split; [reflexivity|]. intros C. discriminate C.
    + exists l. assert (E : prop_vals SubscriptionIdentifier (store cfg t v p) = prop_vals SubscriptionIdentifier p).
      { destruct t, v; try (exfalso; exact HK); try congruence; reflexivity. }
      assert (E' : subscription_identifier (store cfg t v p) = subscription_identifier p).
      { destruct t, v; try (exfalso; exact HK); try congruence; reflexivity. }
      rewrite E, E', vals_app, vals_one, EL. cbn [fst]. assert (EN : ptype_eqb t SubscriptionIdentifier = false).
      { destruct (ptype_eqb t SubscriptionIdentifier) eqn:EE; [|reflexivity]. now apply ptype_eqb_eq in EE. }
      rewrite EN, app_nil_r. auto.
Qed.

Definition lax_nodups (its : list item) : Prop :=
  forall t, t <> SubscriptionIdentifier -> t <> UserProperty -> (length (vals t its) <= 1)%nat.

Lemma aread_lax_loop cfg its ib : lax_items its ib -> forall pre p0 f total r,
  unused cfg p0 -> (forall t, t <> SubscriptionIdentifier -> prop_vals t p0 = vals t pre) -> lax_subid pre p0 ->
  Forall (item_ok cfg) its -> lax_nodups (pre ++ its) -> its <> [] ->
  exists p', unused cfg p' /\ holds FromStream (pre ++ its) p' /\
    aread_props_loop (length its + f) cfg p0 total (total + len ib) (ib ++ r) = AOk p' (total + len ib) r.
Proof.
  induction 1 as [|t v vb its ib LV LI IH]; intros pre p0 f total r HU HV HI HF HN HE; [congruence|].
  inversion HF as [|? ? Hi HF']; subst. pose proof Hi as (Hd & Hk & Hv). cbn [fst snd] in *.
  assert (HD : t <> SubscriptionIdentifier -> t <> UserProperty -> prop_vals t p0 = []).
  { intros N1 N2. rewrite HV by assumption. specialize (HN t N1 N2). change ((t, v) :: its) with ([(t, v)] ++ its) in HN.
    rewrite !vals_app, vals_one, !app_length in HN. cbn [fst snd] in HN. rewrite ptype_eqb_refl in HN. cbn [length] in HN.
    destruct (vals t pre); [reflexivity|cbn in HN; lia]. }
  destruct (astore_facts cfg pre t v p0 Hk HU HV HI HD) as (U' & V' & S').
  assert (Dup : adup t p0 = false).
  { destruct (ptype_eq_dec t SubscriptionIdentifier) as [E|E]; [now apply adup_multi; left|].
    destruct (ptype_eq_dec t UserProperty) as [E'|E']; [now apply adup_multi; right|].
    assert (S : single cfg t) by (split; [assumption|congruence]). rewrite (adup_single cfg) by assumption. now rewrite (HD E E'). }
  cbn [length Nat.add aread_props_loop]. cbn [app]. rewrite aread_ptype_ok. cbn [abind]. rewrite Hd. cbn [negb]. rewrite Dup.
  rewrite <- app_assoc, (aread_lax_val _ v vb) by assumption. cbn [abind]. rewrite (@len_cons N), len_app. cbv zeta.
  destruct its as [|i its].
  - assert (ib = []) as -> by (now apply (lax_items_nil [] ib)). change (len (@nil N)) with 0.
    replace (total + 1 + len vb =? total + (1 + (len vb + 0))) with true by lia.
    exists (store cfg t v p0). split; [assumption|]. split; [|cbn [app]; f_equal; lia].
    split; [intros t' N'; symmetry; now apply V'|assumption].
  - assert (1 <= len ib). { pose proof (lax_items_count _ _ LI) as L. cbn [length] in L. unfold len. lia. }
    replace (total + 1 + len vb =? total + (1 + (len vb + len ib))) with false by lia.
    destruct (IH (pre ++ [(t, v)]) (store cfg t v p0) f (total + 1 + len vb) r U' V' S' HF') as (p' & U2 & H2 & R).
    + now rewrite <- app_assoc.
    + discriminate.
    + exists p'. split; [assumption|]. split; [now rewrite <- app_assoc in H2|].
      replace (total + (1 + (len vb + len ib))) with (total + 1 + len vb + len ib) by lia. exact R.
Qed.

Lemma holds_stream_eq cfg its p q : unused cfg p -> unused cfg q -> holds FromStream its p -> holds FromStream its q -> p = q.
Proof.
  intros Up Uq [P1 (l & P2 & P3)] [Q1 (m & Q2 & Q3)]. apply (props_ext cfg); [|assumption|assumption].
  intros t. destruct (ptype_eq_dec t SubscriptionIdentifier) as [->|N]; [|rewrite <- P1, <- Q1 by assumption; reflexivity].
  rewrite P2 in Q2. unfold unused in *. cbn [prop_vals get_prop] in *. destruct (c_sublist cfg).
  - rewrite (P3 Up), (Q3 Uq) in Q2. exact Q2.
  - rewrite Up, Uq in *. cbn [map app] in *. destruct (subscription_identifier p) as [x|], (subscription_identifier q) as [y|]; cbn [option_map opt_list] in *.
    + apply app_inj_tail in Q2 as [_ E]. now rewrite E.
    + rewrite (Q3 eq_refl) in Q2. cbn in Q2. destruct l; discriminate.
    + rewrite (P3 eq_refl) in Q2. cbn in Q2. destruct m; discriminate.
    + reflexivity.
Qed.

Lemma lax_items_var its ib n : lax_items its ib -> In (SubscriptionIdentifier, VVar n) its -> n <= MAXVAR.
Proof.
  induction 1 as [|t v vb its ib LV LI IH]; [easy|]. intros [E|Hin]; [|auto]. injection E as -> ->. destruct LV as [V <-].
  pose proof (groups_value_bound vb) as HG. destruct V as (i & l & _ & _ & _ & L4).
  assert (128 ^ len vb <= 128 ^ 4) by (apply N.pow_le_mono_r; lia). change (128 ^ 4) with 268435456 in *. unfold MAXVAR. lia.
Qed.
Lemma holds_items_ok cfg its ib p : props_ok cfg p -> lax_items its ib -> holds FromStream its p -> Forall (item_ok cfg) its.
Proof.
  intros HP LI [H1 (l & H2 & H3)]. apply Forall_forall. intros [t v] Hin.
  destruct (ptype_eq_dec t SubscriptionIdentifier) as [->|N].
  - assert (EV : exists n, v = VVar n).
    { apply (in_vals SubscriptionIdentifier v) in Hin. rewrite H2 in Hin. cbn [prop_vals get_prop] in Hin.
      apply in_app_or in Hin as [Hin|Hin]; [apply in_map_iff in Hin as (x & <- & _); eauto|].
      apply in_app_or in Hin as [Hin|Hin]; [apply in_map_iff in Hin as (x & <- & _); eauto|].
      destruct (subscription_identifier p); cbn in Hin; [destruct Hin as [<-|[]]; eauto|easy]. }
    destruct EV as (n & ->). split; [|split; [exact I|now apply (lax_items_var its ib)]]. cbn [fst].
    assert (NE : prop_vals SubscriptionIdentifier p <> []).
    { intros C. apply (in_vals SubscriptionIdentifier (VVar n)) in Hin. rewrite H2, C, app_nil_r in Hin.
      cbn [prop_vals] in C. apply app_eq_nil in C as [_ C]. cbn in C. destruct (subscription_identifier p); [discriminate|]. now rewrite H3 in Hin. }
    destruct (prop_vals SubscriptionIdentifier p) as [|w l'] eqn:E; [congruence|].
    apply (props_ok_vals cfg p SubscriptionIdentifier w HP). rewrite E. now left.
  - apply (in_vals t v) in Hin. rewrite H1 in Hin by assumption. exact (props_ok_vals cfg p t v HP Hin).
Qed.
Lemma holds_nodups cfg its p : props_ok cfg p -> holds FromStream its p -> lax_nodups its.
Proof.
  intros HP [H1 _] t N1 N2. rewrite H1 by assumption. apply (prop_vals_single cfg); [now apply props_ok_unused|]. split; [assumption|congruence].
Qed.
Lemma aread_lax_section cfg ak p sec rest : props_ok cfg p -> lax_section FromStream ak p sec -> aread_props cfg (sec ++ rest) = AOk p (len sec) rest.
Proof.
  intros HP (its & e & ib & LI & HH & -> & V & EV). assert (EL : groups_value e = len ib) by (destruct ak; exact EV). clear EV.
  assert (EN : int_enc (len ib) e) by (split; assumption).
  unfold aread_props. rewrite <- app_assoc, (aread_enc _ _ _ EN). cbn [abind]. rewrite len_app.
  destruct (len ib =? 0) eqn:E0.
  - apply N.eqb_eq, len_zero in E0. subst ib. assert (its = []) as -> by (now apply (lax_items_nil _ _ LI)).
    change (len (@nil N)) with 0. rewrite N.add_0_r. cbn [app]. f_equal. apply (holds_stream_eq cfg []); [apply unused_no_props|now apply props_ok_unused| |assumption].
    split; [intros t _; symmetry; apply prop_vals_no_props|exists []; split; reflexivity].
  - assert (HE : its <> []).
    { intros ->. assert (ib = []) as -> by (now apply (lax_items_nil _ _ LI)). discriminate E0. }
    destruct (aread_lax_loop cfg its ib LI [] no_props (S (length (ib ++ rest)) - length its) 0 rest) as (p' & U' & H' & R).
    { apply unused_no_props. }
    { intros t _. apply prop_vals_no_props. }
    { exists []. split; reflexivity. }
    { eapply holds_items_ok; eauto. }
    { eapply holds_nodups; eauto. }
    { assumption. }
    assert (p' = p) as -> by (apply (holds_stream_eq cfg its); auto; now apply props_ok_unused).
    pose proof (lax_items_count _ _ LI). rewrite app_length in *.
    replace (length its + (S (length ib + length rest) - length its))%nat with (S (length ib + length rest)) in R by lia.
    rewrite N.add_0_l in R. rewrite R. reflexivity.
Qed.
Lemma lax_section_pos rd ak p sec : lax_section rd ak p sec -> 1 <= len sec.
Proof. intros (its & e & ib & _ & _ & -> & (i & l & -> & _) & _). rewrite !len_app, (@len_cons N). lia. Qed.
