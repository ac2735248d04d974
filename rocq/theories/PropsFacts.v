(* Property sections: readers and writers against the MQTT 5 encoding of item lists *)
From Coq Require Import Permutation.
From Verif Require Import Base VarInt Prims Props Codes Packets SpecCodec BaseFacts Utf8Facts VarIntFacts PrimFacts.

Definition single (cfg : pcfg) (t : ptype) : Prop :=
  t <> UserProperty /\ (t = SubscriptionIdentifier -> c_sublist cfg = false).

Definition unused (cfg : pcfg) (p : props) : Prop :=
  if c_sublist cfg then subscription_identifier p = None else subscription_identifiers p = [].

Definition item_ok (cfg : pcfg) (i : item) : Prop :=
  declares cfg (fst i) = true /\ has_kind (snd i) (kind_of (fst i)) /\ val_ok (snd i).

Definition nodups (cfg : pcfg) (its : list item) : Prop :=
  forall t, single cfg t -> (length (vals t its) <= 1)%nat.

Lemma items_prop_vals cfg t p : unused cfg p -> items cfg t p = prop_vals t p.
Proof.
  unfold unused. intros H. destruct t; try reflexivity. cbn [items prop_vals get_prop].
  destruct (c_sublist cfg); rewrite H; cbn; [now rewrite app_nil_r|reflexivity].
Qed.

Lemma unused_no_props cfg : unused cfg no_props.
Proof. unfold unused. now destruct (c_sublist cfg). Qed.
Lemma prop_vals_no_props t : prop_vals t no_props = [].
Proof. now destruct t. Qed.

Lemma vals_app t a b : vals t (a ++ b) = vals t a ++ vals t b.
Proof. unfold vals. now rewrite filter_app, map_app. Qed.
Lemma vals_one t i : vals t [i] = if ptype_eqb (fst i) t then [snd i] else [].
Proof. unfold vals. cbn. destruct (ptype_eqb (fst i) t); reflexivity. Qed.

Lemma store_facts cfg t v p :
  has_kind v (kind_of t) -> unused cfg p -> (single cfg t -> prop_vals t p = []) ->
  unused cfg (store cfg t v p) /\
  forall t', prop_vals t' (store cfg t v p) = prop_vals t' p ++ (if ptype_eqb t t' then [v] else []).
Proof.
  intros HK HU HS.
  assert (D : t = UserProperty \/ t = SubscriptionIdentifier \/
              (t <> UserProperty /\ t <> SubscriptionIdentifier)) by (destruct t; tauto || (right; right; split; discriminate)).
  destruct D as [->|[->|[N1 N2]]].
  - destruct v; try (exfalso; exact HK). split; [exact HU|]. intros t'.
    destruct t'; cbn; rewrite ?app_nil_r; try reflexivity. now rewrite map_app.
  - destruct v; try (exfalso; exact HK). cbn [store]. unfold unused in *.
    destruct (c_sublist cfg) eqn:E.
    + split; [exact HU|]. intros t'.
      destruct t'; cbn; rewrite ?app_nil_r; try reflexivity.
      rewrite map_app, HU. cbn. now rewrite !app_nil_r.
    + assert (S0 : single cfg SubscriptionIdentifier) by (split; [discriminate|now rewrite E]).
      specialize (HS S0). cbn in HS. apply app_eq_nil in HS as [_ HS].
      split; [exact HU|]. intros t'.
      destruct t'; cbn; rewrite ?app_nil_r; try reflexivity.
      rewrite HU. cbn. destruct (subscription_identifier p); [discriminate|reflexivity].
  - assert (S0 : single cfg t) by (split; [assumption|congruence]). specialize (HS S0).
    replace (store cfg t v p) with (set_prop t v p) by (destruct t; try reflexivity; congruence).
    split.
    + unfold unused in *. destruct (c_sublist cfg); destruct t, v; try (exfalso; exact HK); try congruence; exact HU.
    + intros t'. destruct (ptype_eqb t t') eqn:E.
      * apply ptype_eqb_eq in E as <-. rewrite HS.
        destruct t, v; try (exfalso; exact HK); try congruence; reflexivity.
      * rewrite app_nil_r. destruct t, v; try (exfalso; exact HK); try congruence;
        destruct t'; try discriminate E; reflexivity.
Qed.

Lemma opt_list_inj {A} (a b : option A) : opt_list a = opt_list b -> a = b.
Proof. destruct a, b; cbn; congruence. Qed.
Lemma option_map_inj {A B} (f : A -> B) (a b : option A) :
  (forall x y, f x = f y -> x = y) -> option_map f a = option_map f b -> a = b.
Proof. intros Hf. destruct a, b; cbn; try congruence. intros H. injection H as H. f_equal. auto. Qed.
Lemma map_inj {A B} (f : A -> B) a : forall b,
  (forall x y, f x = f y -> x = y) -> map f a = map f b -> a = b.
Proof.
  induction a as [|x a IH]; destruct b as [|y b]; cbn; intros Hf H; try discriminate; [reflexivity|].
  injection H as H1 H2. f_equal; auto.
Qed.

Lemma props_ext cfg p q :
  (forall t, prop_vals t p = prop_vals t q) -> unused cfg p -> unused cfg q -> p = q.
Proof.
  intros H Hp Hq.
  assert (G : forall t, t <> UserProperty -> t <> SubscriptionIdentifier -> get_prop t p = get_prop t q).
  { intros t N1 N2. specialize (H t). apply opt_list_inj. destruct t; try congruence; exact H. }
  assert (GU : user_properties p = user_properties q).
  { specialize (H UserProperty). cbn in H. eapply map_inj; [|exact H]. intros [? ?] [? ?]; cbn; congruence. }
  assert (GS : subscription_identifier p = subscription_identifier q /\
               subscription_identifiers p = subscription_identifiers q).
  { specialize (H SubscriptionIdentifier). cbn in H. unfold unused in *. destruct (c_sublist cfg).
    - rewrite Hp, Hq in *. cbn in H. rewrite !app_nil_r in H. split; [reflexivity|].
      eapply map_inj; [|exact H]. congruence.
    - rewrite Hp, Hq in *. cbn in H. split; [|reflexivity].
      apply opt_list_inj in H. eapply option_map_inj; [|exact H]. congruence. }
  destruct GS as [GS1 GS2]. destruct p, q.
  pose proof (G PayloadFormatIndicator ltac:(discriminate) ltac:(discriminate)) as G1.
  pose proof (G MessageExpiryInterval ltac:(discriminate) ltac:(discriminate)) as G2.
  pose proof (G ContentType ltac:(discriminate) ltac:(discriminate)) as G3.
  pose proof (G ResponseTopic ltac:(discriminate) ltac:(discriminate)) as G4.
  pose proof (G CorrelationData ltac:(discriminate) ltac:(discriminate)) as G5.
  pose proof (G SessionExpiryInterval ltac:(discriminate) ltac:(discriminate)) as G6.
  pose proof (G AssignedClientIdentifier ltac:(discriminate) ltac:(discriminate)) as G7.
  pose proof (G ServerKeepAlive ltac:(discriminate) ltac:(discriminate)) as G8.
  pose proof (G AuthenticationMethod ltac:(discriminate) ltac:(discriminate)) as G9.
  pose proof (G AuthenticationData ltac:(discriminate) ltac:(discriminate)) as G10.
  pose proof (G RequestProblemInformation ltac:(discriminate) ltac:(discriminate)) as G11.
  pose proof (G WillDelayInterval ltac:(discriminate) ltac:(discriminate)) as G12.
  pose proof (G RequestResponseInformation ltac:(discriminate) ltac:(discriminate)) as G13.
  pose proof (G ResponseInformation ltac:(discriminate) ltac:(discriminate)) as G14.
  pose proof (G ServerReference ltac:(discriminate) ltac:(discriminate)) as G15.
  pose proof (G ReasonString ltac:(discriminate) ltac:(discriminate)) as G16.
  pose proof (G ReceiveMaximum ltac:(discriminate) ltac:(discriminate)) as G17.
  pose proof (G TopicAliasMaximum ltac:(discriminate) ltac:(discriminate)) as G18.
  pose proof (G TopicAlias ltac:(discriminate) ltac:(discriminate)) as G19.
  pose proof (G MaximumQos ltac:(discriminate) ltac:(discriminate)) as G20.
  pose proof (G RetainAvailable ltac:(discriminate) ltac:(discriminate)) as G21.
  pose proof (G MaximumPacketSize ltac:(discriminate) ltac:(discriminate)) as G22.
  pose proof (G WildcardSubscriptionAvailable ltac:(discriminate) ltac:(discriminate)) as G23.
  pose proof (G SubscriptionIdentifierAvailable ltac:(discriminate) ltac:(discriminate)) as G24.
  pose proof (G SharedSubscriptionAvailable ltac:(discriminate) ltac:(discriminate)) as G25.
  clear G H Hp Hq. cbn in *.
  repeat match goal with
  | E : option_map ?f ?a = option_map ?f ?b |- _ =>
      apply option_map_inj in E; [subst|congruence]
  end.
  subst. reflexivity.
Qed.

(* ---- duplicates -------------------------------------------------------------------------------- *)

Lemma single_dec cfg t : {single cfg t} + {~ single cfg t}.
Proof.
  unfold single. destruct (ptype_eq_dec t UserProperty) as [->|N1]; [right; tauto|].
  destruct (ptype_eq_dec t SubscriptionIdentifier) as [->|N2].
  - destruct (c_sublist cfg); [right|left]; intuition congruence.
  - left. intuition congruence.
Qed.

Lemma is_dup_multi cfg t p : ~ single cfg t -> is_dup cfg t p = false.
Proof.
  unfold single. intros H. destruct t; try (exfalso; apply H; split; [discriminate|discriminate]); try reflexivity.
  cbn. destruct (c_sublist cfg); [reflexivity|]. exfalso. apply H. split; [discriminate|reflexivity].
Qed.
Lemma is_dup_single cfg t p : single cfg t -> unused cfg p ->
  (t = PayloadFormatIndicator -> c_pfi_inverted cfg = false) ->
  is_dup cfg t p = negb (len (prop_vals t p) =? 0).
Proof.
  intros [S1 S2] HU HP. unfold unused in HU.
  destruct t; try congruence; cbn [is_dup prop_vals get_prop];
    try (rewrite (HP eq_refl)); try (rewrite (S2 eq_refl) in *; rewrite HU; cbn [app map]);
    match goal with |- context [option_map _ ?o] => destruct o; reflexivity
    | |- context [is_some ?o] => destruct o; reflexivity end.
Qed.
Lemma adup_single cfg t p : t <> SubscriptionIdentifier -> single cfg t ->
  adup t p = negb (len (prop_vals t p) =? 0).
Proof.
  intros N [S1 _]. destruct t; try congruence; cbn [adup prop_vals get_prop];
  match goal with |- context [option_map _ ?o] => destruct o; reflexivity end.
Qed.
Lemma adup_multi t p : t = SubscriptionIdentifier \/ t = UserProperty -> adup t p = false.
Proof. intros [->| ->]; reflexivity. Qed.

Lemma nodups_snoc cfg pre t v its : nodups cfg (pre ++ (t, v) :: its) -> single cfg t -> vals t pre = [].
Proof.
  intros H S. specialize (H t S). rewrite vals_app, app_length in H.
  change ((t, v) :: its) with ([(t, v)] ++ its) in H. rewrite vals_app, vals_one in H. cbn [fst snd] in H.
  rewrite ptype_eqb_refl, app_length in H. cbn [length] in H. destruct (vals t pre); [reflexivity|cbn in H; lia].
Qed.

Lemma spec_items_cons i its : spec_items (i :: its) = spec_item i ++ spec_items its.
Proof. reflexivity. Qed.
Lemma spec_items_app a b : spec_items (a ++ b) = spec_items a ++ spec_items b.
Proof. unfold spec_items. now rewrite map_app, concat_app. Qed.
Lemma spec_item_len i : 1 <= len (spec_item i).
Proof. unfold spec_item. rewrite (@len_cons N). lia. Qed.
Lemma spec_items_len its : len its <= len (spec_items its).
Proof.
  induction its as [|i its IH]; [reflexivity|]. rewrite spec_items_cons, len_app, len_cons.
  pose proof (spec_item_len i). lia.
Qed.
Lemma spec_items_len0 its : len (spec_items its) = 0 -> its = [].
Proof. intros H. pose proof (spec_items_len its). apply len_zero. lia. Qed.

Lemma step_facts cfg pre p0 t v its :
  unused cfg p0 -> (forall t, prop_vals t p0 = vals t pre) -> item_ok cfg (t, v) ->
  nodups cfg (pre ++ (t, v) :: its) ->
  unused cfg (store cfg t v p0) /\ (forall t', prop_vals t' (store cfg t v p0) = vals t' (pre ++ [(t, v)])).
Proof.
  intros HU HV (_ & HK & _) HN.
  destruct (store_facts cfg t v p0 HK HU) as [U' V'].
  { intros S. rewrite HV. eapply nodups_snoc; eauto. }
  split; [exact U'|]. intros t'. rewrite V', HV, vals_app, vals_one. reflexivity.
Qed.

Lemma read_loop_ok cfg : forall its pre p0 f r,
  unused cfg p0 -> (forall t, prop_vals t p0 = vals t pre) ->
  Forall (item_ok cfg) its -> nodups cfg (pre ++ its) ->
  (c_pfi_inverted cfg = true -> vals PayloadFormatIndicator its = []) ->
  exists p', unused cfg p' /\ (forall t, prop_vals t p' = vals t (pre ++ its)) /\
    (its = [] \/ r <> [] ->
       read_props_loop (length its + f) cfg p0 (spec_items its ++ r) = read_props_loop f cfg p' r) /\
    (its <> [] -> r = [] ->
       read_props_loop (length its + f) cfg p0 (spec_items its ++ r) = Ok (p', [])).
Proof.
  induction its as [|[t v] its IH]; intros pre p0 f r HU HV HF HN HP.
  - exists p0. rewrite app_nil_r. repeat split; auto. congruence.
  - inversion HF as [|? ? Hi HF']; subst. pose proof Hi as (Hd & Hk & Hv).
    destruct (step_facts cfg pre p0 t v its HU HV Hi HN) as [U' V'].
    destruct (IH (pre ++ [(t, v)]) (store cfg t v p0) f r U' V' HF') as (p' & U2 & V2 & R1 & R2).
    { now rewrite <- app_assoc. }
    { intros E. specialize (HP E). change ((t, v) :: its) with ([(t, v)] ++ its) in HP.
      rewrite vals_app in HP. now apply app_eq_nil in HP. }
    exists p'. split; [exact U2|]. split; [intros t'; now rewrite V2, <- app_assoc|].
    assert (Dup : is_dup cfg t p0 = false).
    { destruct (single_dec cfg t) as [S|S].
      - rewrite is_dup_single; auto.
        + rewrite HV, (nodups_snoc cfg pre t v its HN S). reflexivity.
        + intros ->. destruct (c_pfi_inverted cfg) eqn:E; [|reflexivity].
          specialize (HP eq_refl). unfold vals in HP. cbn in HP. discriminate.
      - now apply is_dup_multi. }
    cbn [length Nat.add]. cbn [read_props_loop].
    rewrite spec_items_cons. unfold spec_item. cbn [fst snd] in *. cbn [app].
    rewrite <- app_assoc, read_ptype_ok. cbn [bind]. rewrite Hd. cbn [negb]. rewrite Dup.
    rewrite read_val_ok by assumption. cbn [bind].
    split.
    + intros [C|C]; [discriminate|].
      destruct (len (spec_items its ++ r) =? 0) eqn:E.
      * exfalso. apply N.eqb_eq in E. apply len_zero in E. apply app_eq_nil in E. tauto.
      * apply R1. now right.
    + intros _ ->. destruct its as [|i its].
      * cbn. assert (p' = store cfg t v p0) as ->; [|reflexivity].
        eapply props_ext; [|exact U2|exact U']. intros t'. rewrite V2, V', app_nil_r. reflexivity.
      * destruct (len (spec_items (i :: its) ++ []) =? 0) eqn:E.
        { apply N.eqb_eq in E. rewrite app_nil_r in E. apply spec_items_len0 in E. discriminate. }
        apply R2; [discriminate|reflexivity].
Qed.

Lemma aread_loop_ok cfg : forall its pre p0 f r total n,
  unused cfg p0 -> (forall t, prop_vals t p0 = vals t pre) ->
  Forall (item_ok cfg) its -> nodups cfg (pre ++ its) ->
  exists p', unused cfg p' /\ (forall t, prop_vals t p' = vals t (pre ++ its)) /\
    (its = [] \/ total + len (spec_items its) < n ->
       aread_props_loop (length its + f) cfg p0 total n (spec_items its ++ r)
       = aread_props_loop f cfg p' (total + len (spec_items its)) n r) /\
    (its <> [] -> total + len (spec_items its) = n ->
       aread_props_loop (length its + f) cfg p0 total n (spec_items its ++ r) = AOk p' n r).
Proof.
  induction its as [|[t v] its IH]; intros pre p0 f r total n HU HV HF HN.
  - exists p0. rewrite app_nil_r. cbn [spec_items map concat]. rewrite (@len_nil N), N.add_0_r.
    repeat split; auto. congruence.
  - inversion HF as [|? ? Hi HF']; subst. pose proof Hi as (Hd & Hk & Hv).
    destruct (step_facts cfg pre p0 t v its HU HV Hi HN) as [U' V'].
    destruct (IH (pre ++ [(t, v)]) (store cfg t v p0) f r (total + 1 + len (spec_val v)) n U' V' HF')
      as (p' & U2 & V2 & R1 & R2).
    { now rewrite <- app_assoc. }
    exists p'. split; [exact U2|]. split; [intros t'; now rewrite V2, <- app_assoc|].
    assert (Dup : adup t p0 = false).
    { destruct (ptype_eq_dec t SubscriptionIdentifier) as [E|E]; [now apply adup_multi; left|].
      destruct (ptype_eq_dec t UserProperty) as [E'|E']; [now apply adup_multi; right|].
      assert (S : single cfg t) by (split; [assumption|congruence]).
      rewrite (adup_single cfg); auto. rewrite HV, (nodups_snoc cfg pre t v its HN S). reflexivity. }
    cbn [length Nat.add]. cbn [aread_props_loop].
    rewrite spec_items_cons. unfold spec_item. cbn [fst snd] in *. cbn [app].
    rewrite <- app_assoc, aread_ptype_ok. cbn [abind]. rewrite Hd. cbn [negb]. rewrite Dup.
    rewrite aread_val_ok by assumption. cbn [abind].
    rewrite (@len_cons N), len_app.
    split.
    + intros [C|C]; [discriminate|].
      replace (total + 1 + len (spec_val v) =? n) with false by lia.
      rewrite R1 by (right; lia). f_equal. lia.
    + intros _ Hn. destruct its as [|i its].
      * cbn [spec_items map concat app]. cbn [spec_items map concat] in Hn. rewrite (@len_nil N) in Hn.
        replace (total + 1 + len (spec_val v) =? n) with true by lia.
        assert (p' = store cfg t v p0) as ->.
        { eapply props_ext; [|exact U2|exact U']. intros t'. rewrite V2, V', app_nil_r. reflexivity. }
        f_equal. lia.
      * rewrite spec_items_cons in *. rewrite len_app in *. pose proof (spec_item_len i).
        replace (total + 1 + len (spec_val v) =? n) with false by lia.
        apply R2; [discriminate|]. lia.
Qed.

(* ---- well-formed structs ------------------------------------------------------------------------ *)

Lemma declares_in cfg t : declares cfg t = true <-> In t (c_decl cfg).
Proof.
  unfold declares. rewrite existsb_exists. split.
  - intros (x & Hin & E). apply ptype_eqb_eq in E as ->. exact Hin.
  - intros H. exists t. split; [exact H|apply ptype_eqb_refl].
Qed.

Lemma props_ok_unused cfg p : props_ok cfg p -> unused cfg p.
Proof.
  intros (_ & _ & _ & _ & H5 & H6). unfold unused. destruct (c_sublist cfg) eqn:E; [auto|].
  destruct (subscription_identifiers p); [reflexivity|]. destruct H5 as [_ C]; [discriminate|congruence].
Qed.

Lemma get_prop_kind t p v : get_prop t p = Some v -> has_kind v (kind_of t).
Proof.
  intros H.
  destruct t; cbn in H; try discriminate;
    match type of H with option_map _ ?o = _ => destruct o; [injection H as <-; exact I|discriminate] end.
Qed.

Lemma in_opt_list {A} (x : A) o : In x (opt_list o) -> o = Some x.
Proof. destruct o; cbn; intuition congruence. Qed.

Lemma props_ok_vals cfg p t v : props_ok cfg p -> In v (prop_vals t p) ->
  declares cfg t = true /\ has_kind v (kind_of t) /\ val_ok v.
Proof.
  intros (H1 & H2 & H3 & H4 & H5 & H6) Hin.
  assert (G : In v (opt_list (get_prop t p)) -> declares cfg t = true /\ has_kind v (kind_of t) /\ val_ok v).
  { intros Hg. apply in_opt_list in Hg. pose proof (get_prop_kind _ _ _ Hg). apply H1 in Hg as [? ?].
    rewrite declares_in. auto. }
  assert (D : t = UserProperty \/ t = SubscriptionIdentifier \/
              (t <> UserProperty /\ t <> SubscriptionIdentifier)) by (destruct t; tauto || (right; right; split; discriminate)).
  destruct D as [->|[->|[N1 N2]]].
  - cbn [prop_vals] in Hin. apply in_map_iff in Hin as ([k x] & <- & Hin). cbn [fst snd].
    split; [|split].
    + apply declares_in, H3. intros E. rewrite E in Hin. easy.
    + exact I.
    + rewrite Forall_forall in H2. exact (H2 _ Hin).
  - cbn [prop_vals] in Hin. apply in_app_or in Hin as [Hin|Hin]; [|auto].
    apply in_map_iff in Hin as (x & <- & Hin). split; [|split].
    + apply declares_in, H5. intros E. rewrite E in Hin. easy.
    + exact I.
    + rewrite Forall_forall in H4. exact (H4 _ Hin).
  - apply G. destruct t; try congruence; exact Hin.
Qed.

Lemma in_vals t v its : In v (vals t its) <-> In (t, v) its.
Proof.
  unfold vals. rewrite in_map_iff. split.
  - intros ([t' v'] & <- & Hin). apply filter_In in Hin as [Hin E]. apply ptype_eqb_eq in E. cbn in *. now subst.
  - intros Hin. exists (t, v). split; [reflexivity|]. apply filter_In. split; [exact Hin|apply ptype_eqb_refl].
Qed.

Lemma arranges_items_ok cfg its p : props_ok cfg p -> arranges its p -> Forall (item_ok cfg) its.
Proof.
  intros HP HA. apply Forall_forall. intros [t v] Hin. apply (in_vals t v) in Hin. rewrite HA in Hin.
  exact (props_ok_vals cfg p t v HP Hin).
Qed.

Lemma prop_vals_single cfg t p : unused cfg p -> single cfg t -> (length (prop_vals t p) <= 1)%nat.
Proof.
  intros HU [S1 S2]. unfold unused in HU.
  assert (O : forall A (o : option A), (length (opt_list o) <= 1)%nat) by (intros A [?|]; cbn; lia).
  destruct t; try congruence; try apply O.
  cbn [prop_vals]. rewrite (S2 eq_refl) in HU. rewrite HU. apply O.
Qed.

Lemma arranges_nodups cfg its p : props_ok cfg p -> arranges its p -> nodups cfg its.
Proof.
  intros HP HA t S. rewrite HA. eapply prop_vals_single; [|exact S]. now apply props_ok_unused.
Qed.

Lemma arranges_nil p its : arranges its p -> its = [] -> empty_props p.
Proof. intros HA -> t. now rewrite <- HA. Qed.
Lemma empty_props_eq cfg p : props_ok cfg p -> empty_props p -> p = no_props.
Proof.
  intros HP HE. eapply (props_ext cfg).
  - intros t. now rewrite HE, prop_vals_no_props.
  - now apply props_ok_unused.
  - apply unused_no_props.
Qed.

Lemma length_len {A} (l : list A) : N.of_nat (length l) = len l.
Proof. reflexivity. Qed.

Lemma read_props_ok cfg its p rest :
  props_ok cfg p -> arranges its p -> len (spec_items its) <= MAXVAR ->
  (c_split cfg = true \/ rest = []) ->
  (c_pfi_inverted cfg = true -> payload_format_indicator p = None) ->
  post_check cfg p = true ->
  read_props cfg (spec_section its ++ rest) = Ok (p, rest).
Proof.
  intros HP HA HL HS HI HC. unfold read_props, spec_section.
  rewrite <- app_assoc, read_varint_ok by assumption. cbn [bind].
  destruct (len (spec_items its) =? 0) eqn:E.
  { apply N.eqb_eq, spec_items_len0 in E. pose proof (arranges_nil _ _ HA E) as HE.
    subst its. cbn [spec_items map concat app].
    now rewrite (empty_props_eq cfg p HP HE). }
  rewrite len_app. replace (len (spec_items its) + len rest <? len (spec_items its)) with false by lia.
  assert (HE : its <> []) by (intros ->; discriminate E).
  destruct (read_loop_ok cfg its [] no_props (S (length (spec_items its)) - length its) [])
    as (p' & U' & V' & _ & R).
  { apply unused_no_props. }
  { intros t. now rewrite prop_vals_no_props. }
  { eapply arranges_items_ok; eauto. }
  { eapply arranges_nodups; eauto. }
  { intros C. rewrite HA. cbn. now rewrite (HI C). }
  assert (p' = p) as ->.
  { eapply (props_ext cfg); [|exact U'|now apply props_ok_unused]. intros t. rewrite V'. apply HA. }
  specialize (R HE eq_refl). rewrite app_nil_r in R.
  pose proof (spec_items_len its) as HN. unfold len in HN.
  replace (length its + (S (length (spec_items its)) - length its))%nat
    with (S (length (spec_items its))) in R by lia.
  destruct (c_split cfg) eqn:ES.
  - rewrite take_app by reflexivity. rewrite R. cbn [bind]. rewrite HC. now rewrite drop_app.
  - destruct HS as [C|HS]; [discriminate|subst rest]. rewrite app_nil_r. rewrite R. cbn [bind]. now rewrite HC.
Qed.

Lemma aread_props_ok cfg its p rest :
  props_ok cfg p -> arranges its p -> len (spec_items its) <= MAXVAR ->
  aread_props cfg (spec_section its ++ rest) = AOk p (len (spec_section its)) rest.
Proof.
  intros HP HA HL. unfold aread_props, spec_section.
  rewrite <- app_assoc, aread_varint_ok by assumption. cbn [abind]. rewrite len_app.
  destruct (len (spec_items its) =? 0) eqn:E.
  { apply N.eqb_eq, spec_items_len0 in E. pose proof (arranges_nil _ _ HA E) as HE.
    subst its. cbn [spec_items map concat app]. rewrite (@len_nil N), N.add_0_r.
    now rewrite (empty_props_eq cfg p HP HE). }
  assert (HE : its <> []) by (intros ->; discriminate E).
  destruct (aread_loop_ok cfg its [] no_props (S (length (spec_items its ++ rest)) - length its) rest 0 (len (spec_items its)))
    as (p' & U' & V' & _ & R).
  { apply unused_no_props. }
  { intros t. now rewrite prop_vals_no_props. }
  { eapply arranges_items_ok; eauto. }
  { eapply arranges_nodups; eauto. }
  assert (p' = p) as ->.
  { eapply (props_ext cfg); [|exact U'|now apply props_ok_unused]. intros t. rewrite V'. apply HA. }
  specialize (R HE (N.add_0_l _)).
  pose proof (spec_items_len its) as HN. unfold len in HN. rewrite app_length in *.
  replace (length its + (S (length (spec_items its) + length rest) - length its))%nat
    with (S (length (spec_items its) + length rest)) in R by lia.
  rewrite R. reflexivity.
Qed.

(* ---- writers ------------------------------------------------------------------------------------ *)

Definition its_of (order : list ptype) (p : props) : list item :=
  flat_map (fun t => map (pair t) (prop_vals t p)) order.

Definition cfg_good (cfg : pcfg) : Prop :=
  NoDup (c_decl cfg) /\ NoDup (c_order cfg) /\ Permutation (c_decl cfg) (c_order cfg).

Lemma vals_map_pair t t' vs : vals t (map (pair t') vs) = if ptype_eqb t' t then vs else [].
Proof.
  unfold vals. destruct (ptype_eqb t' t) eqn:E.
  - induction vs as [|v vs IH]; [reflexivity|]. cbn. rewrite E. cbn. now rewrite IH.
  - induction vs as [|v vs IH]; [reflexivity|]. cbn. now rewrite E.
Qed.

Lemma vals_its_of t order p : NoDup order -> In t order -> vals t (its_of order p) = prop_vals t p.
Proof.
  induction order as [|x order IH]; [easy|]. intros ND Hin. inversion ND; subst.
  cbn [its_of flat_map]. rewrite vals_app, vals_map_pair. destruct Hin as [->|Hin].
  - rewrite ptype_eqb_refl.
    assert (N : forall l, ~ In t l -> vals t (its_of l p) = []).
    { induction l as [|y l IHl]; intros Hn; [reflexivity|]. cbn [its_of flat_map].
      rewrite vals_app, vals_map_pair, ptype_eqb_neq by (intros ->; apply Hn; now left).
      apply IHl. intros C. apply Hn. now right. }
    change (flat_map (fun t0 => map (pair t0) (prop_vals t0 p)) order) with (its_of order p).
    rewrite N by assumption. apply app_nil_r.
  - rewrite ptype_eqb_neq by (intros ->; contradiction). apply IH; assumption.
Qed.

Lemma its_of_out t order p : ~ In t order -> vals t (its_of order p) = [].
Proof.
  induction order as [|y l IHl]; intros Hn; [reflexivity|]. cbn [its_of flat_map].
  rewrite vals_app, vals_map_pair, ptype_eqb_neq by (intros ->; apply Hn; now left).
  apply IHl. intros C. apply Hn. now right.
Qed.

Lemma arranges_its_of order p :
  NoDup order -> (forall t v, In v (prop_vals t p) -> In t order) -> arranges (its_of order p) p.
Proof.
  intros ND H t. destruct (in_dec ptype_eq_dec t order) as [Hin|Hn].
  - now apply vals_its_of.
  - rewrite its_of_out by assumption. destruct (prop_vals t p) as [|v vs] eqn:E; [reflexivity|].
    exfalso. apply Hn, (H t v). rewrite E. now left.
Qed.

Lemma spec_items_perm order order' p : Permutation order order' ->
  len (spec_items (its_of order p)) = len (spec_items (its_of order' p)).
Proof.
  intros HP. unfold its_of. induction HP; cbn [flat_map].
  - reflexivity.
  - rewrite !spec_items_app, !len_app, IHHP. reflexivity.
  - rewrite !spec_items_app, !len_app. lia.
  - congruence.
Qed.

Lemma sum_items_len cfg p t : props_ok cfg p ->
  fold_right N.add 0 (map (fun v => 1 + val_len v) (prop_vals t p)) = len (spec_items (map (pair t) (prop_vals t p))).
Proof.
  intros HP. assert (H : forall v, In v (prop_vals t p) -> val_ok v).
  { intros v Hin. now apply (props_ok_vals cfg p t v HP). }
  induction (prop_vals t p) as [|v vs IH]; [reflexivity|]. cbn [map fold_right].
  rewrite IH by (intros; apply H; now right). rewrite spec_items_cons, len_app. unfold spec_item. cbn [fst snd].
  rewrite (@len_cons N), val_len_spec by (apply H; now left). lia.
Qed.

Lemma auth_written p : auth_ok p -> auth_data_written p = is_some (authentication_data p).
Proof.
  intros H. unfold auth_data_written. destruct (authentication_data p) as [d|] eqn:E; [|reflexivity].
  destruct (H d E) as [H1 H2]. destruct (authentication_method p); [|congruence].
  destruct d; [congruence|]. reflexivity.
Qed.

Lemma type_len_spec cfg p t : props_ok cfg p -> auth_ok p ->
  type_len cfg p t = len (spec_items (map (pair t) (prop_vals t p))).
Proof.
  intros HP HA. rewrite <- (sum_items_len cfg p t HP).
  pose proof (items_prop_vals cfg t p (props_ok_unused _ _ HP)) as E.
  destruct t; unfold type_len; try (rewrite E; reflexivity).
  rewrite (auth_written p HA), E. cbn [prop_vals get_prop]. now destruct (authentication_data p).
Qed.

Lemma props_len_spec cfg p : props_ok cfg p -> auth_ok p ->
  props_len cfg p = len (spec_items (its_of (c_decl cfg) p)).
Proof.
  intros HP HA. unfold props_len, its_of.
  induction (c_decl cfg) as [|t l IH]; [reflexivity|]. cbn [map fold_right flat_map].
  rewrite spec_items_app, len_app, IH. f_equal. now apply type_len_spec.
Qed.

Lemma w_concat_items cfg p t (wv : pval -> wr) : props_ok cfg p ->
  (forall v, val_ok v -> wv v = w_put (spec_val v)) ->
  w_concat (map (fun v => write_ptype t >>> wv v) (prop_vals t p)) = w_put (spec_items (map (pair t) (prop_vals t p))).
Proof.
  intros HP HW. unfold spec_items. rewrite map_map.
  rewrite (w_concat_put_ext _ (fun v => spec_item (t, v))); [reflexivity|].
  intros v Hin. destruct (props_ok_vals cfg p t v HP Hin) as (_ & _ & Hv).
  now rewrite write_ptype_spec, HW, w_seq_put.
Qed.

Lemma write_type_spec cfg p t : props_ok cfg p -> auth_ok p ->
  write_type cfg p t = w_put (spec_items (map (pair t) (prop_vals t p))).
Proof.
  intros HP HA. unfold write_type. rewrite (items_prop_vals cfg t p (props_ok_unused _ _ HP)).
  rewrite (w_concat_items cfg p t write_val HP write_val_spec).
  destruct t; try reflexivity.
  rewrite (auth_written p HA). cbn [prop_vals get_prop].
  destruct (authentication_data p) as [d|] eqn:E; cbn [is_some andb].
  - destruct (HA d E) as [H1 H2]. destruct (authentication_method p); [|congruence].
    cbn [is_some negb]. now destruct (c_auth_strict cfg).
  - now destruct (c_auth_strict cfg).
Qed.

Lemma concat_spec_items order p :
  concat (map (fun t => spec_items (map (pair t) (prop_vals t p))) order) = spec_items (its_of order p).
Proof.
  induction order as [|t l IH]; [reflexivity|]. cbn [map concat its_of flat_map].
  change (flat_map (fun t0 => map (pair t0) (prop_vals t0 p)) l) with (its_of l p).
  now rewrite spec_items_app, IH.
Qed.

Lemma write_props_spec cfg p : cfg_good cfg -> props_ok cfg p -> auth_ok p -> props_len cfg p <= MAXVAR ->
  write_props cfg p = w_put (spec_section (its_of (c_order cfg) p)).
Proof.
  intros (_ & _ & Perm) HP HA HL. unfold write_props, spec_section.
  rewrite write_varint_spec by assumption.
  rewrite (w_concat_put_ext _ (fun t => spec_items (map (pair t) (prop_vals t p))))
    by (intros; now apply write_type_spec).
  rewrite w_seq_put, concat_spec_items. repeat f_equal.
  rewrite props_len_spec by assumption. now apply spec_items_perm.
Qed.

(* stream writers: bytes b, no error, and the right count when P holds *)
Definition w_like (b : bytes) (P : Prop) (w : wr) : Prop :=
  w_bytes w = b /\ w_err w = None /\ (P -> w_cnt w = len b).
Lemma w_like_put b P : w_like b P (w_put b).
Proof. repeat split. Qed.
Lemma w_like_nil P : w_like [] P w_nil.
Proof. repeat split. Qed.
Lemma w_like_seq a b P w1 w2 : w_like a P w1 -> w_like b P w2 -> w_like (a ++ b) P (w1 >>> w2).
Proof.
  intros (A1 & A2 & A3) (B1 & B2 & B3). unfold w_seq. rewrite A2. repeat split; cbn.
  - now rewrite A1, B1.
  - exact B2.
  - intros HP. rewrite len_app, A3, B3; auto.
Qed.
Lemma w_like_concat {A} (P : Prop) (f : A -> wr) (g : A -> bytes) l :
  (forall x, In x l -> w_like (g x) P (f x)) -> w_like (concat (map g l)) P (w_concat (map f l)).
Proof.
  induction l as [|x l IH]; intros H; [apply w_like_nil|]. cbn [map concat w_concat fold_right].
  apply w_like_seq; [apply H; now left|]. apply IH. intros; apply H; now right.
Qed.
Lemma w_like_weaken b (P Q : Prop) w : w_like b P w -> (Q -> P) -> w_like b Q w.
Proof. intros (A & B & C) H. repeat split; auto. Qed.

Lemma awrite_type_spec cfg p t : props_ok cfg p -> auth_ok p ->
  assigned_client_identifier p = None ->
  w_like (spec_items (map (pair t) (prop_vals t p))) (server_reference p = None) (awrite_type cfg p t).
Proof.
  intros HP HA HN. unfold awrite_type. rewrite (items_prop_vals cfg t p (props_ok_unused _ _ HP)).
  rewrite (w_concat_items cfg p t awrite_val HP awrite_val_spec).
  destruct t; try apply w_like_put.
  - cbn [prop_vals get_prop]. rewrite HN. apply w_like_nil.
  - rewrite (auth_written p HA). cbn [prop_vals get_prop].
    destruct (authentication_data p); [apply w_like_put|apply w_like_nil].
  - repeat split. cbn [w_cnt w_bytes w_put prop_vals get_prop]. intros ->. reflexivity.
Qed.

Lemma awrite_props_spec cfg p : props_ok cfg p -> auth_ok p -> props_len cfg p <= MAXVAR ->
  assigned_client_identifier p = None ->
  w_like (spec_section (its_of (c_decl cfg) p)) (server_reference p = None) (awrite_props cfg p).
Proof.
  intros HP HA HL HN. unfold awrite_props, spec_section.
  rewrite awrite_varint_spec by assumption. rewrite props_len_spec by assumption.
  rewrite <- concat_spec_items.
  apply w_like_seq; [apply w_like_put|]. apply w_like_concat. intros; now apply awrite_type_spec.
Qed.

Lemma its_of_order_arranges cfg p : cfg_good cfg -> props_ok cfg p -> arranges (its_of (c_order cfg) p) p.
Proof.
  intros (N1 & N2 & Perm) HP. apply arranges_its_of; [assumption|]. intros t v Hin.
  apply (props_ok_vals cfg p t v HP) in Hin as (Hd & _). apply declares_in in Hd.
  eapply Permutation_in; eauto.
Qed.
Lemma its_of_decl_arranges cfg p : cfg_good cfg -> props_ok cfg p -> arranges (its_of (c_decl cfg) p) p.
Proof.
  intros (N1 & N2 & Perm) HP. apply arranges_its_of; [assumption|]. intros t v Hin.
  apply (props_ok_vals cfg p t v HP) in Hin as (Hd & _). now apply declares_in in Hd.
Qed.

Lemma section_len_spec cfg p : props_ok cfg p -> auth_ok p ->
  section_len cfg p = len (spec_section (its_of (c_decl cfg) p)).
Proof.
  intros HP HA. unfold section_len, spec_section. rewrite props_len_spec by assumption.
  now rewrite len_app, spec_varint_len.
Qed.
Lemma section_len_order cfg p : cfg_good cfg -> props_ok cfg p -> auth_ok p ->
  section_len cfg p = len (spec_section (its_of (c_order cfg) p)).
Proof.
  intros (_ & _ & Perm) HP HA. rewrite section_len_spec by assumption. unfold spec_section.
  rewrite !len_app. now rewrite (spec_items_perm _ _ p Perm).
Qed.

Definition cfg_goodb (cfg : pcfg) : bool :=
  let nd := fix nd l := match l with [] => true | x :: r => negb (existsb (ptype_eqb x) r) && nd r end in
  nd (c_decl cfg) && nd (c_order cfg) &&
  forallb (fun t => existsb (ptype_eqb t) (c_order cfg)) (c_decl cfg) &&
  forallb (fun t => existsb (ptype_eqb t) (c_decl cfg)) (c_order cfg).

Lemma cfg_goodb_ok cfg : cfg_goodb cfg = true -> cfg_good cfg.
Proof.
  unfold cfg_goodb. set (nd := fix nd l := match l with [] => true | x :: r => _ end).
  assert (ND : forall l, nd l = true -> NoDup l).
  { induction l as [|x l IH]; intros H; [constructor|]. cbn in H. apply andb_prop in H as [H1 H2].
    constructor; [|auto]. intros Hin. apply negb_true_iff in H1.
    assert (existsb (ptype_eqb x) l = true); [|congruence].
    apply existsb_exists. exists x. split; [exact Hin|apply ptype_eqb_refl]. }
  intros H. apply andb_prop in H as [H H4]. apply andb_prop in H as [H H3]. apply andb_prop in H as [H1 H2].
  assert (I : forall a b, forallb (fun t => existsb (ptype_eqb t) b) a = true -> forall t, In t a -> In t b).
  { intros a b HH t Hin. rewrite forallb_forall in HH. apply HH in Hin.
    apply existsb_exists in Hin as (x & Hx & E). now apply ptype_eqb_eq in E as ->. }
  split; [auto|split; [auto|]]. apply NoDup_Permutation; auto. intros t. split; [now apply I|now apply I].
Qed.

Lemma all_cfgs_good : Forall cfg_good all_cfgs.
Proof.
  assert (H : forallb cfg_goodb all_cfgs = true) by (vm_compute; reflexivity).
  rewrite forallb_forall in H. apply Forall_forall. intros cfg Hin. apply cfg_goodb_ok. auto.
Qed.
Lemma cfg_good_in cfg : In cfg all_cfgs -> cfg_good cfg.
Proof. pose proof all_cfgs_good as H. rewrite Forall_forall in H. auto. Qed.
