(* What holds of the readers on arbitrary bytes: no crash, results well-formed, and for the stream
   readers: an outcome is not changed by further bytes. *)
From Verif Require Import Base VarInt Prims Props Codes Packets SpecCodec BaseFacts Utf8Facts VarIntFacts PrimFacts PropsFacts PacketFacts.

(* ---- stream readers -------------------------------------------------------------------------------- *)

(* [k] bytes at least are consumed by a completed read *)
Definition good_at {A} (k : nat) (P : A -> Prop) (f : bytes -> ares A) (s : bytes) : Prop :=
  match f s with
  | AOk a n r =>
      (exists c, s = c ++ r /\ (k <= length c)%nat) /\ P a /\
      (forall t, all_bytes t -> f (s ++ t) = AOk a n (r ++ t))
  | AErr e => forall t, all_bytes t -> f (s ++ t) = AErr e
  | AShort => True
  | ACrash _ => False
  end.
Definition good {A} k (P : A -> Prop) f := forall s, all_bytes s -> good_at k P f s.

Lemma good_at_bind {A B} k k' (P : A -> Prop) (Q : B -> Prop) f g s :
  good_at k P f s ->
  (forall a n r c, s = c ++ r -> (k <= length c)%nat -> P a -> good_at k' Q (g a n) r) ->
  good_at (k + k') Q (fun s => abind (f s) g) s.
Proof.
  unfold good_at. intros HF HG. destruct (f s) as [a n r|e| |c]; cbn [abind]; auto.
  - destruct HF as ((c & Es & Lc) & Pa & St). specialize (HG a n r c Es Lc Pa).
    destruct (g a n r) as [b m r'|e| |c'] eqn:Eg; auto.
    + destruct HG as ((c' & Er & Lc') & Qb & St'). split; [|split; [assumption|]].
      * exists (c ++ c'). rewrite <- app_assoc, <- Er. split; [assumption|]. rewrite app_length. lia.
      * intros t Ht. rewrite St by assumption. cbn [abind]. now apply St'.
    + intros t Ht. rewrite St by assumption. cbn [abind]. now apply HG.
  - intros t Ht. rewrite HF by assumption. reflexivity.
Qed.
Lemma good_bind {A B} k k' (P : A -> Prop) (Q : B -> Prop) f g :
  good k P f -> (forall a n, P a -> good k' Q (g a n)) -> good (k + k') Q (fun s => abind (f s) g).
Proof.
  intros HF HG s Hs. eapply good_at_bind; [now apply HF|]. intros a n r c -> _ Pa.
  apply HG; [assumption|]. now apply all_bytes_app in Hs.
Qed.
Lemma good_ret {A} (P : A -> Prop) a n : P a -> good 0 P (fun s => AOk a n s).
Proof. intros Pa s _. repeat split; auto. exists []. split; [reflexivity|cbn; lia]. Qed.
Lemma good_err {A} k (P : A -> Prop) e : good k P (fun _ => AErr e).
Proof. intros s _. cbn. auto. Qed.
Lemma good_weaken {A} k k' (P Q : A -> Prop) f : good k P f -> (k' <= k)%nat -> (forall a, P a -> Q a) -> good k' Q f.
Proof.
  intros HF HK HPQ s Hs. specialize (HF s Hs). unfold good_at in *. destruct (f s); auto.
  destruct HF as ((c & E & L) & Pa & St). repeat split; auto. exists c. split; [assumption|lia].
Qed.
Lemma good_ext {A} k (P : A -> Prop) f g : (forall s, f s = g s) -> good k P f -> good k P g.
Proof.
  intros E HF s Hs. specialize (HF s Hs). unfold good_at in *. rewrite <- E. destruct (f s); auto.
  - destruct HF as (H1 & H2 & H3). repeat split; auto. intros t Ht. rewrite <- E. auto.
  - intros t Ht. rewrite <- E. auto.
Qed.
Lemma good_amap {A B} k (P : A -> Prop) (Q : B -> Prop) (h : A -> B) f :
  good k P f -> (forall a, P a -> Q (h a)) -> good k Q (fun s => amap h (f s)).
Proof.
  intros HF HQ s Hs. specialize (HF s Hs). unfold good_at in *. destruct (f s) as [a n r|e| |c]; cbn [amap]; auto.
  - destruct HF as (H1 & H2 & H3). repeat split; auto. intros t Ht. now rewrite H3.
  - intros t Ht. now rewrite HF.
Qed.

Ltac gbind := eapply good_bind; [|cbv beta].

Lemma good_u8 : good 1 (fun n => n < 256) aread_u8.
Proof.
  intros [|a r] Hs; unfold good_at; cbn [aread_u8]; [exact I|]. inversion Hs; subst. repeat split; auto.
  exists [a]. split; [reflexivity|cbn; lia].
Qed.
Lemma good_u16 : good 2 (fun n => n < 65536) aread_u16.
Proof.
  intros [|a [|b r]] Hs; unfold good_at; cbn [aread_u16]; auto. inversion Hs as [|? ? Ha Hs']; subst.
  inversion Hs' as [|? ? Hb Hr]; subst. unfold is_byte in *. repeat split; [|lia].
  exists [a; b]. split; [reflexivity|cbn; lia].
Qed.
Lemma good_u32 : good 4 (fun n => n < 4294967296) aread_u32.
Proof.
  intros [|a [|b [|c [|d r]]]] Hs; unfold good_at; cbn [aread_u32]; auto.
  inversion Hs as [|? ? Ha H1]; subst. inversion H1 as [|? ? Hb H2]; subst. inversion H2 as [|? ? Hc H3]; subst.
  inversion H3 as [|? ? Hd H4]; subst. unfold is_byte in *. repeat split; [|lia].
  exists [a; b; c; d]. split; [reflexivity|cbn; lia].
Qed.
Lemma good_exact n : good (N.to_nat n) (fun d => all_bytes d /\ len d = n) (aread_exact n).
Proof.
  intros s Hs. unfold good_at, aread_exact. destruct (len s <? n) eqn:E; [exact I|].
  split; [|split].
  - exists (take n s). split; [now rewrite take_drop|]. assert (len (take n s) = n) by (apply len_take; lia).
    unfold len in *. lia.
  - split; [now apply all_bytes_take|apply len_take; lia].
  - intros t _. rewrite len_app. replace (len s + len t <? n) with false by lia.
    rewrite take_app_le, drop_app_le by lia. reflexivity.
Qed.
Lemma good_bin : good 2 bin_ok aread_bin.
Proof.
  unfold aread_bin. eapply good_weaken with (k := (2 + (0 + 0))%nat); [|lia|intros a H; exact H].
  gbind; [apply good_u16|]. intros n c Hn. gbind; [eapply good_weaken; [apply good_exact|lia|intros a H; exact H]|].
  intros d c' [Hd Hl]. apply good_ret. cbv beta in *. split; [assumption|lia].
Qed.
Lemma good_str : good 2 str_ok aread_str.
Proof.
  unfold aread_str. eapply good_weaken with (k := (2 + 0)%nat); [|lia|intros a H; exact H].
  gbind; [apply good_bin|]. intros d c (Hd & Hl). destruct (utf8_valid d) eqn:E; [|apply good_err].
  apply good_ret. now apply str_ok_intro.
Qed.
Lemma good_bool : good 1 (fun _ => True) aread_bool.
Proof.
  unfold aread_bool. eapply good_weaken with (k := (1 + 0)%nat); [|lia|intros a H; exact H].
  gbind; [apply good_u8|]. intros v n _. destruct (v =? 0); [now apply good_ret|]. destruct (v =? 1); [now apply good_ret|apply good_err].
Qed.
Lemma qos_from_u8_cases v : (exists q, qos_from_u8 v = Ok q) \/ (exists e, qos_from_u8 v = Err e).
Proof. unfold qos_from_u8. destruct (v =? 0); eauto. destruct (v =? 1); eauto. destruct (v =? 2); eauto. Qed.
Lemma good_qos : good 1 (fun _ => True) aread_qos.
Proof.
  unfold aread_qos. eapply good_weaken with (k := (1 + 0)%nat); [|lia|intros a H; exact H].
  gbind; [apply good_u8|]. intros v n _. destruct (qos_from_u8_cases v) as [[q ->]|[e ->]]; [now apply good_ret|apply good_err].
Qed.
Lemma good_varint : good 1 (fun n => n <= MAXVAR) aread_varint.
Proof.
  intros s Hs. unfold good_at, aread_varint. pose proof (read_varint_loop_classify s Hs) as C.
  destruct (read_varint_loop 4 0 0 0 s) as [v n r| |] eqn:E; auto.
  - destruct C as (enc & HV & -> & -> & -> & HM). split; [|split; [assumption|]].
    + exists enc. split; [reflexivity|]. destruct HV as (i & l & -> & _). rewrite app_length. cbn. lia.
    + intros t Ht. destruct HV as (i & l & -> & HF & Hl & H4). rewrite <- !app_assoc in *. cbn [app] in *.
      assert (L : (length i < 4)%nat) by (rewrite len_app in H4; unfold len in H4; cbn [length] in H4; lia).
      rewrite (read_varint_loop_spec i 4 l 0 0 0 _ HF Hl L). rewrite (read_varint_loop_spec i 4 l 0 0 0 _ HF Hl L) in E.
      congruence.
  - destruct C as (i & r & -> & L & HF). intros t Ht. rewrite <- app_assoc.
    rewrite (read_varint_loop_long 4 i); [reflexivity| |unfold len in L; lia].
    apply all_bytes_app in Hs as [Hi _]. clear - Hi HF. induction i as [|b i IH]; [constructor|].
    inversion Hi; subst; inversion HF; subst. unfold is_byte in *. constructor; auto.
Qed.
Lemma ptype_from_u8_cases v : (exists q, ptype_from_u8 v = Ok q) \/ ptype_from_u8 v = Err (UnknownProperty v).
Proof.
  unfold ptype_from_u8. destruct v as [|p]; [now right|].
  do 6 (destruct p as [p|p|]; eauto).
Qed.
Lemma good_ptype : good 1 (fun _ => True) aread_ptype.
Proof.
  unfold aread_ptype. eapply good_weaken with (k := (1 + 0)%nat); [|lia|intros a H; exact H].
  gbind; [apply good_u8|]. intros v n _. destruct (ptype_from_u8_cases v) as [[q ->]| ->]; [now apply good_ret|apply good_err].
Qed.
Lemma rc_from_u8_cases tbl v : (exists c, rc_from_u8 tbl v = Ok c /\ In c tbl /\ spec_rc c = v) \/
  (rc_from_u8 tbl v = Err (UnknownProperty v) /\ ~ In v (map spec_rc tbl)).
Proof.
  induction tbl as [|x tbl IH]; cbn [rc_from_u8 map].
  - right. split; [reflexivity|intros []].
  - rewrite (rc_spec x). destruct (v =? spec_rc x) eqn:E.
    + left. exists x. apply N.eqb_eq in E. cbn. auto.
    + apply N.eqb_neq in E. destruct IH as [(c & -> & Hin & Hc)|[-> Hn]].
      * left. exists c. cbn. auto.
      * right. split; [reflexivity|]. cbn. intros [H|H]; [congruence|contradiction].
Qed.
Lemma good_rc tbl : good 1 (code_ok tbl) (aread_rc tbl).
Proof.
  unfold aread_rc. eapply good_weaken with (k := (1 + 0)%nat); [|lia|intros a H; exact H].
  gbind; [apply good_u8|]. intros v n _.
  destruct (rc_from_u8_cases tbl v) as [(c & -> & Hin & _)|[-> _]]; [now apply good_ret|apply good_err].
Qed.

Definition kv_ok (k : vkind) (v : pval) : Prop := has_kind v k /\ val_ok v.

Lemma good_val k : good 1 (kv_ok k) (aread_val k).
Proof.
  assert (W : forall A (h : A -> pval) j (P : A -> Prop) f, (1 <= j)%nat -> good j P f -> (forall a, P a -> kv_ok k (h a)) ->
     good 1 (kv_ok k) (fun s => aw* (v, n, r) := f s in AOk (h v) n r)).
  { intros A h j P f Hj HF HK. eapply good_weaken with (k := (j + 0)%nat); [|lia|intros a H; exact H].
    gbind; [exact HF|]. intros a n Pa. apply good_ret. auto. }
  destruct k; cbn [aread_val].
  - eapply W; [|apply good_u8|]; [lia|split; cbn; auto].
  - eapply W; [|apply good_u16|]; [lia|split; cbn; auto].
  - eapply W; [|apply good_u32|]; [lia|split; cbn; auto].
  - eapply W; [|apply good_varint|]; [lia|split; cbn; auto].
  - eapply W; [|apply good_str|]; [lia|split; cbn; auto].
  - eapply W; [|apply good_bin|]; [lia|split; cbn; auto].
  - eapply W; [|apply good_qos|]; [lia|split; cbn; auto].
  - eapply W; [|apply good_bool|]; [lia|split; cbn; auto].
  - eapply good_weaken with (k := (2 + (2 + 0))%nat); [|lia|intros a H; exact H].
    gbind; [apply good_str|]. intros x n Hx. gbind; [apply good_str|]. intros y n' Hy. apply good_ret. split; cbn; auto.
Qed.

(* storing a declared value keeps a struct well-formed *)
Lemma no_props_ok cfg : props_ok cfg no_props.
Proof.
  repeat split; try constructor; try (intros; cbn in *; congruence).
  all: try (destruct t; discriminate).
Qed.
Lemma set_prop_get t v p : has_kind v (kind_of t) -> t <> UserProperty ->
  forall t' v', get_prop t' (set_prop t v p) = Some v' -> (t' = t /\ v' = v) \/ get_prop t' p = Some v'.
Proof.
  intros HK HN t' v'. destruct t; try congruence; destruct v; try (exfalso; exact HK); clear;
    destruct t'; cbn; intros H; first [now right | left; split; congruence].
Qed.
Lemma set_prop_lists t v p : user_properties (set_prop t v p) = user_properties p /\
  subscription_identifiers (set_prop t v p) = subscription_identifiers p.
Proof. destruct t, v; split; reflexivity. Qed.
Lemma set_prop_subid t v p : t <> SubscriptionIdentifier -> subscription_identifier (set_prop t v p) = subscription_identifier p.
Proof. destruct t, v; congruence || reflexivity. Qed.

Lemma store_ok cfg t v p : props_ok cfg p -> declares cfg t = true -> kv_ok (kind_of t) v -> props_ok cfg (store cfg t v p).
Proof.
  intros (H1 & H2 & H3 & H4 & H5 & H6) HD (HK & HV). apply declares_in in HD.
  assert (D : t = UserProperty \/ t = SubscriptionIdentifier \/
              (t <> UserProperty /\ t <> SubscriptionIdentifier)) by (destruct t; tauto || (right; right; split; discriminate)).
  destruct D as [->|[->|[N1 N2]]].
  - destruct v as [| | | | | | | |k v]; try (exfalso; exact HK). cbn [store].
    assert (G : forall t', get_prop t' (push_user k v p) = get_prop t' p) by (intros []; reflexivity).
    split; [intros t' v'; rewrite G; apply H1|].
    split; [cbn; apply Forall_app; split; [assumption|]; constructor; [exact HV|constructor]|].
    split; [intros _; assumption|]. split; [exact H4|]. split; [exact H5|exact H6].
  - destruct v as [| | |n| | | | |]; try (exfalso; exact HK). cbn [store]. destruct (c_sublist cfg) eqn:E.
    + assert (G : forall t', get_prop t' (push_subid n p) = get_prop t' p) by (intros []; reflexivity).
      split; [intros t' v'; rewrite G; apply H1|].
      split; [exact H2|]. split; [exact H3|].
      split; [cbn; apply Forall_app; split; [assumption|]; constructor; [exact HV|constructor]|].
      split; [intros _; auto|intros _; now apply H6].
    + split.
      { intros t' v' H. apply (set_prop_get _ _ p HK) in H; [|discriminate].
        destruct H as [[-> ->]|H]; [auto|]. now apply H1. }
      split; [exact H2|]. split; [exact H3|]. split; [exact H4|].
      split; [intros H; apply H5 in H as [_ H]; congruence|rewrite E; congruence].
  - replace (store cfg t v p) with (set_prop t v p) by (destruct t; try reflexivity; congruence).
    destruct (set_prop_lists t v p) as [U S].
    split; [|rewrite U, S, set_prop_subid by assumption; auto 6].
    intros t' v' H. apply (set_prop_get _ _ p HK N1) in H as [[-> ->]|H]; [auto|]. now apply H1.
Qed.

(* a loop with enough fuel does not depend on the fuel *)
Lemma aloop_fuel cfg : forall f f' p total n s, all_bytes s -> (length s < f)%nat -> (length s < f')%nat ->
  aread_props_loop f cfg p total n s = aread_props_loop f' cfg p total n s.
Proof.
  induction f as [|f IH]; intros f' p total n s Hs H1 H2; [lia|]. destruct f' as [|f']; [lia|].
  cbn [aread_props_loop]. pose proof (good_ptype s Hs) as G. unfold good_at in G.
  destruct (aread_ptype s) as [t c r|e| |c]; cbn [abind]; try reflexivity.
  destruct G as ((c0 & -> & L) & _ & _). apply all_bytes_app in Hs as [_ Hr].
  destruct (negb (declares cfg t)); [reflexivity|]. destruct (adup t p); [reflexivity|].
  pose proof (good_val (kind_of t) r Hr) as G. unfold good_at in G.
  destruct (aread_val (kind_of t) r) as [v c' r'|e| |c']; cbn [abind]; try reflexivity.
  destruct G as ((c1 & -> & L') & _ & _). apply all_bytes_app in Hr as [_ Hr'].
  destruct (total + c + c' =? n); [reflexivity|]. rewrite !app_length in *. apply IH; auto; lia.
Qed.
Definition aloop cfg p total n s := aread_props_loop (S (length s)) cfg p total n s.
Lemma aloop_eq cfg p total n s : all_bytes s ->
  aloop cfg p total n s =
  aw* (t, c, r) := aread_ptype s in
  if negb (declares cfg t) then AErr (UnexpectedProperty t TPubRel)
  else if adup t p then AErr (DuplicateProperty (adup_report t))
  else
    aw* (v, c', r') := aread_val (kind_of t) r in
    let p' := store cfg t v p in
    let total' := total + c + c' in
    if total' =? n then AOk p' total' r' else aloop cfg p' total' n r'.
Proof.
  intros Hs. unfold aloop at 1. cbn [aread_props_loop]. pose proof (good_ptype s Hs) as G. unfold good_at in G.
  destruct (aread_ptype s) as [t c r|e| |c]; cbn [abind]; try reflexivity.
  destruct G as ((c0 & -> & L) & _ & _). apply all_bytes_app in Hs as [_ Hr].
  destruct (negb (declares cfg t)); [reflexivity|]. destruct (adup t p); [reflexivity|].
  pose proof (good_val (kind_of t) r Hr) as G. unfold good_at in G.
  destruct (aread_val (kind_of t) r) as [v c' r'|e| |c']; cbn [abind]; try reflexivity.
  destruct G as ((c1 & -> & L') & _ & _). apply all_bytes_app in Hr as [_ Hr'].
  cbv zeta. destruct (total + c + c' =? n); [reflexivity|]. rewrite !app_length in *.
  unfold aloop. apply aloop_fuel; auto; lia.
Qed.

(* goodness at one input only looks at the extensions of that input *)
Lemma good_at_ext {A} k (P : A -> Prop) f g s : all_bytes s -> (forall t, all_bytes t -> f t = g t) -> good_at k P f s -> good_at k P g s.
Proof.
  intros Hs E HF. unfold good_at in *. rewrite <- E by assumption. destruct (f s); auto.
  - destruct HF as (H1 & H2 & H3). repeat split; auto. intros t Ht. rewrite <- E; auto. apply all_bytes_app; auto.
  - intros t Ht. rewrite <- E; auto. apply all_bytes_app; auto.
Qed.
Lemma good_at_weaken {A} k k' (P Q : A -> Prop) f s : good_at k P f s -> (k' <= k)%nat -> (forall a, P a -> Q a) -> good_at k' Q f s.
Proof.
  intros HF HK HPQ. unfold good_at in *. destruct (f s); auto.
  destruct HF as ((c & E & L) & Pa & St). repeat split; auto. exists c. split; [assumption|lia].
Qed.

Lemma good_aloop cfg n : forall m p total s, (length s <= m)%nat -> all_bytes s -> props_ok cfg p ->
  good_at 2 (props_ok cfg) (aloop cfg p total n) s.
Proof.
  induction m as [|m IH]; intros p total s Hm Hs HP.
  - destruct s; [|cbn in Hm; lia]. exact I.
  - apply (good_at_ext _ _ (fun s => aw* (t, c, r) := aread_ptype s in
      if negb (declares cfg t) then AErr (UnexpectedProperty t TPubRel)
      else if adup t p then AErr (DuplicateProperty (adup_report t))
      else
        aw* (v, c', r') := aread_val (kind_of t) r in
        let p' := store cfg t v p in
        let total' := total + c + c' in
        if total' =? n then AOk p' total' r' else aloop cfg p' total' n r')); [assumption|intros; symmetry; now apply aloop_eq|].
    apply (good_at_bind 1 1 (fun _ => True)); [now apply good_ptype|].
    intros t c r c0 -> L0 _. apply all_bytes_app in Hs as [_ Hr].
    destruct (declares cfg t) eqn:HD; cbn [negb]; [|now apply good_err].
    destruct (adup t p); [now apply good_err|].
    apply good_at_weaken with (k := (1 + 0)%nat) (P := props_ok cfg); [|lia|auto].
    apply (good_at_bind 1 0 (kv_ok (kind_of t))); [now apply good_val|].
    intros v c' r' c1 -> L1 Hv. apply all_bytes_app in Hr as [_ Hr']. cbv zeta.
    pose proof (store_ok cfg t v p HP HD Hv) as HP'.
    destruct (total + c + c' =? n); [now apply good_ret|].
    eapply good_at_weaken; [apply IH|lia|auto]; auto. rewrite !app_length in Hm. lia.
Qed.
Lemma good_props cfg : good 1 (props_ok cfg) (aread_props cfg).
Proof.
  unfold aread_props. eapply good_weaken with (k := (1 + 0)%nat); [|lia|intros a H; exact H].
  gbind; [apply good_varint|]. intros n l _. destruct (n =? 0); [apply good_ret, no_props_ok|].
  eapply good_weaken with (k := (2 + 0)%nat); [|lia|intros a H; exact H].
  intros s Hs. apply (good_at_bind 2 0 (props_ok cfg)).
  - apply (good_aloop cfg n (length s)); auto. apply no_props_ok.
  - intros p total r c -> _ HP. apply all_bytes_app in Hs as [_ Hr]. now apply good_ret.
Qed.

(* ---- stream readers of the packets ---- *)

Lemma cflags_from_u8_cases v : (exists q, cflags_from_u8 v = Ok q) \/ (exists e, cflags_from_u8 v = Err e).
Proof. unfold cflags_from_u8. destruct (qos_from_u8_cases (N.shiftr (N.land v 24) 3)) as [[q ->]|[e ->]]; cbn; eauto. Qed.
Lemma sopts_from_u8_cases v : (exists q, sopts_from_u8 v = Ok q) \/ (exists e, sopts_from_u8 v = Err e).
Proof.
  unfold sopts_from_u8. destruct (rh_from_u8 _) eqn:E; cbn; eauto.
  - destruct (qos_from_u8_cases (N.land v 3)) as [[q ->]|[e ->]]; cbn; eauto.
  - exfalso. revert E. unfold rh_from_u8. destruct (_ =? 0); [discriminate|]. destruct (_ =? 1); [discriminate|]. destruct (_ =? 2); discriminate.
Qed.

Ltac one k0 := eapply good_weaken with (k := k0); [|lia|intros ? H; exact H].

Lemma good_protocol : good 1 (fun _ => True) aread_protocol_version.
Proof.
  unfold aread_protocol_version. one (1 + 0)%nat. gbind; [apply good_u8|]. intros v n _.
  destruct (v =? 5); [now apply good_ret|]. destruct (v =? 4); [apply good_err|]. destruct (v =? 3); apply good_err.
Qed.
Lemma good_cflags : good 1 (fun _ => True) aread_cflags.
Proof.
  unfold aread_cflags. one (1 + 0)%nat. gbind; [apply good_u8|]. intros v n _.
  destruct (cflags_from_u8_cases v) as [[q ->]|[e ->]]; [now apply good_ret|apply good_err].
Qed.
Lemma good_sopts : good 1 (fun _ => True) aread_sopts.
Proof.
  unfold aread_sopts. one (1 + 0)%nat. gbind; [apply good_u8|]. intros v n _.
  destruct (sopts_from_u8_cases v) as [[q ->]|[e ->]]; [now apply good_ret|apply good_err].
Qed.
Lemma good_will q rt : good 0 will_ok (aread_will q rt).
Proof.
  unfold aread_will. one (1 + (2 + (2 + 0)))%nat.
  gbind; [apply good_props|]. intros p n1 HP. gbind; [apply good_str|]. intros t n2 HT.
  gbind; [apply good_bin|]. intros d n3 HD. apply good_ret. split; [exact HP|split; [exact HT|exact HD]].
Qed.
Lemma good_opt_str b : good 0 (opt_ok str_ok) (aread_opt_str b).
Proof.
  unfold aread_opt_str. destruct b; [|now apply good_ret]. one (2 + 0)%nat.
  gbind; [apply good_str|]. intros x n Hx. now apply good_ret.
Qed.
Lemma good_connect : good 0 (fun c => packet_ok (PConnect c)) aread_connect.
Proof.
  unfold aread_connect. one (0 + (1 + (1 + (2 + (1 + (2 + (0 + (0 + (0 + 0)))))))))%nat.
  gbind; [eapply good_weaken; [apply good_exact|lia|intros ? H; exact H]|]. intros name n0 _.
  destruct (negb (bytes_eqb name ([0; 4] ++ mqtt_name))); [apply good_err|].
  gbind; [apply good_protocol|]. intros _ n1 _.
  gbind; [apply good_cflags|]. intros f n2 _. gbind; [apply good_u16|]. intros ka n3 HK.
  gbind; [apply good_props|]. intros p n4 HP. gbind; [apply good_str|]. intros cid n5 HC.
  gbind.
  { instantiate (1 := opt_ok will_ok). destruct (cf_will f); [|now apply good_ret]. one (0 + 0)%nat.
    gbind; [apply good_will|]. intros w n Hw. now apply good_ret. }
  intros w n6 HW. gbind; [apply good_opt_str|]. intros u n7 HU. gbind; [apply good_opt_str|]. intros pw n8 HPw.
  apply good_ret. cbn. repeat (split; [assumption|]). assumption.
Qed.
Lemma good_connack : good 0 (fun c => packet_ok (PConnAck c)) aread_connack.
Proof.
  unfold aread_connack, aread_caflags. one (1 + (1 + (1 + 0)))%nat.
  gbind. { one (1 + 0)%nat. gbind; [apply good_u8|]. intros v n _. now apply good_ret with (P := fun _ => True). }
  intros f n1 _. gbind; [apply good_rc|]. intros c n2 HC. gbind; [apply good_props|]. intros p n3 HP.
  apply good_ret. split; assumption.
Qed.
Lemma good_publish flags rem : good 0 (fun p => packet_ok (PPublish p)) (aread_publish flags rem).
Proof.
  unfold aread_publish. destruct (qos_from_u8_cases (N.shiftr (N.land flags 6) 1)) as [[q ->]|[e ->]]; [|apply good_err].
  one (2 + (0 + (1 + 0)))%nat.
  gbind; [apply good_str|]. intros t n1 HT.
  gbind. { instantiate (1 := fun o => opt_ok (fun i => i < 65536) o /\ (o = None <-> q = AtMostOnce)).
    destruct q; cbn [qos_eqb].
    - apply good_ret. split; [exact I|tauto].
    - one (2 + 0)%nat. gbind; [apply good_u16|]. intros i n Hi. apply good_ret. split; [assumption|split; discriminate].
    - one (2 + 0)%nat. gbind; [apply good_u16|]. intros i n Hi. apply good_ret. split; [assumption|split; discriminate]. }
  intros o n2 (HO & HQ). gbind; [apply good_props|]. intros p n3 HP. cbv zeta.
  destruct (rem <? n1 + n2 + n3); [apply good_err|]. one (0 + 0)%nat.
  gbind; [eapply good_weaken; [apply good_exact|lia|intros ? H; exact H]|]. intros d n4 (HD & _).
  apply good_ret. split; [assumption|]. split; [assumption|]. split; [assumption|]. split; assumption.
Qed.

Ltac gack := apply good_ret; split; [assumption|]; split; [first [assumption|now left]|first [assumption|apply no_props_ok]].
Lemma good_puback rem : good 0 (ack_ok puback_codes puback_cfg) (aread_puback rem).
Proof.
  unfold aread_puback. destruct (rem <? 2); [apply good_err|]. one (2 + 0)%nat.
  gbind; [apply good_u16|]. intros i n Hi. destruct (rem =? 2); [gack|]. one (1 + (0 + 0))%nat.
  gbind; [apply good_rc|]. intros c n2 HC. gbind; [instantiate (1 := props_ok puback_cfg)|].
  - destruct (rem =? 3); [apply good_ret, no_props_ok|]. eapply good_weaken; [apply good_props|lia|auto].
  - intros p n3 HP. gack.
Qed.
Lemma good_pubrec rem : good 0 (ack_ok pubrec_codes pubrec_cfg) (aread_pubrec rem).
Proof.
  unfold aread_pubrec. one (2 + 0)%nat.
  gbind; [apply good_u16|]. intros i n Hi. destruct (rem =? 2); [gack|]. one (1 + (1 + 0))%nat.
  gbind; [apply good_rc|]. intros c n2 HC. gbind; [apply good_props|]. intros p n3 HP. gack.
Qed.
Lemma good_pubrel rem : good 0 (ack_ok pubrel_codes pubrel_cfg) (aread_pubrel rem).
Proof.
  unfold aread_pubrel. one (2 + 0)%nat.
  gbind; [apply good_u16|]. intros i n Hi. destruct (rem =? 2); [gack|]. one (1 + 0)%nat.
  gbind; [apply good_rc|]. intros c n2 HC. destruct (rem =? 3); [gack|]. one (1 + 0)%nat.
  gbind; [apply good_props|]. intros p n3 HP. gack.
Qed.
Lemma good_pubcomp rem : good 0 (ack_ok pubcomp_codes pubcomp_cfg) (aread_pubcomp rem).
Proof.
  unfold aread_pubcomp. one (2 + 0)%nat.
  gbind; [apply good_u16|]. intros i n Hi. destruct (rem =? 2); [gack|]. destruct (rem <? 4); [apply good_err|]. one (1 + (1 + 0))%nat.
  gbind; [apply good_rc|]. intros c n2 HC. gbind; [apply good_props|]. intros p n3 HP. cbv zeta.
  destruct (negb _); [apply good_err|]. gack.
Qed.


Lemma asub_fuel rem : forall f f' total s, all_bytes s -> (length s < f)%nat -> (length s < f')%nat ->
  aread_sub_topics f rem total s = aread_sub_topics f' rem total s.
Proof.
  induction f as [|f IH]; intros f' total s Hs H1 H2; [lia|]. destruct f' as [|f']; [lia|]. cbn [aread_sub_topics].
  pose proof (good_str s Hs) as G. unfold good_at in G. destruct (aread_str s) as [t c r|e| |c]; cbn [abind]; try reflexivity.
  destruct G as ((c0 & -> & L) & _ & _). apply all_bytes_app in Hs as [_ Hr].
  pose proof (good_sopts r Hr) as G. unfold good_at in G. destruct (aread_sopts r) as [o c' r'|e| |c']; cbn [abind]; try reflexivity.
  destruct G as ((c1 & -> & L') & _ & _). apply all_bytes_app in Hr as [_ Hr'].
  cbv zeta. destruct (_ <=? rem); [reflexivity|]. rewrite !app_length in *. rewrite (IH f'); auto; lia.
Qed.
Definition topic_ok (t : bytes * sopts) : Prop := str_ok (fst t).
Definition asub rem total s := aread_sub_topics (S (length s)) rem total s.
Lemma asub_eq rem total s : all_bytes s -> asub rem total s =
  aw* (t, n1, s) := aread_str s in
  aw* (o, n2, s) := aread_sopts s in
  let total := total + (n1 + n2) in
  if total <=? rem then AOk [(t, o)] total s
  else aw* (l, total', s) := asub rem total s in AOk ((t, o) :: l) total' s.
Proof.
  intros Hs. unfold asub at 1. cbn [aread_sub_topics].
  pose proof (good_str s Hs) as G. unfold good_at in G. destruct (aread_str s) as [t c r|e| |c]; cbn [abind]; try reflexivity.
  destruct G as ((c0 & -> & L) & _ & _). apply all_bytes_app in Hs as [_ Hr].
  pose proof (good_sopts r Hr) as G. unfold good_at in G. destruct (aread_sopts r) as [o c' r'|e| |c']; cbn [abind]; try reflexivity.
  destruct G as ((c1 & -> & L') & _ & _). apply all_bytes_app in Hr as [_ Hr'].
  cbv zeta. destruct (_ <=? rem); [reflexivity|]. rewrite !app_length in *. unfold asub.
  rewrite (asub_fuel rem (length c0 + (length c1 + length r')) (S (length r'))); auto; lia.
Qed.
Lemma good_at_bind' {A B} k k' j (P : A -> Prop) (Q : B -> Prop) f g s :
  good_at k P f s ->
  (forall a n r c, s = c ++ r -> (k <= length c)%nat -> P a -> good_at k' Q (g a n) r) ->
  (j <= k + k')%nat -> good_at j Q (fun s => abind (f s) g) s.
Proof. intros. eapply good_at_weaken; [eapply good_at_bind; eassumption|assumption|auto]. Qed.

Lemma good_asub rem : forall m total s, (length s <= m)%nat -> all_bytes s ->
  good_at 1 (fun l => Forall topic_ok l /\ l <> []) (asub rem total) s.
Proof.
  induction m as [|m IH]; intros total s Hm Hs.
  - destruct s; [|cbn in Hm; lia]. exact I.
  - eapply good_at_ext; [assumption|intros t Ht; symmetry; apply asub_eq; assumption|].
    eapply (good_at_bind' 2 0); [now apply good_str| |lia]. cbv beta.
    intros t n1 r c0 -> L0 Ht. apply all_bytes_app in Hs as [_ Hr].
    eapply (good_at_bind' 1 0); [now apply good_sopts| |lia]. cbv beta.
    intros o n2 r' c1 -> L1 _. apply all_bytes_app in Hr as [_ Hr']. cbv zeta.
    destruct (_ <=? rem).
    + apply good_ret; [|assumption]. split; [constructor; [assumption|constructor]|discriminate].
    + eapply (good_at_bind' 1 0); [apply IH; [rewrite !app_length in Hm; lia|assumption]| |lia]. cbv beta.
      intros l tt' r'' c2 -> _ [Hl _]. apply all_bytes_app in Hr' as [_ Hr'']. apply good_ret; [|assumption].
      split; [constructor; assumption|discriminate].
Qed.
Lemma good_subscribe rem : good 0 (fun x => packet_ok (PSubscribe x)) (aread_subscribe rem).
Proof.
  unfold aread_subscribe. one (2 + (1 + (1 + 0)))%nat.
  gbind; [apply good_u16|]. intros i n1 Hi. gbind; [apply good_props|]. intros p n2 HP.
  gbind; [intros s Hs; apply (good_asub rem (length s)); auto|]. intros l n3 [HL HN].
  apply good_ret. split; [assumption|]. split; [assumption|]. split; assumption.
Qed.

Lemma aunsub_fuel rem : forall f f' total s, all_bytes s -> (length s < f)%nat -> (length s < f')%nat ->
  aread_unsub_topics f rem total s = aread_unsub_topics f' rem total s.
Proof.
  induction f as [|f IH]; intros f' total s Hs H1 H2; [lia|]. destruct f' as [|f']; [lia|]. cbn [aread_unsub_topics].
  pose proof (good_str s Hs) as G. unfold good_at in G. destruct (aread_str s) as [t c r|e| |c]; cbn [abind]; try reflexivity.
  destruct G as ((c0 & -> & L) & _ & _). apply all_bytes_app in Hs as [_ Hr].
  cbv zeta. destruct (rem <=? _); [reflexivity|]. rewrite !app_length in *. rewrite (IH f'); auto; lia.
Qed.
Definition aunsub rem total s := aread_unsub_topics (S (length s)) rem total s.
Lemma aunsub_eq rem total s : all_bytes s -> aunsub rem total s =
  aw* (t, n1, s) := aread_str s in
  let total := total + n1 in
  if rem <=? total then AOk [t] total s
  else aw* (l, total', s) := aunsub rem total s in AOk (t :: l) total' s.
Proof.
  intros Hs. unfold aunsub at 1. cbn [aread_unsub_topics].
  pose proof (good_str s Hs) as G. unfold good_at in G. destruct (aread_str s) as [t c r|e| |c]; cbn [abind]; try reflexivity.
  destruct G as ((c0 & -> & L) & _ & _). apply all_bytes_app in Hs as [_ Hr].
  cbv zeta. destruct (rem <=? _); [reflexivity|]. rewrite !app_length in *. unfold aunsub.
  rewrite (aunsub_fuel rem (length c0 + length r) (S (length r))); auto; lia.
Qed.
Lemma good_aunsub rem : forall m total s, (length s <= m)%nat -> all_bytes s ->
  good_at 1 (fun l => Forall str_ok l /\ l <> []) (aunsub rem total) s.
Proof.
  induction m as [|m IH]; intros total s Hm Hs.
  - destruct s; [|cbn in Hm; lia]. exact I.
  - eapply good_at_ext; [assumption|intros t Ht; symmetry; apply aunsub_eq; assumption|].
    eapply (good_at_bind' 2 0); [now apply good_str| |lia]. cbv beta.
    intros t n1 r c0 -> L0 Ht. apply all_bytes_app in Hs as [_ Hr]. cbv zeta.
    destruct (rem <=? _).
    + apply good_ret; [|assumption]. split; [constructor; [assumption|constructor]|discriminate].
    + eapply (good_at_bind' 1 0); [apply IH; [rewrite !app_length in Hm; lia|assumption]| |lia]. cbv beta.
      intros l tt' r'' c2 -> _ [Hl _]. apply all_bytes_app in Hr as [_ Hr'']. apply good_ret; [|assumption].
      split; [constructor; assumption|discriminate].
Qed.
Lemma good_unsubscribe rem : good 0 (fun x => packet_ok (PUnsubscribe x)) (aread_unsubscribe rem).
Proof.
  unfold aread_unsubscribe. one (2 + (1 + (1 + 0)))%nat.
  gbind; [apply good_u16|]. intros i n1 Hi. gbind; [apply good_props|]. intros p n2 HP.
  gbind; [intros s Hs; apply (good_aunsub rem (length s)); auto|]. intros l n3 [HL HN].
  apply good_ret. split; [assumption|]. split; [assumption|]. split; assumption.
Qed.

(* the two loops over reason codes differ in their exit test *)
Fixpoint acodes_gen (stop : N -> bool) (fuel : nat) (tbl : list rc) (total : N) (s : bytes) : ares (list rc) :=
  match fuel with
  | O => ACrash OutOfFuel
  | S fuel' =>
      if stop total then AOk [] total s
      else
        aw* (c, n, s) := aread_rc tbl s in
        aw* (l, total', s) := acodes_gen stop fuel' tbl (total + n) s in
        AOk (c :: l) total' s
  end.
Lemma acodes_eq_gen tbl rem : forall f total s, aread_codes_eq f tbl rem total s = acodes_gen (N.eqb rem) f tbl total s.
Proof.
  induction f as [|f IH]; intros total s; cbn; [reflexivity|]. destruct (rem =? total); [reflexivity|].
  destruct (aread_rc tbl s); cbn [abind]; try reflexivity. now rewrite IH.
Qed.
Lemma acodes_ge_gen tbl rem : forall f total s, aread_codes_ge f tbl rem total s = acodes_gen (N.leb rem) f tbl total s.
Proof.
  induction f as [|f IH]; intros total s; cbn; [reflexivity|]. destruct (rem <=? total); [reflexivity|].
  destruct (aread_rc tbl s); cbn [abind]; try reflexivity. now rewrite IH.
Qed.
Lemma acodes_fuel stop tbl : forall f f' total s, all_bytes s -> (length s < f)%nat -> (length s < f')%nat ->
  acodes_gen stop f tbl total s = acodes_gen stop f' tbl total s.
Proof.
  induction f as [|f IH]; intros f' total s Hs H1 H2; [lia|]. destruct f' as [|f']; [lia|]. cbn [acodes_gen].
  destruct (stop total); [reflexivity|].
  pose proof (good_rc tbl s Hs) as G. unfold good_at in G. destruct (aread_rc tbl s) as [t c r|e| |c]; cbn [abind]; try reflexivity.
  destruct G as ((c0 & -> & L) & _ & _). apply all_bytes_app in Hs as [_ Hr].
  rewrite !app_length in *. rewrite (IH f'); auto; lia.
Qed.
Definition acodes stop tbl total s := acodes_gen stop (S (length s)) tbl total s.
Lemma acodes_eq stop tbl total s : all_bytes s -> acodes stop tbl total s =
  if stop total then AOk [] total s
  else
    aw* (c, n, s) := aread_rc tbl s in
    aw* (l, total', s) := acodes stop tbl (total + n) s in
    AOk (c :: l) total' s.
Proof.
  intros Hs. unfold acodes at 1. cbn [acodes_gen]. destruct (stop total); [reflexivity|].
  pose proof (good_rc tbl s Hs) as G. unfold good_at in G. destruct (aread_rc tbl s) as [t c r|e| |c]; cbn [abind]; try reflexivity.
  destruct G as ((c0 & -> & L) & _ & _). apply all_bytes_app in Hs as [_ Hr].
  rewrite !app_length in *. unfold acodes.
  rewrite (acodes_fuel stop tbl (length c0 + length r) (S (length r))); auto; lia.
Qed.
Lemma good_acodes stop tbl : forall m total s, (length s <= m)%nat -> all_bytes s ->
  good_at 0 (Forall (code_ok tbl)) (acodes stop tbl total) s.
Proof.
  induction m as [|m IH]; intros total s Hm Hs.
  - eapply good_at_ext; [assumption|intros t Ht; symmetry; apply acodes_eq; assumption|].
    destruct (stop total); [now apply good_ret|].
    destruct s; [|cbn in Hm; lia]. exact I.
  - eapply good_at_ext; [assumption|intros t Ht; symmetry; apply acodes_eq; assumption|].
    destruct (stop total); [now apply good_ret|].
    eapply (good_at_bind' 1 0); [now apply good_rc| |lia]. cbv beta.
    intros t n1 r c0 -> L0 Ht. apply all_bytes_app in Hs as [_ Hr].
    eapply (good_at_bind' 0 0); [apply IH; [rewrite !app_length in Hm; lia|assumption]| |lia]. cbv beta.
    intros l tt' r'' c2 -> _ Hl. apply all_bytes_app in Hr as [_ Hr'']. apply good_ret; [|assumption].
    constructor; assumption.
Qed.
Lemma good_suback rem : good 0 (suback_ok suback_codes suback_cfg) (aread_suback rem).
Proof.
  unfold aread_suback. one (2 + (1 + (0 + 0)))%nat.
  gbind; [apply good_u16|]. intros i n1 Hi. gbind; [apply good_props|]. intros p n2 HP.
  gbind. { eapply good_ext; [intros s; symmetry; apply acodes_eq_gen|]. intros s Hs; apply (good_acodes _ _ (length s)); auto. }
  intros l n3 HL. apply good_ret. split; [assumption|]. split; assumption.
Qed.
Lemma good_unsuback rem : good 0 (suback_ok unsuback_codes unsuback_cfg) (aread_unsuback rem).
Proof.
  unfold aread_unsuback. one (2 + (1 + (0 + 0)))%nat.
  gbind; [apply good_u16|]. intros i n1 Hi. gbind; [apply good_props|]. intros p n2 HP.
  gbind. { eapply good_ext; [intros s; symmetry; apply acodes_ge_gen|]. intros s Hs; apply (good_acodes _ _ (length s)); auto. }
  intros l n3 HL. apply good_ret. split; [assumption|]. split; assumption.
Qed.
Lemma good_disconnect rem : good 0 (fun d => packet_ok (PDisconnect d)) (aread_disconnect rem).
Proof.
  unfold aread_disconnect. destruct (rem =? 0).
  - apply good_ret. split; [now left|apply no_props_ok].
  - one (1 + (1 + 0))%nat. gbind; [apply good_rc|]. intros c n HC. gbind; [apply good_props|]. intros p n' HP.
    apply good_ret. split; assumption.
Qed.
Lemma good_auth : good 0 (fun d => packet_ok (PAuth d)) aread_auth.
Proof.
  unfold aread_auth.
  one (1 + (1 + 0))%nat. gbind; [apply good_rc|]. intros c n HC. gbind; [apply good_props|]. intros p n' HP.
  apply good_ret. split; assumption.
Qed.

Lemma good_body h : good 0 packet_ok (aread_body h).
Proof.
  unfold aread_body. destruct (fh_type h);
    try (apply good_ret; exact I);
    (eapply good_amap; [|intros a Ha; exact Ha]).
  - apply good_connect.
  - apply good_connack.
  - apply good_publish.
  - apply good_puback.
  - apply good_pubrec.
  - apply good_pubrel.
  - apply good_pubcomp.
  - apply good_subscribe.
  - apply good_suback.
  - apply good_unsubscribe.
  - apply good_unsuback.
  - apply good_disconnect.
  - apply good_auth.
Qed.
Lemma from_first_byte_cases v : (exists q, from_first_byte v = Ok q) \/ (exists e, from_first_byte v = Err e).
Proof.
  unfold from_first_byte.
  repeat match goal with |- context [if ?b then _ else _] => destruct b; eauto end.
Qed.
Lemma good_fixed_header : good 2 (fun h => fh_rem h <= MAXVAR) aread_fixed_header.
Proof.
  unfold aread_fixed_header. one (1 + 1)%nat. gbind; [apply good_u8|]. intros v n _.
  destruct (from_first_byte_cases v) as [[[t fl] ->]|[e ->]]; [|apply good_err].
  one (1 + 0)%nat. gbind; [apply good_varint|]. intros rem l HR. now apply good_ret.
Qed.
Lemma good_packet : good 2 packet_ok aread_packet.
Proof.
  unfold aread_packet. one (2 + 0)%nat. gbind; [apply good_fixed_header|]. intros h n _. apply good_body.
Qed.
