(* Lemmas about the session state against the ledger *)
From Coq Require Import Permutation Sorted.
From Verif Require Import Base VarInt Prims Props Codes Packets Options Session Client System SpecSession.

(* ---- sorted sets ---------------------------------------------------------------------------- *)
Definition sorted (l : list N) : Prop := StronglySorted N.lt l.

Lemma sorted_nodup l : sorted l -> NoDup l.
Proof.
  induction 1 as [|a l HS IH HF]; constructor; [|assumption].
  intros HI. rewrite Forall_forall in HF. specialize (HF _ HI). lia.
Qed.
Lemma insert_in x l y : In y (fst (set_insert x l)) <-> y = x \/ In y l.
Proof.
  induction l as [|z l IH]; cbn [set_insert].
  - cbn. intuition.
  - destruct (N.ltb_spec x z); [cbn; intuition|]. destruct (N.eqb_spec x z).
    + cbn. subst. intuition.
    + destruct (set_insert x l) as [r b]. cbn [fst In] in *. rewrite IH. intuition.
Qed.
Lemma insert_flag x l : sorted l -> snd (set_insert x l) = negb (existsb (N.eqb x) l).
Proof.
  induction 1 as [|a l HS IH HF]; cbn [set_insert existsb]; [reflexivity|].
  destruct (N.ltb_spec x a).
  - destruct (N.eqb_spec x a); [lia|]. cbn [snd orb]. symmetry. apply negb_true_iff.
    apply Bool.not_true_is_false. intros E. apply existsb_exists in E as (y & Hy & E).
    rewrite Forall_forall in HF. specialize (HF _ Hy). lia.
  - destruct (N.eqb_spec x a); [reflexivity|]. destruct (set_insert x l) as [r b]. cbn [snd orb] in *. exact IH.
Qed.
Lemma insert_sorted x l : sorted l -> sorted (fst (set_insert x l)).
Proof.
  induction 1 as [|a l HS IH HF]; cbn [set_insert].
  - constructor; [constructor|constructor].
  - destruct (N.ltb_spec x a).
    + constructor; [constructor; assumption|]. constructor; [assumption|].
      eapply Forall_impl; [|exact HF]. cbn. lia.
    + destruct (N.eqb_spec x a); [constructor; assumption|].
      pose proof (fun y => insert_in x l y) as HI.
      destruct (set_insert x l) as [r b]. cbn [fst] in *. constructor; [exact IH|].
      apply Forall_forall. intros y Hy. apply HI in Hy as [->|Hy]; [lia|].
      rewrite Forall_forall in HF. exact (HF y Hy).
Qed.
Lemma remove_absent x l : ~ In x l -> set_remove x l = (l, false).
Proof.
  induction l as [|z l IH]; cbn [set_remove]; [reflexivity|]. intros H.
  destruct (N.eqb_spec x z); [subst; cbn in H; tauto|]. rewrite IH by (cbn in H; tauto). reflexivity.
Qed.
Lemma filter_all {A} (f : A -> bool) l : (forall x, In x l -> f x = true) -> filter f l = l.
Proof.
  induction l as [|a l IH]; cbn [filter]; intros H; [reflexivity|].
  rewrite (H a) by now left. f_equal. apply IH. intros x Hx. apply H. now right.
Qed.
Lemma filter_none {A} (f : A -> bool) l : (forall x, In x l -> f x = false) -> filter f l = [].
Proof.
  induction l as [|a l IH]; cbn [filter]; intros H; [reflexivity|].
  rewrite (H a) by now left. apply IH. intros x Hx. apply H. now right.
Qed.
Lemma remove_nodup x l : NoDup l -> fst (set_remove x l) = filter (fun y => negb (x =? y)) l.
Proof.
  induction 1 as [|a l HA HN IH]; cbn [set_remove filter]; [reflexivity|].
  destruct (N.eqb_spec x a); cbn [negb].
  - subst. cbn [fst]. symmetry. apply filter_all. intros y Hy.
    destruct (N.eqb_spec a y); [subst; tauto|reflexivity].
  - destruct (set_remove x l). cbn [fst] in *. now rewrite IH.
Qed.
Lemma remove_flag x l : snd (set_remove x l) = existsb (N.eqb x) l.
Proof.
  induction l as [|z l IH]; cbn [set_remove existsb]; [reflexivity|].
  destruct (N.eqb_spec x z); [reflexivity|]. destruct (set_remove x l). cbn [snd orb] in *. exact IH.
Qed.
Lemma filter_sorted f l : sorted l -> sorted (filter f l).
Proof.
  induction 1 as [|a l HS IH HF]; cbn [filter]; [constructor|]. destruct (f a); [|exact IH].
  constructor; [exact IH|]. apply Forall_forall. intros y Hy. apply filter_In in Hy as [Hy _].
  rewrite Forall_forall in HF. exact (HF y Hy).
Qed.
Lemma existsb_in x l : existsb (N.eqb x) l = true <-> In x l.
Proof.
  rewrite existsb_exists. split; [intros (y & Hy & E); apply N.eqb_eq in E; now subst|].
  intros H. exists x. now rewrite N.eqb_refl.
Qed.
Lemma existsb_not_in x l : existsb (N.eqb x) l = false <-> ~ In x l.
Proof. rewrite <- existsb_in. destruct (existsb (N.eqb x) l); intuition congruence. Qed.

(* ---- vector entries ------------------------------------------------------------------------- *)
Lemma vec_at_none {A} (i : nat) (v : A) l : vec_at i v l = None <-> (length l <= i)%nat.
Proof.
  revert i. induction l as [|y l IH]; intros [|i]; cbn [vec_at length]; try (split; [lia|reflexivity]).
  - split; [discriminate|lia].
  - specialize (IH i). destruct (vec_at i v l) as [[old r]|]; [split; [discriminate|]|split; [intros _; apply le_n_S; now apply IH|reflexivity]].
    intros H. apply le_S_n, IH in H. discriminate.
Qed.
Lemma vec_at_some {A} (i : nat) (v : A) l old r : vec_at i v l = Some (old, r) ->
  nth_error l i = Some old /\ length r = length l /\ forall j, nth_error r j = if Nat.eqb j i then Some v else nth_error l j.
Proof.
  revert i old r. induction l as [|y l IH]; intros [|i] old r; cbn [vec_at]; intros H; try discriminate.
  - injection H as <- <-. split; [reflexivity|]. split; [reflexivity|]. intros [|j]; reflexivity.
  - destruct (vec_at i v l) as [[o r']|] eqn:E; [|discriminate]. injection H as <- <-.
    destruct (IH _ _ _ E) as (A1 & A2 & A3). split; [exact A1|]. split; [cbn; now rewrite A2|].
    intros [|j]; [reflexivity|]. cbn. apply A3.
Qed.
Lemma vec_at_same {A} (i : nat) (l : list A) x : nth_error l i = Some x -> vec_at i x l = Some (x, l).
Proof.
  revert i. induction l as [|y l IH]; intros [|i]; cbn [vec_at nth_error]; intros H; try discriminate.
  - now injection H as <-.
  - now rewrite (IH _ H).
Qed.

Definition slot (v : list (option publish)) (i : N) : option publish :=
  if i =? 0 then None else match nth_error v (N.to_nat (i - 1)) with Some o => o | None => None end.

Lemma slot_set v i x old r : i <> 0 -> vec_at (N.to_nat (i - 1)) x v = Some (old, r) ->
  slot v i = old /\ length r = length v /\ forall j, slot r j = if j =? i then x else slot v j.
Proof.
  intros Hi H. apply vec_at_some in H as (A1 & A2 & A3). unfold slot. destruct (N.eqb_spec i 0); [contradiction|].
  rewrite A1. split; [reflexivity|]. split; [exact A2|]. intros j. destruct (N.eqb_spec j 0).
  - subst. destruct (N.eqb_spec 0 i); [congruence|reflexivity].
  - rewrite A3. destruct (Nat.eqb_spec (N.to_nat (j - 1)) (N.to_nat (i - 1))) as [E|E]; destruct (N.eqb_spec j i) as [F|F]; try reflexivity; exfalso; lia.
Qed.
Lemma slot_repeat n i : slot (repeat None n) i = None.
Proof.
  unfold slot. destruct (i =? 0); [reflexivity|]. destruct (nth_error (repeat None n) (N.to_nat (i - 1))) eqn:E; [|reflexivity].
  apply nth_error_In, repeat_spec in E. exact E.
Qed.

(* ---- lists of requests ---------------------------------------------------------------------- *)
Definition pubs (l : list packet) : list publish :=
  flat_map (fun p => match p with PPublish x => [x] | _ => [] end) l.
Definition subs (l : list packet) : list N :=
  flat_map (fun p => match p with PSubscribe x => [sb_id x] | _ => [] end) l.
Definition unsubs (l : list packet) : list N :=
  flat_map (fun p => match p with PUnsubscribe x => [ub_id x] | _ => [] end) l.
Definition pid (x : publish) : N := match pb_pkid x with Some i => i | None => 0 end.

(* requests that have an identifier *)
Definition identified (p : packet) : Prop := req_id p <> None.

Lemma pubs_cons p l : pubs (p :: l) = pubs [p] ++ pubs l.
Proof. exact (flat_map_app _ [p] l). Qed.
Lemma subs_cons p l : subs (p :: l) = subs [p] ++ subs l.
Proof. exact (flat_map_app _ [p] l). Qed.
Lemma unsubs_cons p l : unsubs (p :: l) = unsubs [p] ++ unsubs l.
Proof. exact (flat_map_app _ [p] l). Qed.
Lemma in_pubs x l : In x (pubs l) <-> In (PPublish x) l.
Proof.
  unfold pubs. rewrite in_flat_map. split.
  - intros (p & Hp & Hx). destruct p; cbn in Hx; try contradiction. destruct Hx as [->|[]]. exact Hp.
  - intros H. exists (PPublish x). split; [exact H|now left].
Qed.
Lemma in_subs i l : In i (subs l) <-> exists x, In (PSubscribe x) l /\ sb_id x = i.
Proof.
  unfold subs. rewrite in_flat_map. split.
  - intros (p & Hp & Hx). destruct p; cbn in Hx; try contradiction. destruct Hx as [<-|[]]. eauto.
  - intros (x & H & <-). exists (PSubscribe x). split; [exact H|now left].
Qed.
Lemma in_unsubs i l : In i (unsubs l) <-> exists x, In (PUnsubscribe x) l /\ ub_id x = i.
Proof.
  unfold unsubs. rewrite in_flat_map. split.
  - intros (p & Hp & Hx). destruct p; cbn in Hx; try contradiction. destruct Hx as [<-|[]]. eauto.
  - intros (x & H & <-). exists (PUnsubscribe x). split; [exact H|now left].
Qed.
Lemma in_req_ids i l : In i (req_ids l) <-> exists p, In p l /\ req_id p = Some i.
Proof.
  unfold req_ids. rewrite in_flat_map. split; intros (p & Hp & H); exists p; (split; [exact Hp|]).
  - destruct (req_id p); cbn in H; [destruct H as [->|[]]; reflexivity|contradiction].
  - rewrite H. now left.
Qed.
Lemma req_ids_app a b : req_ids (a ++ b) = req_ids a ++ req_ids b.
Proof. apply flat_map_app. Qed.
Lemma req_ids_split f l : Permutation (req_ids l) (req_ids (filter f l) ++ req_ids (filter (fun p => negb (f p)) l)).
Proof.
  induction l as [|p l IH]; cbn [filter]; [reflexivity|]. cbn [req_ids flat_map].
  destruct (f p); cbn [negb req_ids flat_map]; fold req_ids.
  - rewrite <- app_assoc. now apply Permutation_app_head.
  - etransitivity; [apply Permutation_app_head, IH|]. unfold req_ids.
    rewrite !app_assoc. apply Permutation_app_tail. apply Permutation_app_comm.
Qed.
Lemma req_ids_kinds l : Forall identified l -> Permutation (req_ids l) (subs l ++ unsubs l ++ map pid (pubs l)).
Proof.
  induction 1 as [|p l HP HL IH]; [reflexivity|]. unfold identified in HP.
  change (req_ids (p :: l)) with (opt_list (req_id p) ++ req_ids l).
  rewrite (subs_cons p l). rewrite (unsubs_cons p l).
  rewrite (pubs_cons p l). rewrite map_app.
  destruct p; cbn [req_id opt_list subs unsubs pubs flat_map map app] in *; try congruence.
  - unfold pid at 1. destruct (pb_pkid p); [|congruence]. cbn [opt_list app map].
    etransitivity; [apply perm_skip, IH|]. rewrite !app_assoc. apply Permutation_cons_app. reflexivity.
  - now apply perm_skip.
  - etransitivity; [apply perm_skip, IH|]. now apply Permutation_cons_app.
Qed.

Lemma pubs_filter_pub l : pubs (filter is_pub l) = pubs l.
Proof.
  induction l as [|p l IH]; [reflexivity|]. rewrite (pubs_cons p l), <- IH. cbn [filter].
  destruct p; cbn [is_pub]; reflexivity.
Qed.
Lemma subs_filter_pub l : subs (filter is_pub l) = [].
Proof. induction l as [|[] l IH]; cbn [filter is_pub subs flat_map app]; auto. Qed.
Lemma unsubs_filter_pub l : unsubs (filter is_pub l) = [].
Proof. induction l as [|[] l IH]; cbn [filter is_pub unsubs flat_map app]; auto. Qed.

(* ---- the relation between session state and ledger ------------------------------------------- *)
Record R (rmax : N) (st : state) (sent : list packet) (rel : list N) : Prop := {
  r_len : length (st_pub st) = N.to_nat rmax;
  r_order : st_order st = map pid (pubs sent);
  r_slot : forall i x, slot (st_pub st) i = Some x <-> In x (pubs sent) /\ pb_pkid x = Some i;
  r_sub : sorted (st_sub st) /\ forall i, In i (st_sub st) <-> In i (subs sent);
  r_unsub : sorted (st_unsub st) /\ forall i, In i (st_unsub st) <-> In i (unsubs sent);
  r_rel : sorted (st_rel st) /\ forall i, In i (st_rel st) <-> In i rel }.

(* what the ledger guarantees: distinct non-zero identifiers *)
Definition fine (sent : list packet) (rel : list N) : Prop :=
  Forall identified sent /\ NoDup (req_ids sent ++ rel) /\ Forall (fun i => 1 <= i) (req_ids sent ++ rel).

Lemma fine_nodup sent rel : fine sent rel -> NoDup (req_ids sent) /\ NoDup rel.
Proof.
  intros (_ & H & _). split.
  - clear - H. induction (req_ids sent) as [|a l IH]; [constructor|]. inversion H; subst.
    constructor; [intros X; apply H2, in_or_app; now left|now apply IH].
  - clear - H. induction (req_ids sent) as [|a l IH]; [exact H|]. inversion H; subst. now apply IH.
Qed.
Lemma nodup_parts sent : Forall identified sent -> NoDup (req_ids sent) ->
  NoDup (subs sent) /\ NoDup (unsubs sent) /\ NoDup (map pid (pubs sent)).
Proof.
  intros HI HN. apply (Permutation_NoDup (req_ids_kinds _ HI)) in HN.
  assert (forall (A : Type) (a b : list A), NoDup (a ++ b) -> NoDup a /\ NoDup b) as SP.
  { intros A a b. induction a as [|x a IH]; cbn; intros H; [split; [constructor|exact H]|].
    inversion H; subst. destruct (IH H3). split; [constructor; [|assumption]|assumption].
    intros X. apply H2, in_or_app. now left. }
  apply SP in HN as [A HN]. apply SP in HN as [B C]. auto.
Qed.
Lemma same_id_same sent p q : NoDup (req_ids sent) -> In p sent -> In q sent -> req_id p <> None -> req_id p = req_id q -> p = q.
Proof.
  intros HN HP HQ HI HE. induction sent as [|r sent IH]; [contradiction|].
  change (req_ids (r :: sent)) with (opt_list (req_id r) ++ req_ids sent) in HN.
  assert (NoDup (req_ids sent)) as HN'. { destruct (req_id r); cbn in HN; [now inversion HN|exact HN]. }
  destruct HP as [->|HP], HQ as [->|HQ]; try reflexivity.
  - exfalso. destruct (req_id p) as [i|] eqn:E; [|congruence]. cbn in HN. inversion HN; subst.
    apply H1, in_req_ids. exists q. now rewrite <- HE.
  - exfalso. rewrite HE in HI. destruct (req_id q) as [i|] eqn:E; [|congruence]. cbn in HN. inversion HN; subst.
    apply H1, in_req_ids. exists p. now rewrite HE.
  - now apply IH.
Qed.

(* removing a publish by identifier *)
Definition drop_pub (i : N) (l : list packet) : list packet := filter (fun p => negb (is_pub p && has_id i p)) l.

Lemma has_id_spec i p : has_id i p = true <-> req_id p = Some i.
Proof.
  unfold has_id. destruct (req_id p) as [j|]; [|split; discriminate].
  destruct (N.eqb_spec i j); split; intros; congruence.
Qed.
Lemma pubs_drop i l : Forall identified l -> map pid (pubs (drop_pub i l)) = filter (fun j => negb (i =? j)) (map pid (pubs l)).
Proof.
  induction 1 as [|p l HP HL IH]; [reflexivity|]. unfold drop_pub in *. cbn [filter].
  rewrite (pubs_cons p l). rewrite map_app, filter_app, <- IH.
  destruct p; cbn [is_pub andb negb pubs flat_map app map filter]; try reflexivity.
  unfold identified in HP. cbn [req_id] in HP. unfold has_id. cbn [req_id].
  destruct (pb_pkid p) as [j|] eqn:E; [|congruence].
  assert (pid p = j) as -> by (unfold pid; now rewrite E).
  destruct (i =? j); cbn [negb flat_map app map]; [reflexivity|].
  rewrite pubs_cons. cbn [pubs flat_map app map].
  assert (pid p = j) as -> by (unfold pid; now rewrite E). reflexivity.
Qed.
Lemma subs_drop i l : subs (drop_pub i l) = subs l.
Proof.
  induction l as [|p l IH]; [reflexivity|]. unfold drop_pub in *. cbn [filter].
  rewrite (subs_cons p l). rewrite <- IH.
  destruct p; cbn [is_pub andb negb]; try reflexivity. destruct (has_id i (PPublish p)); reflexivity.
Qed.
Lemma unsubs_drop i l : unsubs (drop_pub i l) = unsubs l.
Proof.
  induction l as [|p l IH]; [reflexivity|]. unfold drop_pub in *. cbn [filter].
  rewrite (unsubs_cons p l). rewrite <- IH.
  destruct p; cbn [is_pub andb negb]; try reflexivity. destruct (has_id i (PPublish p)); reflexivity.
Qed.

Lemma order_in rmax st sent rel i : R rmax st sent rel -> Forall identified sent ->
  (In i (st_order st) <-> slot (st_pub st) i <> None).
Proof.
  intros HR HI. rewrite (r_order _ _ _ _ HR). split.
  - intros H. apply in_map_iff in H as (x & <- & Hx). pose proof (proj1 (in_pubs _ _) Hx) as Hp.
    rewrite Forall_forall in HI. specialize (HI _ Hp). unfold identified in HI. cbn in HI. unfold pid.
    destruct (pb_pkid x) as [j|] eqn:E; [|congruence].
    rewrite (proj2 (r_slot _ _ _ _ HR j x)); [discriminate|split; assumption].
  - intros H. destruct (slot (st_pub st) i) as [x|] eqn:E; [|congruence]. apply (r_slot _ _ _ _ HR) in E as [A B].
    apply in_map_iff. exists x. unfold pid. rewrite B. auto.
Qed.

(* the state with another publish table and queue *)
Definition with_pub (v : list (option publish)) (o : list N) (st : state) : state :=
  State (st_pool st) (st_sub st) (st_unsub st) v o (st_rel st) (st_in st).

Definition found (i : N) (sent : list packet) : bool := existsb (fun p => is_pub p && has_id i p) sent.

Lemma found_slot rmax st sent rel i : R rmax st sent rel -> (found i sent = is_some (slot (st_pub st) i)).
Proof.
  intros HR. unfold found. apply eq_true_iff_eq. rewrite existsb_exists. split.
  - intros (p & Hp & H). apply andb_true_iff in H as [H1 H2]. destruct p; try discriminate H1.
    apply has_id_spec in H2. cbn in H2. rewrite (proj2 (r_slot _ _ _ _ HR i p)); [reflexivity|].
    split; [now apply in_pubs|exact H2].
  - intros H. destruct (slot (st_pub st) i) as [x|] eqn:E; [|discriminate]. apply (r_slot _ _ _ _ HR) in E as [A B].
    exists (PPublish x). split; [now apply in_pubs|]. cbn [is_pub andb]. apply has_id_spec. exact B.
Qed.

Lemma remove_pub_spec rmax st sent rel i : R rmax st sent rel -> fine sent rel ->
  if (i =? 0) || (rmax <? i) then remove_outgoing_pub i st = (st, HPanic)
  else if found i sent
  then exists st' x, remove_outgoing_pub i st = (st', HOk (Some x)) /\ st_pool st' = st_pool st /\ st_in st' = st_in st /\ R rmax st' (drop_pub i sent) rel
  else remove_outgoing_pub i st = (st, HOk None).
Proof.
  intros HR HF. pose proof (found_slot _ _ _ _ i HR) as FS.
  pose proof (order_in _ _ _ _ i HR (proj1 HF)) as OI.
  destruct (fine_nodup _ _ HF) as [HN _]. destruct HF as (HI & _ & _).
  destruct (nodup_parts _ HI HN) as (_ & _ & NP).
  pose proof (r_len _ _ _ _ HR) as RL.
  assert (st = State (st_pool st) (st_sub st) (st_unsub st) (st_pub st) (st_order st) (st_rel st) (st_in st)) as ES by now destruct st.
  unfold remove_outgoing_pub. cbn [st_pub st_pool st_sub st_unsub st_order st_rel st_in].
  destruct (N.eqb_spec i 0) as [Z|Z]; cbn [orb].
  { assert (slot (st_pub st) i = None) as SN by (unfold slot; subst; reflexivity).
    rewrite remove_absent by (rewrite OI, SN; tauto). cbn [fst]. now rewrite <- ES. }
  destruct (N.ltb_spec rmax i) as [B|B].
  { assert (nth_error (st_pub st) (N.to_nat (i - 1)) = None) as NE by (apply nth_error_None; lia).
    assert (slot (st_pub st) i = None) as SN. { unfold slot. destruct (i =? 0); [reflexivity|]. now rewrite NE. }
    rewrite remove_absent by (rewrite OI, SN; tauto). cbn [fst]. rewrite <- ES.
    rewrite (proj2 (vec_at_none _ None (st_pub st))); [reflexivity|]. lia. }
  destruct (vec_at (N.to_nat (i - 1)) None (st_pub st)) as [[old v]|] eqn:EV.
  2:{ apply vec_at_none in EV. lia. }
  destruct (slot_set _ _ _ _ _ Z EV) as (S1 & S2 & S3).
  rewrite FS, S1. destruct old as [x|]; cbn [is_some].
  - exists (State (st_pool st) (st_sub st) (st_unsub st) v (fst (set_remove i (st_order st))) (st_rel st) (st_in st)), x.
    split; [reflexivity|]. cbn [st_pool st_in]. split; [reflexivity|]. split; [reflexivity|].
    constructor; cbn [st_pub st_order st_sub st_unsub st_rel].
    + now rewrite S2.
    + rewrite (r_order _ _ _ _ HR), pubs_drop by exact HI. now apply remove_nodup.
    + intros j y. rewrite S3. rewrite in_pubs. unfold drop_pub. rewrite filter_In, <- in_pubs. cbn [is_pub andb].
      destruct (N.eqb_spec j i) as [->|NE].
      * split; [discriminate|]. intros [[_ H] E]. apply negb_true_iff in H.
        rewrite (proj2 (has_id_spec i (PPublish y)) E) in H. discriminate.
      * rewrite (r_slot _ _ _ _ HR). split; intros H; [|tauto]. destruct H as [H1 H2]. split; [|exact H2]. split; [exact H1|].
        unfold has_id. cbn [req_id]. rewrite H2. destruct (N.eqb_spec i j); [congruence|reflexivity].
    + rewrite subs_drop. apply (r_sub _ _ _ _ HR).
    + rewrite unsubs_drop. apply (r_unsub _ _ _ _ HR).
    + apply (r_rel _ _ _ _ HR).
  - rewrite remove_absent by (rewrite OI, S1; tauto). cbn [fst].
    assert (nth_error (st_pub st) (N.to_nat (i - 1)) = Some None) as NE.
    { apply vec_at_some in EV. tauto. }
    rewrite (vec_at_same _ _ _ NE) in EV. injection EV as <-. now rewrite <- ES.
Qed.

(* ---- acknowledgements ------------------------------------------------------------------------ *)
Definition pool_add (l : list N) (st : state) : state :=
  set_pool (Pool (pl_ids (st_pool st) ++ l) (pl_cap (st_pool st)) (pl_open (st_pool st))) st.
Definition room (l : list N) (st : state) : Prop := len (pl_ids (st_pool st)) + len l <= pl_cap (st_pool st).

Lemma R_pool rmax st sent rel p : R rmax st sent rel -> R rmax (set_pool p st) sent rel.
Proof. intros [A B C D E F]. constructor; assumption. Qed.

Lemma mark_spec i st : room [i] st ->
  mark_available i st = if pl_open (st_pool st) then (pool_add [i] st, HOk tt) else (st, HErr (PacketIdChannelError i)).
Proof.
  intros HR. unfold mark_available. destruct (pl_open (st_pool st)) eqn:E; cbn [negb]; [|reflexivity].
  unfold room in HR. cbn [len length] in HR. change (len [i]) with 1 in HR.
  destruct (N.leb_spec (pl_cap (st_pool st)) (len (pl_ids (st_pool st)))); [lia|].
  unfold pool_add, set_pool. now rewrite E.
Qed.
Lemma len_app2 {A} (a b : list A) : len (a ++ b) = len a + len b.
Proof. unfold len. rewrite app_length. lia. Qed.
Lemma mark_all_spec l st : room l st ->
  make_all_available l st =
    if pl_open (st_pool st) then (pool_add l st, HOk tt)
    else match l with [] => (st, HOk tt) | i :: _ => (st, HErr (PacketIdChannelError i)) end.
Proof.
  revert st. induction l as [|i l IH]; intros st HR; cbn [make_all_available].
  - unfold ret. destruct (pl_open (st_pool st)) eqn:E; [|reflexivity]. unfold pool_add, set_pool. rewrite app_nil_r, E.
    destruct st as [[]]; cbn in *; now subst.
  - unfold mbind, make_pkid_available. rewrite mark_spec.
    2:{ unfold room in *. rewrite (app_comm_cons [] l i), len_app2 in HR || idtac. change (i :: l) with ([i] ++ l) in HR. rewrite len_app2 in HR. lia. }
    destruct (pl_open (st_pool st)) eqn:E; [|reflexivity].
    rewrite IH.
    + unfold pool_add, set_pool. cbn [st_pool pl_open pl_ids pl_cap st_sub st_unsub st_pub st_order st_rel st_in]. rewrite E.
      now rewrite <- app_assoc.
    + unfold room, pool_add, set_pool in *. cbn [st_pool pl_open pl_ids pl_cap]. rewrite len_app2.
      change (i :: l) with ([i] ++ l) in HR. rewrite len_app2 in HR. lia.
Qed.

Lemma filter_one {A} (f : A -> bool) l x : NoDup l -> In x l -> (forall y, In y l -> f y = true -> y = x) -> f x = true -> filter f l = [x].
Proof.
  induction l as [|a l IH]; intros HN HI HU HX; [contradiction|]. inversion HN; subst. cbn [filter].
  destruct (f a) eqn:E.
  - assert (a = x) as -> by (apply HU; [now left|exact E]). f_equal. apply filter_none. intros y Hy.
    destruct (f y) eqn:F; [|reflexivity]. exfalso. assert (y = x) as -> by (apply HU; [now right|exact F]). contradiction.
  - destruct HI as [->|HI]; [congruence|]. apply IH; auto. intros y Hy. apply HU. now right.
Qed.
Lemma nodup_sent sent : Forall identified sent -> NoDup (req_ids sent) -> NoDup sent.
Proof.
  induction 1 as [|p l HP HL IH]; intros HN; [constructor|]. change (req_ids (p :: l)) with (opt_list (req_id p) ++ req_ids l) in HN.
  unfold identified in HP. destruct (req_id p) as [i|] eqn:E; [|congruence]. cbn in HN. inversion HN; subst.
  constructor; [|now apply IH]. intros HI. apply H1, in_req_ids. eauto.
Qed.
(* the requests with a given identifier and of a given kind *)
Lemma filter_kind (k : packet -> bool) i sent : Forall identified sent -> NoDup (req_ids sent) ->
  req_ids (filter (fun p => k p && has_id i p) sent) = if existsb (fun p => k p && has_id i p) sent then [i] else [].
Proof.
  intros HI HN. destruct (existsb _ sent) eqn:E.
  - apply existsb_exists in E as (p & Hp & E).
    rewrite (filter_one _ _ p); [|now apply nodup_sent|exact Hp| |exact E].
    + apply andb_true_iff in E as [_ E]. apply has_id_spec in E. unfold req_ids. cbn [flat_map]. rewrite E. reflexivity.
    + intros q Hq F. apply andb_true_iff in E as [_ E], F as [_ F]. apply has_id_spec in E, F.
      apply (same_id_same sent); try assumption; congruence.
  - rewrite filter_none; [reflexivity|]. intros p Hp. destruct (k p && has_id i p) eqn:F; [|reflexivity].
    rewrite (proj2 (existsb_exists _ _)) in E; [discriminate|]. eauto.
Qed.

Definition is_sub (p : packet) : bool := match p with PSubscribe _ => true | _ => false end.
Definition is_unsub (p : packet) : bool := match p with PUnsubscribe _ => true | _ => false end.
Lemma answers_puback a p : answers (PPubAck a) p = is_pub p && has_id (ak_id a) p.
Proof. now destruct p. Qed.
Lemma answers_pubrec a p : answers (PPubRec a) p = is_pub p && has_id (ak_id a) p.
Proof. now destruct p. Qed.
Lemma answers_suback a p : answers (PSubAck a) p = is_sub p && has_id (sa_id a) p.
Proof. now destruct p. Qed.
Lemma answers_unsuback a p : answers (PUnsubAck a) p = is_unsub p && has_id (sa_id a) p.
Proof. now destruct p. Qed.
Lemma existsb_ext2 {A} (f g : A -> bool) l : (forall x, f x = g x) -> existsb f l = existsb g l.
Proof. intros H. induction l; cbn; [reflexivity|]. now rewrite H, IHl. Qed.

Lemma R_sub rmax st sent rel i : R rmax st sent rel -> NoDup (req_ids sent) ->
  R rmax (State (st_pool st) (fst (set_remove i (st_sub st))) (st_unsub st) (st_pub st) (st_order st) (st_rel st) (st_in st))
    (filter (fun p => negb (is_sub p && has_id i p)) sent) rel /\
  snd (set_remove i (st_sub st)) = existsb (fun p => is_sub p && has_id i p) sent.
Proof.
  intros HR HN. set (f := fun p => negb (is_sub p && has_id i p)).
  assert (pubs (filter f sent) = pubs sent) as EP.
  { clear. induction sent as [|p l IH]; [reflexivity|]. cbn [filter]. rewrite (pubs_cons p l), <- IH.
    unfold f at 1. destruct p; cbn [is_sub andb negb]; try reflexivity. destruct (has_id i _); reflexivity. }
  assert (unsubs (filter f sent) = unsubs sent) as EU.
  { clear. induction sent as [|p l IH]; [reflexivity|]. cbn [filter]. rewrite (unsubs_cons p l), <- IH.
    unfold f at 1. destruct p; cbn [is_sub andb negb]; try reflexivity. destruct (has_id i _); reflexivity. }
  assert (forall j, In j (subs (filter f sent)) <-> In j (subs sent) /\ j <> i) as ES.
  { intros j. rewrite !in_subs. split.
    - intros (x & Hx & <-). apply filter_In in Hx as [Hx F]. split; [eauto|]. unfold f in F. cbn [is_sub andb] in F.
      intros <-. rewrite (proj2 (has_id_spec _ _)) in F; [discriminate|reflexivity].
    - intros [(x & Hx & <-) Hj]. exists x. split; [|reflexivity]. apply filter_In. split; [exact Hx|]. unfold f. cbn [is_sub andb].
      destruct (has_id i (PSubscribe x)) eqn:E; [|reflexivity]. apply has_id_spec in E. cbn in E. congruence. }
  destruct HR as [A B C [D1 D2] E F]. split.
  - constructor; cbn [st_pub st_order st_sub st_unsub st_rel]; rewrite ?EP, ?EU; try assumption.
    rewrite remove_nodup by now apply sorted_nodup. split; [now apply filter_sorted|].
    intros j. rewrite filter_In, ES, D2. split; intros [X Y]; (split; [exact X|]).
    + destruct (N.eqb_spec i j); [discriminate|congruence].
    + destruct (N.eqb_spec i j); [congruence|reflexivity].
  - rewrite remove_flag. apply eq_true_iff_eq. rewrite existsb_in, D2, in_subs, existsb_exists. split.
    + intros (x & Hx & <-). exists (PSubscribe x). split; [exact Hx|]. cbn [is_sub andb]. now apply has_id_spec.
    + intros (p & Hp & G). apply andb_true_iff in G as [G1 G2]. destruct p; try discriminate G1.
      apply has_id_spec in G2. cbn in G2. injection G2 as G2. eauto.
Qed.
Lemma R_unsub rmax st sent rel i : R rmax st sent rel -> NoDup (req_ids sent) ->
  R rmax (State (st_pool st) (st_sub st) (fst (set_remove i (st_unsub st))) (st_pub st) (st_order st) (st_rel st) (st_in st))
    (filter (fun p => negb (is_unsub p && has_id i p)) sent) rel /\
  snd (set_remove i (st_unsub st)) = existsb (fun p => is_unsub p && has_id i p) sent.
Proof.
  intros HR HN. set (f := fun p => negb (is_unsub p && has_id i p)).
  assert (pubs (filter f sent) = pubs sent) as EP.
  { clear. induction sent as [|p l IH]; [reflexivity|]. cbn [filter]. rewrite (pubs_cons p l), <- IH.
    unfold f at 1. destruct p; cbn [is_unsub andb negb]; try reflexivity. destruct (has_id i _); reflexivity. }
  assert (subs (filter f sent) = subs sent) as EU.
  { clear. induction sent as [|p l IH]; [reflexivity|]. cbn [filter]. rewrite (subs_cons p l), <- IH.
    unfold f at 1. destruct p; cbn [is_unsub andb negb]; try reflexivity. destruct (has_id i _); reflexivity. }
  assert (forall j, In j (unsubs (filter f sent)) <-> In j (unsubs sent) /\ j <> i) as ES.
  { intros j. rewrite !in_unsubs. split.
    - intros (x & Hx & <-). apply filter_In in Hx as [Hx F]. split; [eauto|]. unfold f in F. cbn [is_unsub andb] in F.
      intros <-. rewrite (proj2 (has_id_spec _ _)) in F; [discriminate|reflexivity].
    - intros [(x & Hx & <-) Hj]. exists x. split; [|reflexivity]. apply filter_In. split; [exact Hx|]. unfold f. cbn [is_unsub andb].
      destruct (has_id i (PUnsubscribe x)) eqn:E; [|reflexivity]. apply has_id_spec in E. cbn in E. congruence. }
  destruct HR as [A B C D [E1 E2] F]. split.
  - constructor; cbn [st_pub st_order st_sub st_unsub st_rel]; rewrite ?EP, ?EU; try assumption.
    rewrite remove_nodup by now apply sorted_nodup. split; [now apply filter_sorted|].
    intros j. rewrite filter_In, ES, E2. split; intros [X Y]; (split; [exact X|]).
    + destruct (N.eqb_spec i j); [discriminate|congruence].
    + destruct (N.eqb_spec i j); [congruence|reflexivity].
  - rewrite remove_flag. apply eq_true_iff_eq. rewrite existsb_in, E2, in_unsubs, existsb_exists. split.
    + intros (x & Hx & <-). exists (PUnsubscribe x). split; [exact Hx|]. cbn [is_unsub andb]. now apply has_id_spec.
    + intros (p & Hp & G). apply andb_true_iff in G as [G1 G2]. destruct p; try discriminate G1.
      apply has_id_spec in G2. cbn in G2. injection G2 as G2. eauto.
Qed.
Lemma R_rel rmax st sent rel i : R rmax st sent rel ->
  R rmax (State (st_pool st) (st_sub st) (st_unsub st) (st_pub st) (st_order st) (fst (set_remove i (st_rel st))) (st_in st))
    sent (filter (fun j => negb (i =? j)) rel) /\
  snd (set_remove i (st_rel st)) = existsb (N.eqb i) rel.
Proof.
  intros [A B C D E [F1 F2]]. split.
  - constructor; cbn [st_pub st_order st_sub st_unsub st_rel]; try assumption.
    rewrite remove_nodup by now apply sorted_nodup. split; [now apply filter_sorted|].
    intros j. now rewrite !filter_In, F2.
  - rewrite remove_flag. apply eq_true_iff_eq. now rewrite !existsb_in, F2.
Qed.
Lemma R_rel_add rmax st sent rel i : R rmax st sent rel ->
  R rmax (State (st_pool st) (st_sub st) (st_unsub st) (st_pub st) (st_order st) (fst (set_insert i (st_rel st))) (st_in st))
    sent (rel ++ [i]).
Proof.
  intros [A B C D E [F1 F2]]. constructor; cbn [st_pub st_order st_sub st_unsub st_rel]; try assumption.
  split; [now apply insert_sorted|]. intros j. rewrite insert_in, F2, in_app_iff. cbn. intuition.
Qed.
Lemma R_in rmax st sent rel l : R rmax st sent rel ->
  R rmax (State (st_pool st) (st_sub st) (st_unsub st) (st_pub st) (st_order st) (st_rel st) l) sent rel.
Proof. intros [A B C D E F]. constructor; assumption. Qed.

(* acknowledgements that make the client panic *)
Definition bad_ack (rmax : N) (p : packet) : bool :=
  match p with
  | PPubAck a | PPubRec a => (ak_id a =? 0) || (rmax <? ak_id a)
  | _ => false
  end.
Lemma filter_neg_none {A} (f : A -> bool) l : existsb f l = false -> filter (fun x => negb (f x)) l = l.
Proof.
  intros H. apply filter_all. intros x Hx. destruct (f x) eqn:E; [|reflexivity].
  rewrite (proj2 (existsb_exists f l)) in H; [discriminate|eauto].
Qed.

Lemma found_false rmax st sent rel i : R rmax st sent rel -> (i = 0 \/ rmax < i) -> found i sent = false.
Proof.
  intros HR Hi. rewrite (found_slot _ _ _ _ i HR). unfold slot. destruct (N.eqb_spec i 0); [reflexivity|].
  destruct Hi as [Hi|Hi]; [contradiction|]. pose proof (r_len _ _ _ _ HR).
  rewrite (proj2 (nth_error_None _ _)); [reflexivity|]. lia.
Qed.

Definition pool_after (cl : bool) (fr : list N) (p : pool) : pool :=
  if cl then Pool (pl_ids p ++ fr) (pl_cap p) (pl_open p) else p.
Lemma pool_after_nil cl p : pool_after cl [] p = p.
Proof. unfold pool_after. destruct cl, p; [now rewrite app_nil_r|reflexivity]. Qed.

Lemma room_one st g i : len (pl_ids (st_pool st)) + len (req_ids (lg_sent g) ++ lg_rel g) <= pl_cap (st_pool st) ->
  In i (req_ids (lg_sent g) ++ lg_rel g) -> room [i] st.
Proof.
  intros H HI. unfold room. change (len [i]) with 1.
  assert (1 <= len (req_ids (lg_sent g) ++ lg_rel g)); [|lia].
  destruct (req_ids (lg_sent g) ++ lg_rel g); [contradiction|]. unfold len. cbn [length]. lia.
Qed.

Lemma incoming_spec clean rmax st g p st' r :
  R rmax st (lg_sent g) (lg_rel g) -> fine (lg_sent g) (lg_rel g) -> pl_open (st_pool st) = lg_clients g ->
  len (pl_ids (st_pool st)) + len (req_ids (lg_sent g) ++ lg_rel g) <= pl_cap (st_pool st) ->
  handle_incoming_packet p st = (st', r) ->
  let g' := ledger_step clean g (ORead p) in
  if bad_ack rmax p then r = HPanic /\ st' = st /\ lg_sent g' = lg_sent g /\ lg_rel g' = lg_rel g
  else r <> HPanic /\ R rmax st' (lg_sent g') (lg_rel g') /\
       st_pool st' = pool_after (lg_clients g) (frees clean g (ORead p)) (st_pool st).
Proof.
  intros HR HF HO HL H. destruct g as [op se re lo cl ex er]. cbn [lg_sent lg_rel lg_clients] in *.
  pose proof (fine_nodup _ _ HF) as [HN HN2]. pose proof (proj1 HF) as HI.
  assert (forall k i, existsb (fun p => k p && has_id i p) se = true -> room [i] st) as RM.
  { intros k i E. apply (room_one st (Ledger op se re lo cl ex er) i HL). cbn [lg_sent lg_rel]. apply in_or_app. left.
    apply existsb_exists in E as (q & Hq & E). apply andb_true_iff in E as [_ E]. apply has_id_spec in E. apply in_req_ids. eauto. }
  destruct p as [c|c|x|a|a|a|a|s|s|u|u| | |d|d]; cbn [bad_ack];
    cbn [handle_incoming_packet ledger_step lg_sent lg_rel frees] in *.
  (* packets that are refused *)
  all: try (unfold fail in H; injection H as <- <-; cbn [answers]; rewrite pool_after_nil || idtac;
            rewrite filter_all by reflexivity; rewrite filter_none by reflexivity; cbn [req_ids flat_map]; rewrite ?pool_after_nil;
            split; [discriminate|split; [exact HR|reflexivity]]).
  - (* PUBLISH *)
    cbn [answers]. rewrite filter_all by reflexivity. rewrite filter_none by reflexivity. cbn [req_ids flat_map]. rewrite pool_after_nil.
    unfold handle_incoming_publish in H. destruct (pb_qos x); [injection H as <- <-|..].
    + split; [discriminate|]. now split.
    + destruct (pb_pkid x); injection H as <- <-; (split; [discriminate|now split]).
    + destruct (pb_pkid x) as [i|]; [|injection H as <- <-; split; [discriminate|now split]].
      unfold mbind, add_incoming_pub in H. destruct (set_insert i (st_in st)) as [l b]. injection H as <- <-.
      split; [discriminate|]. split; [now apply R_in|reflexivity].
  - (* PUBACK *)
    pose proof (remove_pub_spec _ _ _ _ (ak_id a) HR HF) as RS.
    unfold mbind at 1 in H. unfold handle_incoming_puback, mbind at 1 in H.
    rewrite (filter_ext _ _ (fun q => f_equal negb (answers_puback a q))). fold (drop_pub (ak_id a) se).
    rewrite (filter_ext _ _ (answers_puback a)).
    destruct ((ak_id a =? 0) || (rmax <? ak_id a)) eqn:EB.
    + rewrite RS in H. injection H as <- <-. split; [reflexivity|]. split; [reflexivity|]. split; [|reflexivity].
      apply filter_neg_none. apply (found_false _ _ _ _ (ak_id a) HR). lia.
    + rewrite filter_kind by assumption. fold (found (ak_id a) se). destruct (found (ak_id a) se) eqn:EF.
      * destruct RS as (st1 & y & E1 & E2 & E3 & E4). rewrite E1 in H. cbn [is_some] in H.
        unfold mbind, make_pkid_available in H. rewrite mark_spec in H.
        2:{ unfold room. rewrite E2. apply (RM _ _ EF). }
        rewrite E2, HO in H. destruct cl; injection H as <- <-.
        -- split; [discriminate|]. split; [now apply R_pool|]. unfold pool_add, set_pool, pool_after. cbn [st_pool]. now rewrite E2.
        -- split; [discriminate|]. split; [exact E4|]. unfold pool_after. exact E2.
      * rewrite RS in H. cbn [is_some] in H. injection H as <- <-. rewrite pool_after_nil. split; [discriminate|]. split; [|reflexivity].
        unfold drop_pub. rewrite filter_neg_none by exact EF. exact HR.
  - (* PUBREC *)
    pose proof (remove_pub_spec _ _ _ _ (ak_id a) HR HF) as RS.
    unfold mbind at 1 in H. unfold handle_incoming_pubrec, mbind at 1 in H.
    rewrite (filter_ext _ _ (fun q => f_equal negb (answers_pubrec a q))). fold (drop_pub (ak_id a) se).
    rewrite (existsb_ext2 _ _ _ (answers_pubrec a)). fold (found (ak_id a) se). rewrite pool_after_nil.
    destruct ((ak_id a =? 0) || (rmax <? ak_id a)) eqn:EB.
    + rewrite RS in H. injection H as <- <-. split; [reflexivity|]. split; [reflexivity|].
      rewrite (found_false _ _ _ _ (ak_id a) HR) by lia. cbn [andb]. rewrite app_nil_r. split; [|reflexivity].
      apply filter_neg_none. apply (found_false _ _ _ _ (ak_id a) HR). lia.
    + destruct (found (ak_id a) se) eqn:EF.
      * destruct RS as (st1 & y & E1 & E2 & E3 & E4). rewrite E1 in H. cbn [andb].
        destruct (ak_rc a); cbn [rec_accepts] in *; unfold mbind, add_outgoing_rel, ret in H;
          try (injection H as <- <-; rewrite app_nil_r; split; [discriminate|]; split; [exact E4|exact E2]);
          (pose proof (R_rel_add _ _ _ _ (ak_id a) E4) as RA; destruct (set_insert (ak_id a) (st_rel st1)); injection H as <- <-;
           split; [discriminate|]; split; [exact RA|exact E2]).
      * rewrite RS in H. injection H as <- <-. cbn [andb]. rewrite app_nil_r. split; [discriminate|]. split; [|reflexivity].
        unfold drop_pub. rewrite filter_neg_none by exact EF. exact HR.
  - (* PUBREL *)
    cbn [answers]. rewrite filter_all by reflexivity. rewrite filter_none by reflexivity. cbn [req_ids flat_map]. rewrite pool_after_nil.
    unfold mbind, handle_incoming_pubrel, mbind, remove_incoming_pub, ret in H.
    destruct (set_remove (ak_id a) (st_in st)) as [l b]. injection H as <- <-.
    split; [discriminate|]. split; [now apply R_in|reflexivity].
  - (* PUBCOMP *)
    pose proof (R_rel _ _ _ _ (ak_id a) HR) as [RR RF].
    unfold mbind at 1 in H. unfold handle_incoming_pubcomp, mbind at 1, remove_outgoing_rel in H.
    destruct (set_remove (ak_id a) (st_rel st)) as [l b] eqn:ES. cbn [fst snd] in RR, RF. subst b.
    destruct (existsb (N.eqb (ak_id a)) re) eqn:EF.
    + unfold mbind, make_pkid_available in H. rewrite mark_spec in H.
      2:{ apply (room_one st (Ledger op se re lo cl ex er) (ak_id a) HL). cbn [lg_sent lg_rel]. apply in_or_app. right. now apply existsb_in. }
      cbn [st_pool] in H. rewrite HO in H. destruct cl; injection H as <- <-.
      * split; [discriminate|]. split; [now apply R_pool|]. reflexivity.
      * split; [discriminate|]. split; [exact RR|reflexivity].
    + injection H as <- <-. rewrite pool_after_nil. split; [discriminate|]. split; [exact RR|reflexivity].
  - (* SUBACK *)
    pose proof (R_sub _ _ _ _ (sa_id s) HR HN) as [RR RF].
    unfold mbind at 1 in H. unfold handle_incoming_suback, mbind at 1, remove_outgoing_sub in H.
    destruct (set_remove (sa_id s) (st_sub st)) as [l b] eqn:ES. cbn [fst snd] in RR, RF. subst b.
    rewrite (filter_ext _ _ (fun q => f_equal negb (answers_suback s q))). rewrite (filter_ext _ _ (answers_suback s)).
    rewrite filter_kind by assumption.
    destruct (existsb (fun p => is_sub p && has_id (sa_id s) p) se) eqn:EF.
    + unfold mbind, make_pkid_available in H. rewrite mark_spec in H by exact (RM _ _ EF).
      cbn [st_pool] in H. rewrite HO in H. destruct cl; injection H as <- <-.
      * split; [discriminate|]. split; [now apply R_pool|]. reflexivity.
      * split; [discriminate|]. split; [exact RR|reflexivity].
    + injection H as <- <-. rewrite pool_after_nil. split; [discriminate|]. split; [exact RR|reflexivity].
  - (* UNSUBACK *)
    pose proof (R_unsub _ _ _ _ (sa_id u) HR HN) as [RR RF].
    unfold mbind at 1 in H. unfold handle_incoming_unsuback, mbind at 1, remove_outgoing_unsub in H.
    destruct (set_remove (sa_id u) (st_unsub st)) as [l b] eqn:ES. cbn [fst snd] in RR, RF. subst b.
    rewrite (filter_ext _ _ (fun q => f_equal negb (answers_unsuback u q))). rewrite (filter_ext _ _ (answers_unsuback u)).
    rewrite filter_kind by assumption.
    destruct (existsb (fun p => is_unsub p && has_id (sa_id u) p) se) eqn:EF.
    + unfold mbind, make_pkid_available in H. rewrite mark_spec in H by exact (RM _ _ EF).
      cbn [st_pool] in H. rewrite HO in H. destruct cl; injection H as <- <-.
      * split; [discriminate|]. split; [now apply R_pool|]. reflexivity.
      * split; [discriminate|]. split; [exact RR|reflexivity].
    + injection H as <- <-. rewrite pool_after_nil. split; [discriminate|]. split; [exact RR|reflexivity].
Qed.

(* ---- reconnect ------------------------------------------------------------------------------- *)
Lemma resend_spec v l : (forall x, In x l -> slot v (pid x) = Some x) ->
  resend v (map pid l) = Some (map (fun x => PPublish (set_dup x)) l).
Proof.
  induction l as [|x l IH]; intros H; cbn [map resend]; [reflexivity|].
  pose proof (H x (or_introl eq_refl)) as HX. unfold slot in HX. destruct (pid x =? 0); [discriminate|].
  destruct (nth_error v (N.to_nat (pid x - 1))) as [[y|]|]; try discriminate. injection HX as ->.
  rewrite IH; [reflexivity|]. intros z Hz. apply H. now right.
Qed.
Lemma dup_pubs l : map dup (filter is_pub l) = map (fun x => PPublish (set_dup x)) (pubs l).
Proof.
  induction l as [|p l IH]; [reflexivity|]. rewrite pubs_cons, map_app, <- IH. cbn [filter].
  destruct p; cbn [is_pub]; reflexivity.
Qed.
Lemma resend_R rmax st sent rel : R rmax st sent rel -> Forall identified sent ->
  resend (st_pub st) (st_order st) = Some (map dup (filter is_pub sent)).
Proof.
  intros HR HI. rewrite (r_order _ _ _ _ HR), dup_pubs. apply resend_spec. intros x Hx.
  apply (r_slot _ _ _ _ HR). split; [exact Hx|]. apply in_pubs in Hx. rewrite Forall_forall in HI. specialize (HI _ Hx).
  unfold identified in HI. cbn in HI. unfold pid. destruct (pb_pkid x); [reflexivity|congruence].
Qed.
Lemma set_perm (l l' : list N) : sorted l -> NoDup l' -> (forall i, In i l <-> In i l') -> Permutation l l'.
Proof. intros HS HN H. apply NoDup_Permutation; [now apply sorted_nodup|exact HN|exact H]. Qed.
Lemma nonpub_kinds l : Forall identified l -> Permutation (req_ids (filter (fun p => negb (is_pub p)) l)) (subs l ++ unsubs l).
Proof.
  induction 1 as [|p l HP HL IH]; [reflexivity|]. rewrite (subs_cons p l), (unsubs_cons p l). cbn [filter]. unfold identified in HP.
  destruct p; cbn [is_pub negb req_id subs unsubs flat_map app] in *; try congruence; try exact IH.
  - change (req_ids (?p :: ?l)) with (opt_list (req_id p) ++ req_ids l). cbn. now apply perm_skip.
  - change (req_ids (?p :: ?l)) with (opt_list (req_id p) ++ req_ids l). cbn.
    etransitivity; [apply perm_skip, IH|]. now apply Permutation_cons_app.
Qed.

Definition opened (st : state) : bool := pl_open (st_pool st).

Lemma connack_spec clean rmax st g a st' r :
  R rmax st (lg_sent g) (lg_rel g) -> fine (lg_sent g) (lg_rel g) -> pl_open (st_pool st) = lg_clients g ->
  len (pl_ids (st_pool st)) + len (req_ids (lg_sent g) ++ lg_rel g) <= pl_cap (st_pool st) ->
  ca_rc a = RSuccess ->
  handle_incoming_connack clean a st = (st', r) ->
  let o := OAnswer (PConnAck a) in
  let g' := ledger_step clean g o in
  R rmax st' (lg_sent g') (lg_rel g') /\ st_in st' = [] /\
  (exists fr, Permutation fr (frees clean g o) /\ st_pool st' = pool_after (lg_clients g) fr (st_pool st)) /\
  match r with
  | HOk re => exists rel', re = Some (lg_expect g' ++ map (fun i => PPubRel (Ack i RSuccess no_props)) rel') /\
                 Permutation rel' (lg_expect_rel g') /\ sorted rel'
  | HErr e => lg_clients g = false
  | HPanic => False
  end.
Proof.
  intros HR HF HO HL HC H. destruct g as [op se re lo cl ex er]. cbn [lg_sent lg_rel lg_clients] in *.
  pose proof (fine_nodup _ _ HF) as [HN HN2]. pose proof (proj1 HF) as HI.
  destruct (nodup_parts _ HI HN) as (NS & NU & NP).
  pose proof (r_sub _ _ _ _ HR) as [S1 S2]. pose proof (r_unsub _ _ _ _ HR) as [U1 U2]. pose proof (r_rel _ _ _ _ HR) as [L1 L2].
  pose proof (set_perm _ _ S1 NS S2) as PS. pose proof (set_perm _ _ U1 NU U2) as PU. pose proof (set_perm _ _ L1 HN2 L2) as PR.
  unfold handle_incoming_connack in H. cbn [ledger_step frees lg_sent]. rewrite HC in *.
  unfold mbind at 1, reset in H. destruct (ca_session_present a && negb clean).
  - rewrite (resend_R _ _ _ _ HR HI) in H. cbn [lg_sent lg_rel lg_expect lg_expect_rel].
    unfold mbind in H.
    set (st1 := State (st_pool st) [] [] (st_pub st) (st_order st) (st_rel st) []) in H.
    assert (R rmax st1 (filter is_pub se) re) as R1.
    { destruct HR as [A B C D E F]. constructor; cbn [st_pub st_order st_sub st_unsub st_rel st1]; rewrite ?pubs_filter_pub, ?subs_filter_pub, ?unsubs_filter_pub; auto.
      - split; [constructor|tauto]. - split; [constructor|tauto]. }
    assert (Permutation (st_sub st ++ st_unsub st) (req_ids (filter (fun p => negb (is_pub p)) se))) as PF.
    { rewrite nonpub_kinds by exact HI. now apply Permutation_app. }
    rewrite mark_all_spec in H.
    2:{ unfold room. cbn [st1 st_pool]. apply N.le_trans with (2 := HL). apply N.add_le_mono_l.
        unfold len at 1. rewrite (Permutation_length PF). rewrite len_app2. apply N.le_trans with (len (req_ids se)); [|lia].
        unfold len. rewrite (Permutation_length (req_ids_split is_pub se)), app_length. lia. }
    cbn [st1 st_pool] in H. rewrite HO in H. destruct cl.
    + injection H as <- <-. split; [now apply R_pool|]. split; [reflexivity|]. split.
      * exists (st_sub st ++ st_unsub st). split; [exact PF|reflexivity].
      * exists (st_rel st). auto.
    + assert (st' = st1) as -> by (destruct (st_sub st ++ st_unsub st); injection H as <- <-; reflexivity).
      split; [exact R1|]. split; [reflexivity|]. split.
      * exists (st_sub st ++ st_unsub st). split; [exact PF|reflexivity].
      * destruct (st_sub st ++ st_unsub st); injection H as <-; [|reflexivity]. exists (st_rel st). auto.
  - cbn [lg_sent lg_rel lg_expect lg_expect_rel]. unfold mbind in H.
    set (st1 := State (st_pool st) [] [] (repeat None (length (st_pub st))) [] [] []) in H.
    assert (R rmax st1 [] []) as R1.
    { constructor; cbn [st_pub st_order st_sub st_unsub st_rel st1 pubs subs unsubs flat_map map]; auto.
      - rewrite repeat_length. apply (r_len _ _ _ _ HR).
      - intros i x. rewrite slot_repeat. split; [discriminate|intros [[] _]].
      - split; [constructor|tauto]. - split; [constructor|tauto]. - split; [constructor|tauto]. }
    assert (Permutation (st_sub st ++ st_unsub st ++ st_order st) (req_ids se)) as PF.
    { rewrite req_ids_kinds by exact HI. rewrite (r_order _ _ _ _ HR). apply Permutation_app; [exact PS|].
      apply Permutation_app; [exact PU|reflexivity]. }
    rewrite mark_all_spec in H.
    2:{ unfold room. cbn [st1 st_pool]. apply N.le_trans with (2 := HL). apply N.add_le_mono_l.
        unfold len at 1. rewrite (Permutation_length PF). rewrite len_app2. fold (len (req_ids se)). lia. }
    cbn [st1 st_pool] in H. rewrite HO in H. destruct cl.
    + injection H as <- <-. split; [now apply R_pool|]. split; [reflexivity|]. split.
      * eexists. split; [exact PF|reflexivity].
      * exists []. split; [reflexivity|]. split; [reflexivity|constructor].
    + assert (st' = st1) as -> by (destruct (st_sub st ++ st_unsub st ++ st_order st); injection H as <- <-; reflexivity).
      split; [exact R1|]. split; [reflexivity|]. split.
      * eexists. split; [exact PF|reflexivity].
      * destruct (st_sub st ++ st_unsub st ++ st_order st); injection H as <-; [|reflexivity]. exists []. split; [reflexivity|]. split; [reflexivity|constructor].
Qed.

(* ---- requests --------------------------------------------------------------------------------- *)
(* packets a client call can build *)
Definition request_shape (p : packet) : Prop :=
  match p with
  | PPublish x => pb_pkid x = None <-> pb_qos x = AtMostOnce
  | PSubscribe _ | PUnsubscribe _ | PDisconnect _ => True
  | _ => False
  end.
Lemma build_shape c i : request_shape (build c i).
Proof. destruct c as [[]| | |]; cbn; try exact I; split; congruence. Qed.
Lemma build_id c i : req_id (build c i) = if needs_id c then Some i else None.
Proof. destruct c as [[]| | |]; reflexivity. Qed.

(* requests whose identifier has no place in the publish table *)
Definition bad_request (rmax : N) (p : packet) : bool :=
  match p with
  | PPublish x => match pb_pkid x with Some i => rmax <? i | None => false end
  | _ => false
  end.

Lemma pubs_snoc l p : pubs (l ++ [p]) = pubs l ++ pubs [p].
Proof. apply flat_map_app. Qed.
Lemma subs_snoc l p : subs (l ++ [p]) = subs l ++ subs [p].
Proof. apply flat_map_app. Qed.
Lemma unsubs_snoc l p : unsubs (l ++ [p]) = unsubs l ++ unsubs [p].
Proof. apply flat_map_app. Qed.

Lemma outgoing_spec rmax st sent rel p st' r :
  R rmax st sent rel -> request_shape p ->
  fine (if is_some (req_id p) then sent ++ [p] else sent) rel ->
  handle_outgoing_packet p st = (st', r) ->
  if bad_request rmax p then r = HPanic /\ st' = st
  else r = HOk tt /\ st_pool st' = st_pool st /\ st_in st' = st_in st /\ R rmax st' (if is_some (req_id p) then sent ++ [p] else sent) rel.
Proof.
  intros HR HS HF H. destruct p; cbn [request_shape] in HS; try contradiction;
    cbn [handle_outgoing_packet bad_request req_id is_some] in *.
  - (* publish *)
    unfold handle_outgoing_publish in H.
    destruct (pb_pkid p) as [i|] eqn:EI; cbn [is_some] in *.
    2:{ rewrite (proj1 HS eq_refl) in H. injection H as <- <-. auto. }
    assert (add_outgoing_pub i p st = (st', r)) as HA. { destruct (pb_qos p) eqn:EQ; [exfalso; destruct HS as [_ HS]; now specialize (HS eq_refl)|exact H|exact H]. }
    clear H. unfold add_outgoing_pub in HA.
    assert (1 <= i /\ ~ In i (req_ids sent)) as [I1 I2].
    { destruct HF as (_ & N1 & N2). rewrite req_ids_app in N1, N2. cbn [req_ids flat_map req_id] in N1, N2. rewrite EI in N1, N2. cbn [opt_list app] in N1, N2.
      split; [rewrite Forall_forall in N2; apply N2, in_or_app; left; apply in_or_app; right; now left|].
      rewrite <- app_assoc in N1. apply NoDup_remove_2 in N1. intros X. apply N1, in_or_app. now left. }
    destruct (N.eqb_spec i 0); [lia|]. destruct (N.ltb_spec rmax i).
    + assert (vec_at (N.to_nat (i - 1)) (Some p) (st_pub st) = None) as EV.
      { apply vec_at_none. pose proof (r_len _ _ _ _ HR). lia. }
      rewrite EV in HA. injection HA as <- <-. auto.
    + destruct (vec_at _ (Some p) (st_pub st)) as [[old v]|] eqn:EV.
      2:{ apply vec_at_none in EV. pose proof (r_len _ _ _ _ HR). lia. }
      destruct (slot_set _ _ _ _ _ n EV) as (S1 & S2 & S3).
      assert (old = None) as ->.
      { destruct old as [y|]; [|reflexivity]. exfalso. apply (r_slot _ _ _ _ HR) in S1 as [X Y]. apply I2, in_req_ids.
        exists (PPublish y). split; [now apply in_pubs|exact Y]. }
      cbn [is_some] in HA. injection HA as <- <-. split; [reflexivity|]. split; [reflexivity|]. split; [reflexivity|].
      destruct HR as [A B C D E F]. constructor; cbn [st_pub st_order st_sub st_unsub st_rel].
      * congruence.
      * rewrite B, pubs_snoc, map_app. cbn. unfold pid at 3. now rewrite EI.
      * intros j y. rewrite S3, pubs_snoc, in_app_iff. cbn [pubs flat_map app In].
        destruct (N.eqb_spec j i) as [->|NE].
        -- split.
           ++ intros X. injection X as <-. auto.
           ++ intros [[X|[->|[]]] Y]; [|reflexivity]. exfalso. apply I2, in_req_ids. exists (PPublish y). split; [now apply in_pubs|exact Y].
        -- rewrite C. split; intros [X Y]; (split; [|exact Y]); [auto|]. destruct X as [X|[->|[]]]; [exact X|congruence].
      * rewrite subs_snoc. cbn. now rewrite app_nil_r.
      * rewrite unsubs_snoc. cbn. now rewrite app_nil_r.
      * exact F.
  - (* subscribe *)
    unfold mbind, add_outgoing_sub in H. pose proof (insert_in (sb_id s) (st_sub st)) as II. pose proof (insert_sorted (sb_id s) (st_sub st)) as IS.
    destruct (set_insert (sb_id s) (st_sub st)) as [l b]. injection H as <- <-. cbn [fst] in *.
    split; [reflexivity|]. split; [reflexivity|]. split; [reflexivity|].
    destruct HR as [A B C [D1 D2] E F]. constructor; cbn [st_pub st_order st_sub st_unsub st_rel];
      rewrite ?pubs_snoc, ?subs_snoc, ?unsubs_snoc; cbn [pubs subs unsubs flat_map]; rewrite ?app_nil_r; auto.
    split; [now apply IS|]. intros i. rewrite II, D2, in_app_iff. cbn. intuition.
  - (* unsubscribe *)
    unfold mbind, add_outgoing_unsub in H. pose proof (insert_in (ub_id u) (st_unsub st)) as II. pose proof (insert_sorted (ub_id u) (st_unsub st)) as IS.
    destruct (set_insert (ub_id u) (st_unsub st)) as [l b]. injection H as <- <-. cbn [fst] in *.
    split; [reflexivity|]. split; [reflexivity|]. split; [reflexivity|].
    destruct HR as [A B C D [E1 E2] F]. constructor; cbn [st_pub st_order st_sub st_unsub st_rel];
      rewrite ?pubs_snoc, ?subs_snoc, ?unsubs_snoc; cbn [pubs subs unsubs flat_map]; rewrite ?app_nil_r; auto.
    split; [now apply IS|]. intros i. rewrite II, E2, in_app_iff. cbn. intuition.
  - injection H as <- <-. auto.
Qed.
