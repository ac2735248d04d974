(* C67: the client's part of the invariant. *)
From Coq Require Import Permutation.
From Verif Require Import Base VarInt Prims Props Codes Packets BaseFacts Options Session Client System SpecSession SpecNet SpecWorld SessionFacts SystemFacts AckFacts IdFacts WorldFacts.

Lemma todo_spoil l : todo_packets (spoil l) = todo_packets l.
Proof. unfold todo_packets, spoil. rewrite flat_map_concat_map, map_map, <- flat_map_concat_map. apply flat_map_ext. now intros []. Qed.
Lemma act_spoil l : existsb act_item (spoil l) = true -> existsb act_item l = true.
Proof. unfold spoil. intros H. apply existsb_exists in H as (x & H & E). apply in_map_iff in H as (y & <- & H). apply existsb_exists. exists y. split; [exact H|now destruct y]. Qed.

(* observations that concern no request *)
Definition quiet (o : out) : bool :=
  match o with
  | OBegin _ | ORefuse _ _ | OGiveUp _ | OWrite FromClient _ | OWriteFail FromClient _ | ORead _ | OAnswer _ => false
  | _ => true
  end.
Lemma quiet_ledger clean g o : quiet o = true ->
  lg_open (ledger_step clean g o) = lg_open g /\ lg_sent (ledger_step clean g o) = lg_sent g /\ lg_rel (ledger_step clean g o) = lg_rel g /\ lg_lost (ledger_step clean g o) = lg_lost g.
Proof. destruct g. destruct o as [| | | | | | | | | | | | | []| [] |]; intros H; try discriminate H; auto. Qed.
Lemma quiet_concerns i o : quiet o = true -> concerns i (Saw o) = false.
Proof. destruct o; try discriminate; reflexivity. Qed.

Lemma toks_not i p u td d : up_tok i p = false -> toks i (u ++ [p]) td d = toks i u td d.
Proof. intros H. rewrite toks_write. unfold toks. rewrite !filter_app. cbn [filter]. now rewrite H. Qed.
Lemma toks_todo i u td td' d : todo_packets td = todo_packets td' -> toks i u td d = toks i u td' d.
Proof. unfold toks. now intros ->. Qed.
Lemma toks_pop i u it p td td' d : (length (toks i u (it :: td) d) <= 1)%nat -> todo_packets [it] = [p] -> todo_packets td' = todo_packets td \/ todo_packets td' = [] ->
  forall b, toks i (push b p u) td' d = toks i u (it :: td) d \/ toks i (push b p u) td' d = [].
Proof.
  intros HL HP HT b. assert (todo_packets (it :: td) = p :: todo_packets td) as HE.
  { change (p :: todo_packets td) with ([p] ++ todo_packets td). rewrite <- HP. unfold todo_packets. cbn [flat_map]. now rewrite app_nil_r. }
  unfold toks in *. rewrite HE in *.
  assert (filter (up_tok i) (push b p u ++ todo_packets td') = filter (up_tok i) u ++ filter (up_tok i) (if b then [p] else []) ++ filter (up_tok i) (todo_packets td')) as ->.
  { unfold push. destruct b; rewrite ?filter_app; [now rewrite <- app_assoc|reflexivity]. }
  rewrite filter_app in *. cbn [filter] in *.
  assert (filter (up_tok i) (if b then [p] else []) = [] \/ filter (up_tok i) (if b then [p] else []) = if up_tok i p then [p] else []) as HB.
  { destruct b; cbn [filter]; destruct (up_tok i p); auto. }
  assert (filter (up_tok i) (todo_packets td') = filter (up_tok i) (todo_packets td) \/ filter (up_tok i) (todo_packets td') = []) as HC.
  { destruct HT as [->| ->]; auto. }
  destruct (filter (up_tok i) u); destruct (up_tok i p); destruct (filter (up_tok i) (todo_packets td)); destruct (filter (down_tok i) d);
    cbn [app length] in *; rewrite ?app_length in HL; cbn [length] in HL; try lia;
    destruct HB as [->| ->], HC as [->| ->]; cbn [app] in *; auto.
  all: try (rewrite app_nil_r in *); auto.
  all: destruct l; cbn in HL; try lia; auto.
Qed.

(* T' = T or T' = [] for quiet observations of the network task *)
Lemma quiet_toks c q o b f its inn w w' i : quiet o = true -> glob c q w -> (length (toks i (wd_up w) (n_todo q) (wd_down w)) <= 1)%nat ->
  nact c (n_led q) (n_open q) (n_phase q) (n_todo q) (n_in q) o b f its inn -> observed o w w' ->
  (toks i (wd_up w') its (wd_down w') = toks i (wd_up w) (n_todo q) (wd_down w) \/ toks i (wd_up w') its (wd_down w') = []) /\
  wd_rcv w' = wd_rcv w /\ wd_stale w' = wd_stale w /\ wd_log w' = wd_log w ++ [Saw o].
Proof.
  intros HQ HG HL HA HO. destruct q as [op ph td qi g]. cbn [n_led n_open n_phase n_todo n_in] in *.
  destruct HA; try discriminate HQ; inversion HO; subst; try contradiction; wcbn;
    (split; [|auto]); try (now left); try (left; apply toks_todo; reflexivity).
  - eapply toks_pop; [exact HL|reflexivity|now left].
  - eapply toks_pop; [exact HL|reflexivity|now right].
  - eapply toks_pop; [exact HL|reflexivity|now left].
  - eapply toks_pop; [exact HL|reflexivity|]. left. destruct (cf_rt c); [reflexivity|apply todo_spoil].
  - now right.
  - left. destruct v; cbn [push]; [now apply toks_not|reflexivity].
  - left. rewrite (toks_todo _ _ [INoConnect] [] _) by reflexivity. destruct (v && arrives); cbn [push]; [now apply toks_not|reflexivity].
  - left. destruct v; cbn [push]; [now apply toks_not|reflexivity].
  - left. rewrite (toks_todo _ _ [IFail] [] _) by reflexivity. destruct (v && arrives); cbn [push]; [now apply toks_not|reflexivity].
  - left. rewrite (toks_todo _ _ [IEnd _] [] _) by reflexivity. destruct v; cbn [push]; [now apply toks_not|reflexivity].
  - left. rewrite (toks_todo _ _ [IFail] [] _) by reflexivity. destruct (v && arrives); cbn [push]; [now apply toks_not|reflexivity].
Qed.

(* ---- requests ----------------------------------------------------------------------------------- *)
Lemma view_keep2 i g g' u u' td td' d d' r r' st st' t : view i g u td d r st t ->
  (forall p, req_id p = Some i -> In p (lg_open g') -> In p (lg_open g)) ->
  (forall p, req_id p = Some i -> In p (lg_sent g') -> In p (lg_sent g)) ->
  (In i (lg_rel g') <-> In i (lg_rel g)) ->
  (In i (known g) -> In i (known g') \/ toks i u td d = [] /\ ~ In i r) ->
  (toks i u' td' d' = toks i u td d \/ toks i u' td' d' = []) ->
  (In i r' <-> In i r) -> (st' = false -> st = false) ->
  view i g' u' td' d' r' st' t.
Proof.
  intros HV HO HSE HR HK HT HRC HST. destruct (in_dec N.eq_dec i (known g)) as [HI|HI].
  2: { apply (view_keep i g g' u u' td td' d d' r r' st st' t HV); auto. contradiction. }
  destruct (HK HI) as [H|[H1 H2]]. { apply (view_keep i g g' u u' td td' d d' r r' st st' t HV); auto. }
  assert (toks i u' td' d' = []) as HE. { destruct HT as [->| ->]; [exact H1|reflexivity]. }
  destruct HV as [A B C D E F G H]. constructor; rewrite ?HE; auto; try contradiction.
  - intros p X1 X2. destruct (A p (HO _ X2 X1) X2). auto.
  - intros p X1 X2 X3. destruct (B p (HSE _ X2 X1) X2 X3). auto.
  - intros x X1 X2. destruct (C x (HSE (PPublish x) X2 X1) X2) as (Y1 & Y2 & Y3). repeat split; auto. intros K1 K2 K3. apply HRC. auto.
  - intros X. apply D, HR, X.
  - intros X. apply HRC in X. contradiction.
Qed.

Lemma has_id_false i p : req_id p <> Some i -> has_id i p = false.
Proof. intros H. destruct (has_id i p) eqn:E; [|reflexivity]. now apply has_id_spec in E. Qed.

Lemma view_begin clean i g p u td d r st l t : follows i l t -> view i g u td d r st t -> sound g -> side clean g (OBegin p) ->
  exists t', follows i (l ++ [Saw (OBegin p)]) t' /\ view i (ledger_step clean g (OBegin p)) u td d r st t'.
Proof.
  intros HF HV HS [HD1 HD2]. destruct (has_id i p) eqn:E.
  - apply has_id_spec in E. destruct (HD2 _ E) as [_ HN]. exists (Asked p). split. { eapply fo_snoc; [exact HF|]. apply sg_ask. now apply has_id_spec. }
    destruct HV as [A B C D E1 F G H].
    assert (toks i u td d = []) as HT. { destruct (toks i u td d); [reflexivity|]. exfalso. apply HN, F. discriminate. }
    destruct g as [op se re lo cl ex er]. cbn [ledger_step]. rewrite E. cbn [is_some]. rewrite known_in in HN. cbn [lg_open lg_sent lg_rel lg_lost] in *.
    assert (forall q, In q se -> req_id q = Some i -> False) as HNS. { intros q X1 X2. apply HN. right; left. apply in_req_ids. eauto. }
    assert (~ In i r) as HNR. { intros X. destruct (E1 X) as [_ Y]. apply known_in in Y. exact (HN Y). }
    constructor; cbn [lg_open lg_sent lg_rel]; rewrite ?HT.
    + intros q X1 X2. apply in_app_iff in X1 as [X1|[->|[]]]; [|auto]. exfalso. apply HN. left. apply in_req_ids. eauto.
    + intros q X1 X2. destruct (HNS q X1 X2).
    + intros x X1 X2. destruct (HNS _ X1 X2).
    + intros X. exfalso. tauto.
    + contradiction.
    + congruence.
    + cbn. lia.
    + constructor.
  - exists t. split; [now apply fo_other|]. eapply view_keep; [exact HV| | | | |now left|reflexivity|auto]; destruct g as [op se re lo cl ex er]; cbn [ledger_step];
      (destruct (is_some (req_id p)); cbn [lg_open lg_sent lg_rel]; auto; try tauto).
    + intros q HQ X. apply in_app_iff in X as [X|[->|[]]]; [exact X|]. apply has_id_spec in HQ. congruence.
    + rewrite !known_in. cbn [lg_open lg_sent lg_rel lg_lost]. rewrite req_ids_app, in_app_iff. tauto.
Qed.

Lemma closes_facts clean g o p i : closes o = Some p -> sound g -> (req_id p <> None -> In p (lg_open g)) ->
  let g' := ledger_step clean g o in
  (forall q, In q (lg_open g') -> In q (lg_open g) /\ (req_id p = Some i -> req_id q <> Some i)) /\
  lg_rel g' = lg_rel g /\ (In i (known g') <-> In i (known g)) /\
  (forall q, In q (lg_sent g') -> In q (lg_sent g) \/ o = OWrite FromClient p /\ q = p).
Proof.
  intros HC HS HI. destruct (closes_keeps clean g o p HC (open_nodup _ HS) HI (so_sent _ HS)) as (_ & K2 & _ & K4 & K5).
  cbn zeta. rewrite K4. split; [|split; [exact K2|split]].
  - intros q. unfold without_req. destruct (req_id p) as [j|]; [|intros X; split; [exact X|discriminate]].
    intros X. apply filter_In in X as [X1 X2]. split; [exact X1|]. intros [= ->] X3. apply has_id_spec in X3. now rewrite X3 in X2.
  - split; [apply (Permutation_in _ K5)|apply (Permutation_in _ (Permutation_sym K5))].
  - destruct g as [op se re lo cl ex er]. intros q. destruct o as [| | | | | | | | | | | | | []| [] |]; try discriminate HC; cbn [ledger_step lg_sent]; auto.
    injection HC as ->. destruct (is_some (req_id p)); [|auto]. rewrite in_app_iff. cbn. intuition congruence.
Qed.

Lemma view_close clean i g o p u u' td td' d r st l t : follows i l t -> view i g u td d r st t -> sound g -> closes o = Some p -> (req_id p <> None -> In p (lg_open g)) ->
  (up_tok i p = true -> has_id i p = true) -> todo_packets td = todo_packets td' ->
  match o with OWrite _ _ | OWriteFail _ _ => exists b, u' = push b p u | _ => u' = u end ->
  exists t', follows i (l ++ [Saw o]) t' /\ view i (ledger_step clean g o) u' td' d r st t'.
Proof.
  intros HF HV HS HC HI HSP HTD HU. destruct (closes_facts clean g o p i HC HS HI) as (K1 & K2 & K3 & K4). cbn zeta in *.
  set (g' := ledger_step clean g o) in *.
  destruct (has_id i p) eqn:E.
  - apply has_id_spec in E. assert (In p (lg_open g)) as HP by (apply HI; congruence).
    pose proof (open_in g i p HP E) as HOP.
    destruct HV as [A B C D E1 F G H]. destruct (A p HP E) as [-> HT].
    assert (In i (known g)) as HK by (apply known_in; auto).
    assert (~ In i r) as HNR. { intros X. destruct (E1 X) as [(x & X1 & _) _]. discriminate X1. }
    assert (forall q, In q (lg_open g') -> req_id q = Some i -> False) as HNO. { intros q X1 X2. destruct (K1 q X1) as [_ X]. exact (X E X2). }
    assert (forall q, In q (lg_sent g) -> req_id q = Some i -> False) as HNS. { intros q X1 X2. apply (open_sent g i HS HOP). now apply (sent_in g i q). }
    assert (~ In i (lg_rel g')) as HNRL. { rewrite K2. intros X. exact (open_rel g i HS HOP X). }
    assert (toks i u' td' d = [] \/ exists x, p = PPublish x /\ pb_qos x <> AtMostOnce /\ toks i u' td' d = [p]) as HT'.
    { assert (forall b, toks i (push b p u) td' d = [] \/ exists x, p = PPublish x /\ pb_qos x <> AtMostOnce /\ toks i (push b p u) td' d = [p]) as HB.
      { intros b. unfold toks in *. rewrite HTD in HT. apply app_eq_nil in HT as [T1 T2]. rewrite filter_app in T1. apply app_eq_nil in T1 as [T0 T1].
        destruct b; cbn [push]; rewrite !filter_app, ?T0, ?T1, ?T2; [|now left]. cbn [filter]. destruct (up_tok i p) eqn:EU; [|now left].
        right. pose proof (so_open _ HS) as HSH. rewrite Forall_forall in HSH. specialize (HSH p HP). destruct p; cbn [request_shape] in HSH; try contradiction; try discriminate EU.
        exists p. split; [reflexivity|]. split; [|reflexivity]. cbn in EU. intros X. now rewrite X in EU. }
      destruct o; try discriminate HC; [subst u'; left|subst u'; left|destruct HU as [b ->]; apply HB|destruct HU as [b ->]; apply HB];
        unfold toks in *; now rewrite <- HTD. }
    assert (exists t', (t' = Asked p \/ t' = Free /\ match o with ORefuse _ _ | OGiveUp _ => True | _ => False end) /\ next_stage i (Asked p) (Saw o) t') as (t' & HT1 & HT2).
    { apply has_id_spec in E. destruct o as [| | | | | | | | | | | | | []| [] |]; try discriminate HC; injection HC as ->.
      - exists Free. split; [auto|now apply sg_refuse]. - exists Free. split; [auto|now apply sg_give_up].
      - exists (Asked p). split; [auto|now apply sg_other]. - exists (Asked p). split; [auto|now apply sg_other]. }
    exists t'. split; [eapply fo_snoc; eassumption|].
    assert (t' = Asked p \/ (forall q, In q (lg_sent g') -> req_id q = Some i -> False) /\ toks i u' td' d = []) as HT3.
    { destruct HT1 as [HT1|[-> HT1]]; [auto|]. right. split.
      - intros q X1 X2. destruct (K4 q X1) as [X3|[X3 _]]; [exact (HNS q X3 X2)|]. subst o. contradiction.
      - destruct o; try contradiction; subst u'; unfold toks in *; now rewrite <- HTD. }
    constructor.
    + intros q X1 X2. destruct (HNO q X1 X2).
    + intros q X1 X2 X3. destruct HT3 as [->|[HT3 _]]; [|destruct (HT3 q X1 X2)]. destruct (K4 q X1) as [X4|[_ ->]]; [destruct (HNS q X4 X2)|]. split; [reflexivity|].
      destruct HT' as [HT'|(x & -> & _)]; [exact HT'|discriminate X3].
    + intros x X1 X2. destruct HT3 as [->|[HT3 _]]; [|destruct (HT3 _ X1 X2)]. destruct (K4 _ X1) as [X4|[_ X4]]; [destruct (HNS _ X4 X2)|]. subst p.
      split; [|split; [now left|intros _ _ X; discriminate X]].
      pose proof (so_open _ HS) as HSH. rewrite Forall_forall in HSH. specialize (HSH _ HP). cbn in HSH. intros X. apply HSH in X. congruence.
    + contradiction.
    + contradiction.
    + intros _. now apply K3.
    + destruct HT' as [->|(x & _ & _ & ->)]; cbn; lia.
    + destruct HT3 as [->|[_ ->]]; [|constructor]. destruct HT' as [->|(x & -> & X1 & ->)]; [constructor|]. constructor; [|constructor]. cbn [tells].
      exists x. split; [now left|]. split; [exact E|]. split; [exact X1|]. split; [now left|]. intros _ _ X. discriminate X.
  - assert (concerns i (Saw o) = false) as HCO. { destruct o as [| | | | | | | | | | | | | []| [] |]; try discriminate HC; injection HC as ->; try exact E; reflexivity. }
    exists t. split; [now apply fo_other|]. eapply view_keep; [exact HV| | | | | |reflexivity|auto].
    + intros q X1 X2. apply (K1 q X2).
    + intros q X1 X2. destruct (K4 q X2) as [X3|[_ ->]]; [exact X3|]. apply has_id_spec in X1. congruence.
    + now rewrite K2.
    + apply K3.
    + left. assert (forall b, toks i (push b p u) td' d = toks i u td d) as HB.
      { intros b. rewrite (toks_todo i _ td' td) by now rewrite HTD. destruct b; [|reflexivity]. apply toks_not.
        destruct (up_tok i p); [|reflexivity]. specialize (HSP eq_refl). congruence. }
      destruct o; try discriminate HC; [subst u'; exact (HB false)|subst u'; exact (HB false)|destruct HU as [b ->]; apply HB|destruct HU as [b ->]; apply HB].
Qed.

(* ---- acknowledgements --------------------------------------------------------------------------- *)
Lemma read_facts clean g p : let g' := ledger_step clean g (ORead p) in
  lg_open g' = lg_open g /\ (forall q, In q (lg_sent g') <-> In q (lg_sent g) /\ answers p q = false) /\
  lg_rel g' = match p with
              | PPubRec a => lg_rel g ++ (if existsb (answers p) (lg_sent g) && rec_accepts (ak_rc a) then [ak_id a] else [])
              | PPubComp a => filter (fun i => negb (ak_id a =? i)) (lg_rel g)
              | _ => lg_rel g
              end /\
  (forall i, In i (lg_lost g) -> In i (lg_lost g')) /\
  (forall a, p = PPubRec a -> rec_accepts (ak_rc a) = false -> existsb (answers p) (lg_sent g) = true -> In (ak_id a) (lg_lost g')).
Proof.
  destruct g as [op se re lo cl ex er]. cbn zeta.
  assert (forall q, In q (filter (fun q => negb (answers p q)) se) <-> In q se /\ answers p q = false) as HF.
  { intros q. rewrite filter_In, negb_true_iff. reflexivity. }
  assert (forall q, answers p q = true -> match p with PPubComp _ => False | _ => True end) as HC. { intros q. destruct p; auto. now destruct q. }
  destruct p; cbn [ledger_step lg_open lg_sent lg_rel lg_lost] in *; (split; [reflexivity|split; [try exact HF|split; [reflexivity|split; [intros i X; apply in_or_app; auto|intros b X; try discriminate X]]]]).
  - injection X as <-. intros -> ->. apply in_or_app. right. now left.
  - intros q. split; [|tauto]. intros X. split; [exact X|]. now destruct q.
Qed.

Lemma ack_one i p u d : down_tok i p = true -> (length (toks i u [] (p :: d)) <= 1)%nat -> filter (up_tok i) u = [] /\ filter (down_tok i) d = [] /\ toks i u [] (p :: d) = [p].
Proof.
  intros HD. unfold toks. cbn [filter todo_packets flat_map]. rewrite app_nil_r, HD. destruct (filter (up_tok i) u); cbn [app length].
  - destruct (filter (down_tok i) d); [auto|cbn; lia].
  - rewrite app_length. cbn. lia.
Qed.
Lemma read_toks i rmax g inn p : filter (up_tok i) (todo_packets (on_read rmax g inn p)) =
  match p with
  | PPubRec a => if negb (off_table rmax (ak_id a)) && awaited g p && rec_accepts (ak_rc a) && (i =? ak_id a) then [PPubRel (okay (ak_id a))] else []
  | _ => []
  end.
Proof.
  unfold on_read, on_ack, deliver, reply, refuse. destruct p; cbn [ak_id]; try reflexivity;
    try (repeat match goal with |- context [if ?b then _ else _] => destruct b end; reflexivity).
  - destruct (pb_qos p), (pb_pkid p); try reflexivity. destruct (mem _ _ || _); reflexivity.
  - destruct (off_table _ _); [reflexivity|]. destruct (awaited g _); [|reflexivity]. destruct (rec_accepts _); [|reflexivity]. cbn. now destruct (i =? ak_id a).
Qed.
Lemma toks_new i u td d : toks i u td d = filter (up_tok i) u ++ filter (up_tok i) (todo_packets td) ++ filter (down_tok i) d.
Proof. unfold toks. now rewrite filter_app, <- app_assoc. Qed.

Lemma view_read clean i rmax inn g p u d r st l t : follows i l t -> view i g u [] (p :: d) r st t -> sound g ->
  exists t', follows i (l ++ [Saw (ORead p)]) t' /\ view i (ledger_step clean g (ORead p)) u (on_read rmax g inn p) d r st t'.
Proof.
  intros HF HV HS. destruct (read_facts clean g p) as (K1 & K2 & K3 & K4 & K5). cbn zeta in *. set (g' := ledger_step clean g (ORead p)) in *.
  destruct (down_tok i p) eqn:EK.
  - destruct (ack_one i p u d EK (v_one _ _ _ _ _ _ _ _ HV)) as (HU & HD & HT).
    assert (toks i u (on_read rmax g inn p) d = filter (up_tok i) (todo_packets (on_read rmax g inn p))) as HT'. { rewrite toks_new, HU, HD, app_nil_r. reflexivity. }
    rewrite read_toks in HT'.
    destruct HV as [A B C D E F G H]. rewrite HT in *.
    assert (In i (known g)) as HK by (apply F; discriminate).
    assert (forall q, In q (lg_open g') -> req_id q = Some i -> False) as HNO. { intros q X1 X2. rewrite K1 in X1. destruct (A q X1 X2) as [_ X]. discriminate X. }
    assert (forall q, In q (lg_sent g') -> req_id q = Some i -> is_pub q = false -> False) as HNS. { intros q X1 X2 X3. apply K2 in X1 as [X1 _]. destruct (B q X1 X2 X3) as [_ X]. discriminate X. }
    inversion H as [|? ? HTL _]; subst.
    destruct p; try discriminate EK; cbn [down_tok] in EK; apply N.eqb_eq in EK; subst i; cbn [tells] in HTL.
    + (* PUBACK *)
      destruct HTL as (x & X1 & X2 & X3).
      assert (~ done2 t) as HND. { intros (z & -> & Z). destruct X2 as [X2|X2]; [discriminate X2|]. injection X2 as ->. congruence. }
      exists Free. split.
      { eapply fo_snoc; [exact HF|]. destruct (rec_accepts (ak_rc a)) eqn:EA; [rewrite (X3 eq_refl); now apply sg_ack|now apply sg_nack]. }
      assert (forall q, In q (lg_sent g') -> req_id q = Some (ak_id a) -> False) as HN.
      { intros q Y1 Y2. destruct (is_pub q) eqn:EP; [|now apply (HNS q Y1 Y2)]. apply K2 in Y1 as [_ Y1]. rewrite answers_puback, EP in Y1. apply has_id_spec in Y2. now rewrite Y2 in Y1. }
      constructor; rewrite ?HT'.
      * intros q Y1 Y2. destruct (HNO q Y1 Y2).
      * intros q Y1 Y2. destruct (HN q Y1 Y2).
      * intros z Y1 Y2. destruct (HN _ Y1 Y2).
      * intros X. rewrite K3 in X. destruct (HND (D X)).
      * intros X. destruct (HND (proj1 (E X))).
      * congruence.
      * cbn. lia.
      * constructor.
    + (* PUBREC *)
      destruct HTL as (x & X1 & X2). exists t. split.
      { destruct (rec_accepts (ak_rc a)) eqn:EA.
        - subst t. eapply fo_snoc; [exact HF|]. now apply sg_rec.
        - apply fo_other; [exact HF|]. cbn. now rewrite EA, andb_false_r. }
      assert (forall q, In q (lg_sent g') -> req_id q = Some (ak_id a) -> False) as HN.
      { intros q Y1 Y2. destruct (is_pub q) eqn:EP; [|now apply (HNS q Y1 Y2)]. apply K2 in Y1 as [_ Y1]. rewrite answers_pubrec, EP in Y1. apply has_id_spec in Y2. now rewrite Y2 in Y1. }
      assert (In (ak_id a) (known g')) as HK'.
      { destruct (read_keeps clean g (PPubRec a) (sound_fine _ HS)) as (_ & _ & _ & P). fold g' in P. apply Permutation_sym in P. apply (Permutation_in _ P) in HK. cbn [frees] in HK. destruct (lg_clients g); exact HK. }
      constructor; rewrite ?HT'.
      * intros q Y1 Y2. destruct (HNO q Y1 Y2).
      * intros q Y1 Y2. destruct (HN q Y1 Y2).
      * intros z Y1 Y2. destruct (HN _ Y1 Y2).
      * rewrite K3. intros X. apply in_app_iff in X as [X|X]; [exact (D X)|]. destruct (rec_accepts (ak_rc a)); [|rewrite andb_false_r in X; contradiction]. exists x. auto.
      * intros X. split; [exact (proj1 (E X))|exact HK'].
      * intros _. exact HK'.
      * destruct (negb _ && _ && _ && _); cbn; lia.
      * destruct (negb _ && _ && _ && _) eqn:EQ; [|constructor]. apply andb_true_iff in EQ as [EQ _]. apply andb_true_iff in EQ as [EQ E3]. apply andb_true_iff in EQ as [_ E2].
        constructor; [|constructor]. cbn [tells]. rewrite K3. cbn [awaited] in E2. rewrite E2, E3. apply in_or_app. right. now left.
    + (* PUBCOMP *)
      destruct HTL as [X1 X2]. destruct (D X1) as (x & -> & X3). exists Free. split. { eapply fo_snoc; [exact HF|]. now apply sg_comp. }
      assert (forall q, In q (lg_sent g') -> req_id q = Some (ak_id a) -> False) as HN.
      { intros q Y1 Y2. apply K2 in Y1 as [Y1 _]. apply (sent_rel g (ak_id a) HS); [|exact X1]. now apply (sent_in g _ q). }
      constructor; rewrite ?HT'.
      * intros q Y1 Y2. destruct (HNO q Y1 Y2).
      * intros q Y1 Y2. destruct (HN q Y1 Y2).
      * intros z Y1 Y2. destruct (HN _ Y1 Y2).
      * rewrite K3, filter_In, N.eqb_refl. intros [_ X]. discriminate X.
      * contradiction.
      * congruence.
      * cbn. lia.
      * constructor.
  - exists t. assert (forall a, p = PPubAck a \/ p = PPubRec a \/ p = PPubComp a -> ak_id a <> i) as HNI.
    { intros a [->|[->| ->]]; cbn in EK; apply N.eqb_neq in EK; congruence. }
    split.
    { apply fo_other; [exact HF|]. destruct p; try reflexivity; cbn [concerns]; rewrite ?andb_false_iff; try left; apply N.eqb_neq, HNI; auto. }
    assert (toks i u (on_read rmax g inn p) d = toks i u [] (p :: d)) as HT.
    { rewrite !toks_new, read_toks. cbn [todo_packets flat_map filter app]. rewrite EK. f_equal.
      destruct p; try reflexivity. cbn [down_tok] in EK. now rewrite EK, !andb_false_r. }
    eapply view_keep2; [exact HV| | | | |now left|reflexivity|auto].
    + intros q _. now rewrite K1.
    + intros q _ X. now apply K2 in X.
    + rewrite K3. destruct p; try reflexivity.
      * rewrite in_app_iff. destruct (_ && _); cbn; [|tauto]. split; [|tauto]. intros [X|[X|[]]]; [exact X|]. destruct (HNI a); auto.
      * rewrite filter_In. destruct (N.eqb_spec (ak_id a) i); cbn; [|tauto]. destruct (HNI a); auto.
    + rewrite !known_in, K1. intros [X|[X|[X|X]]].
      * auto.
      * apply in_req_ids in X as (q & X1 & X2). destruct (answers p q) eqn:EA.
        -- right. assert (is_pub q = false) as EP.
           { destruct q; try reflexivity. exfalso. destruct p; try discriminate EA; cbn in EA; apply has_id_spec in EA; cbn in EA, X2; apply (HNI a); auto; congruence. }
           destruct (v_sub _ _ _ _ _ _ _ _ HV q X1 X2 EP) as [-> Y2]. split; [exact Y2|]. intros Y. destruct (v_rcv _ _ _ _ _ _ _ _ HV Y) as [(z & Z & _) _]. discriminate Z.
        -- left. right; left. apply in_req_ids. exists q. split; [now apply K2|exact X2].
      * left. right; right; left. rewrite K3. destruct p; auto.
        -- apply in_or_app. auto.
        -- rewrite filter_In. split; [exact X|]. destruct (N.eqb_spec (ak_id a) i); [|reflexivity]. destruct (HNI a); auto.
      * left. auto.
Qed.

(* ---- the answer to CONNECT -------------------------------------------------------------------------- *)
Definition again_packets (pubs : list packet) (rel : list N) : list packet := map dup pubs ++ map (fun i => PPubRel (okay i)) rel.
Lemma todo_app a b : todo_packets (a ++ b) = todo_packets a ++ todo_packets b.
Proof. apply flat_map_app. Qed.
Lemma todo_resend ps : todo_packets (map IResend ps) = ps.
Proof. induction ps as [|p ps IH]; [reflexivity|]. cbn. now rewrite <- IH at 2. Qed.
Lemma again_len i pubs rel : Forall (fun p => is_pub p = true) pubs -> NoDup (req_ids pubs ++ rel) -> (length (filter (up_tok i) (again_packets pubs rel)) <= 1)%nat.
Proof.
  intros HP HN. pose proof (proj1 (NoDup_count_occ N.eq_dec _) HN i) as HC. change (cnt (req_ids pubs ++ rel) i <= 1)%nat in HC. rewrite cnt_app in HC.
  assert (length (filter (up_tok i) (map dup pubs)) <= cnt (req_ids pubs) i)%nat as H1.
  { clear HN HC. induction HP as [|p pubs HP HQ IH]; [cbn; lia|]. rewrite req_ids_cons, cnt_app. cbn [map filter].
    destruct (up_tok i (dup p)) eqn:E; cbn [length]; [|lia]. destruct p; try discriminate HP. apply up_tok_pub in E. cbn in E. cbn [req_id]. rewrite E. cbn [opt_list].
    unfold cnt at 1. cbn [count_occ]. destruct (N.eq_dec i i); [lia|congruence]. }
  assert (length (filter (up_tok i) (map (fun i => PPubRel (okay i)) rel)) <= cnt rel i)%nat as H2.
  { clear. induction rel as [|j rel IH]; [cbn; lia|]. cbn [map filter up_tok]. change (ak_id (okay j)) with j. unfold cnt. cbn [count_occ]. fold (cnt rel i).
    destruct (N.eqb_spec i j), (N.eq_dec j i); cbn [length]; try lia; congruence. }
  unfold again_packets. rewrite filter_app, app_length. lia.
Qed.
Lemma again_in i pubs rel p : Forall (fun p => is_pub p = true) pubs -> In p (filter (up_tok i) (again_packets pubs rel)) ->
  (exists x y, In (PPublish x) pubs /\ pb_pkid x = Some i /\ p = PPublish y /\ same x y) \/ In i rel /\ exists a, p = PPubRel a.
Proof.
  intros HP H. apply filter_In in H as [H1 H2]. unfold again_packets in H1. apply in_app_iff in H1 as [H1|H1].
  - apply in_map_iff in H1 as (q & <- & H1). rewrite Forall_forall in HP. specialize (HP q H1). destruct q; try discriminate HP.
    left. exists p. eexists. split; [exact H1|]. apply up_tok_pub in H2. split; [exact H2|]. split; [reflexivity|]. now right.
  - apply in_map_iff in H1 as (j & <- & H1). cbn in H2. apply N.eqb_eq in H2. subst j. right. eauto.
Qed.

Lemma no_down_toks i d : Forall (fun p => reserved p = false) d -> filter (down_tok i) d = [].
Proof. induction 1 as [|p d HP HD IH]; [reflexivity|]. cbn [filter]. rewrite IH. destruct p; try reflexivity; discriminate HP. Qed.

Lemma view_answer clean i g p us u d v n h r st l inn inn' its t : waiting clean (World us u (p :: d) v n h r st l) -> follows i l t -> view i g u [] (p :: d) r st t -> sound g ->
  on_answer clean g p inn inn' its ->
  exists t', follows i (l ++ [Saw (OAnswer p)]) t' /\ view i (ledger_step clean g (OAnswer p)) u its d r (st && negb (told p)) t'.
Proof.
  intros HW HF HV HS HA. exists t. split; [now apply fo_other|]. inversion HW as [|?|a ? ? ? ? ? ? HRC|a ? ? ? ? ? ? ? ? HRC HD HVN HS0 HS1]; subst.
  - (* refused *)
    assert (ledger_step clean g (OAnswer (PConnAck a)) = g) as ->. { destruct g. cbn. destruct (ca_rc a); try reflexivity. congruence. }
    destruct HA as [inn E1|inn a0 E1 E2|inn a0 rel E1 E2 E3|inn a0 j E1 E2 E3]; try (exfalso; congruence).
    eapply view_same; [exact HV|now left|reflexivity|]. cbn. destruct (ca_rc a); try (now rewrite andb_true_r). congruence.
  - (* accepted *)
    assert (forall td, toks i [] td d = filter (up_tok i) (todo_packets td)) as HT. { intros td. rewrite toks_new, no_down_toks by assumption. cbn [filter app]. now rewrite app_nil_r. }
    assert (told (PConnAck a) = negb (ca_session_present a)) as HTO by (cbn; now rewrite HRC).
    assert (toks i [] [] (PConnAck a :: d) = []) as HT0. { rewrite toks_new. cbn. now apply no_down_toks. }
    destruct HV as [A B C D E F G H]. rewrite HT0 in *.
    destruct g as [op se re lo cl ex er]. cbn [lg_open lg_sent lg_rel] in *.
    destruct (ca_session_present a) eqn:ESP.
    + (* the session goes on *)
      destruct (HS1 eq_refl) as [-> HS2]. clear HS0 HS1.
      assert (exists pk, filter (up_tok i) (todo_packets its) = pk /\ (pk = [] \/ exists rel, Permutation rel re /\ pk = filter (up_tok i) (again_packets (filter is_pub se) rel))) as (pk & HPK & HPK2).
      { eexists. split; [reflexivity|]. destruct HA as [inn E1|inn a0 E1 E2|inn a0 rel E1 E2 E3|inn a0 j E1 E2 E3]; try (exfalso; congruence); [|now left].
        right. exists rel. cbn [ledger_step] in E3 |- *. rewrite HRC, ESP in *. cbn [andb negb lg_expect_rel] in E3. split; [exact E3|]. cbn [andb negb].
        unfold deliver, resend_items. rewrite !todo_app, todo_resend. cbn [lg_expect todo_packets flat_map app]. now rewrite app_nil_r. }
      assert (Forall (fun p => is_pub p = true) (filter is_pub se)) as HFP. { apply Forall_forall. intros q X. now apply filter_In in X. }
      assert (forall q, In q pk -> (exists x y, In (PPublish x) se /\ pb_pkid x = Some i /\ q = PPublish y /\ same x y) \/ In i re /\ exists a, q = PPubRel a) as HPI.
      { intros q X. destruct HPK2 as [->|(rel & P1 & ->)]; [contradiction|]. apply again_in in X; [|exact HFP].
        destruct X as [(x & y & Y1 & Y2 & Y3 & Y4)|(Y1 & Y2)]; [left; exists x, y; apply filter_In in Y1; tauto|]. right. split; [|exact Y2]. now apply (Permutation_in _ P1). }
      assert (length pk <= 1)%nat as HPL.
      { destruct HPK2 as [->|(rel & P1 & ->)]; [cbn; lia|]. apply again_len; [exact HFP|]. destruct (sound_fine _ HS) as (_ & HN & _). cbn [lg_sent lg_rel] in HN.
        pose proof (req_ids_split is_pub se) as P2.
        assert (Permutation (req_ids se ++ re) (req_ids (filter (fun p => negb (is_pub p)) se) ++ req_ids (filter is_pub se) ++ rel)) as P3 by perm.
        apply (Permutation_NoDup P3) in HN. now apply nodup_app_r in HN. }
      assert (forall x, In (PPublish x) se -> pb_pkid x = Some i -> In i (req_ids se)) as HXI. { intros x X1 X2. apply in_req_ids. exists (PPublish x). auto. }
      assert (ledger_step false (Ledger op se re lo cl ex er) (OAnswer (PConnAck a)) =
        Ledger op (filter is_pub se) re (lo ++ if cl then [] else req_ids (filter (fun p => negb (is_pub p)) se)) cl (map dup (filter is_pub se)) re) as ->.
      { cbn [ledger_step]. now rewrite HRC, ESP. }
      assert (forall q, In q (filter is_pub se) <-> In q se /\ is_pub q = true) as HPF by (intros q; apply filter_In).
      assert (st && negb (told (PConnAck a)) = st) as ->. { rewrite HTO. cbn [negb]. apply andb_true_r. }
      constructor; cbn [lg_open lg_sent lg_rel]; rewrite ?HT, ?HPK.
      * intros q X1 X2. destruct (A q X1 X2) as [Y _]. split; [exact Y|]. destruct pk as [|k pk]; [reflexivity|]. exfalso.
        pose proof (open_in (Ledger op se re lo cl ex er) i q X1 X2) as X3.
        destruct (HPI k (or_introl eq_refl)) as [(x & y & Y1 & Y2 & _)|[Y1 _]]; [exact (open_sent _ i HS X3 (HXI x Y1 Y2))|exact (open_rel _ i HS X3 Y1)].
      * intros q X1 X2 X3. apply HPF in X1 as [_ X1]. congruence.
      * intros x X1 X2. apply HPF in X1 as [X1 _]. exact (C x X1 X2).
      * exact D.
      * intros X. destruct (E X) as [E1 E2]. split; [exact E1|]. apply known_in in E2. apply known_in. cbn [lg_open lg_sent lg_rel lg_lost] in *.
        destruct E2 as [E2|[E2|[E2|E2]]]; [auto| |auto|right; right; right; apply in_or_app; auto].
        right; left. apply in_req_ids in E2 as (q & Y1 & Y2). apply in_req_ids. exists q. split; [|exact Y2]. apply HPF. split; [exact Y1|].
        destruct (is_pub q) eqn:EP; [reflexivity|]. exfalso. destruct (B q Y1 Y2 EP) as [Y3 _]. destruct E1 as (z & Z & _). congruence.
      * intros X. apply known_in. cbn [lg_open lg_sent lg_rel lg_lost]. destruct pk as [|k pk]; [congruence|].
        destruct (HPI k (or_introl eq_refl)) as [(x & y & Y1 & Y2 & _)|[Y1 _]]; [right; left|auto]. apply in_req_ids. exists (PPublish x). split; [now apply HPF|exact Y2].
      * exact HPL.
      * apply Forall_forall. intros q X. destruct (HPI q X) as [(x & y & Y1 & Y2 & -> & Y3)|[Y1 [b ->]]]; cbn [tells]; [|exact Y1].
        destruct (C x Y1 Y2) as (C1 & C2 & C3). exists x. auto.
    + (* a new session *)
      rewrite (HS0 eq_refl) in *. clear HS0 HS1.
      assert (filter (up_tok i) (todo_packets its) = []) as HPK.
      { destruct HA as [inn E1|inn a0 E1 E2|inn a0 rel E1 E2 E3|inn a0 j E1 E2 E3]; try (exfalso; congruence); [|reflexivity].
        cbn [ledger_step] in E3 |- *. rewrite HRC, ESP in *. cbn [andb negb lg_expect_rel] in E3. cbn [andb negb]. apply Permutation_sym, Permutation_nil in E3. subst rel.
        unfold deliver, resend_items. rewrite !todo_app, todo_resend. reflexivity. }
      assert (ledger_step clean (Ledger op se re lo cl ex er) (OAnswer (PConnAck a)) = Ledger op [] [] (lo ++ re ++ if cl then [] else req_ids se) cl [] []) as ->.
      { cbn [ledger_step]. now rewrite HRC, ESP. }
      constructor; cbn [lg_open lg_sent lg_rel]; rewrite ?HT, ?HPK.
      * intros q X1 X2. destruct (A q X1 X2) as [Y _]. auto.
      * intros q [].
      * intros x [].
      * intros [].
      * intros [].
      * congruence.
      * cbn. lia.
      * constructor.
Qed.
