(* The ledger agrees with the session in every reachable state. *)
From Coq Require Import Permutation.
From Verif Require Import Base VarInt Prims Props Codes Packets BaseFacts Options Session Client System SpecSession SessionFacts.

Lemma NoDup_app2 {A} (a b : list A) : NoDup a -> NoDup b -> (forall x, In x a -> ~ In x b) -> NoDup (a ++ b).
Proof.
  intros HA HB HD. induction HA as [|x a HX HA IH]; [exact HB|]. cbn [app]. constructor.
  - rewrite in_app_iff. intros [H|H]; [contradiction|]. apply (HD x); [now left|exact H].
  - apply IH. intros y Hy. apply HD. now right.
Qed.
Lemma nodup_app_l {A} (a b : list A) : NoDup (a ++ b) -> NoDup a.
Proof. induction a as [|x a IH]; [constructor|]. intros H. inversion H; subst. constructor; [rewrite in_app_iff in *; tauto|auto]. Qed.
Lemma nodup_app_r {A} (a b : list A) : NoDup (a ++ b) -> NoDup b.
Proof. induction a as [|x a IH]; [auto|]. intros H. inversion H; subst. auto. Qed.

(* permutations of identifiers by counting *)
Definition cnt (l : list N) (x : N) : nat := count_occ N.eq_dec l x.
Lemma perm_cnt a b : Permutation a b <-> forall x, cnt a x = cnt b x.
Proof. apply (Permutation_count_occ N.eq_dec). Qed.
Lemma cnt_app a b x : cnt (a ++ b) x = (cnt a x + cnt b x)%nat.
Proof. apply count_occ_app. Qed.
Lemma cnt_nil x : cnt [] x = 0%nat.
Proof. reflexivity. Qed.
Lemma cnt_cons a l x : cnt (a :: l) x = (cnt [a] x + cnt l x)%nat.
Proof. apply (count_occ_app N.eq_dec [a] l). Qed.
Lemma req_ids_nil : req_ids [] = [].
Proof. reflexivity. Qed.
Lemma req_ids_cons p l : req_ids (p :: l) = opt_list (req_id p) ++ req_ids l.
Proof. reflexivity. Qed.
Ltac to_cnt z H := rewrite ?req_ids_app, ?req_ids_cons, ?req_ids_nil, ?cnt_app, ?cnt_nil in H.
Ltac perm_hyps z :=
  repeat match goal with
  | H : Permutation ?a ?b |- _ => apply (fun h => proj1 (perm_cnt a b) h z) in H
  end.
Ltac cnt_norm := rewrite ?req_ids_app, ?req_ids_cons, ?req_ids_nil in *; cbn [opt_list app] in *; rewrite ?cnt_app, ?cnt_nil in *.
Ltac perm :=
  apply perm_cnt; let z := fresh "z" in intros z; perm_hyps z; cnt_norm;
  repeat match goal with
  | |- context [cnt (?a :: ?b :: ?l) z] => rewrite (cnt_cons a (b :: l) z)
  | H : context [cnt (?a :: ?b :: ?l) z] |- _ => rewrite (cnt_cons a (b :: l) z) in H
  | |- context [cnt (?a :: ?l) z] => lazymatch l with [] => fail | _ => rewrite (cnt_cons a l z) end
  | H : context [cnt (?a :: ?l) z] |- _ => lazymatch l with [] => fail | _ => rewrite (cnt_cons a l z) in H end
  end; rewrite ?cnt_app, ?cnt_nil in *; lia.

(* ---- the ledger keeps every identifier ------------------------------------------------------- *)
Definition begun (o : out) : list N := match o with OBegin p => opt_list (req_id p) | _ => [] end.
(* the requests an observation needs to be open *)
Definition closes (o : out) : option packet :=
  match o with ORefuse p _ | OGiveUp p | OWriteFail FromClient p | OWrite FromClient p => Some p | _ => None end.

Lemma without_split p op i : NoDup (req_ids op) -> In p op -> req_id p = Some i ->
  Permutation (req_ids op) (i :: req_ids (without i op)).
Proof.
  intros HN HI HE. unfold without. rewrite (req_ids_split (has_id i) op).
  assert (Forall identified (filter (has_id i) op)) as HID.
  { apply Forall_forall. intros q Hq. apply filter_In in Hq as [_ Hq]. apply has_id_spec in Hq. unfold identified. congruence. }
  assert (filter (has_id i) op = [p]) as ->; [|cbn; now rewrite HE].
  assert (In p (filter (has_id i) op)) as HP. { apply filter_In. split; [exact HI|]. now apply has_id_spec. }
  assert (forall q, In q (filter (has_id i) op) -> q = p) as HQ.
  { intros q Hq. apply filter_In in Hq as [H1 H2]. apply has_id_spec in H2.
    apply (same_id_same op); congruence. }
  assert (NoDup (filter (has_id i) op)) as HN2.
  { apply nodup_sent; [exact HID|]. apply (Permutation_NoDup (req_ids_split (has_id i) op)) in HN.
    clear - HN. induction (req_ids (filter (has_id i) op)) as [|a l IH]; [constructor|]. inversion HN; subst.
    constructor; [rewrite in_app_iff in *; tauto|auto]. }
  destruct (filter (has_id i) op) as [|x [|y l]]; [contradiction| |].
  - f_equal. apply HQ. now left.
  - exfalso. rewrite (HQ x), (HQ y) in HN2 by (cbn; auto). inversion HN2; subst. cbn in *. tauto.
Qed.

Lemma rel_split i rel : NoDup rel ->
  Permutation rel (filter (fun j => negb (i =? j)) rel ++ if existsb (N.eqb i) rel then [i] else []).
Proof.
  intros HN. destruct (existsb (N.eqb i) rel) eqn:E.
  - apply existsb_in in E. apply NoDup_Permutation; [exact HN| |].
    + apply NoDup_app2; [now apply NoDup_filter|repeat constructor; cbn; tauto|].
      intros x H [->|[]]. apply filter_In in H as [_ H]. now rewrite N.eqb_refl in H.
    + intros x. rewrite in_app_iff, filter_In. cbn. destruct (N.eqb_spec i x); cbn; intuition; subst; auto; tauto.
  - rewrite app_nil_r, filter_neg_none by exact E. reflexivity.
Qed.

Lemma read_keeps clean g p : fine (lg_sent g) (lg_rel g) ->
  let g' := ledger_step clean g (ORead p) in
  lg_open g' = lg_open g /\ lg_clients g' = lg_clients g /\ Forall identified (lg_sent g') /\
  Permutation ((if lg_clients g then frees clean g (ORead p) else []) ++ in_flight g' ++ lg_lost g') (in_flight g ++ lg_lost g).
Proof.
  intros HF. pose proof (fine_nodup _ _ HF) as [HN1 HN2]. pose proof (proj1 HF) as HI.
  destruct g as [op se re lo cl ex er]. cbn [lg_sent lg_rel lg_clients lg_open lg_lost in_flight] in *.
  assert (forall f, Forall identified (filter f se)) as HFF.
  { intros f. apply Forall_forall. intros q Hq. apply filter_In in Hq as [Hq _]. rewrite Forall_forall in HI. auto. }
  assert (forall a, Permutation ((if cl then req_ids (filter (answers a) se) else []) ++
     in_flight (Ledger op (filter (fun q => negb (answers a q)) se) re (lo ++ if cl then [] else req_ids (filter (answers a) se)) cl ex er) ++
     (lo ++ if cl then [] else req_ids (filter (answers a) se))) (in_flight (Ledger op se re lo cl ex er) ++ lo)) as HG.
  { intros a. unfold in_flight. cbn [lg_open lg_sent lg_rel]. pose proof (req_ids_split (answers a) se) as HP. destruct cl; perm. }
  destruct p; cbn [ledger_step frees lg_open lg_sent lg_rel lg_lost lg_clients];
    try (split; [reflexivity|split; [reflexivity|split; [apply HFF|apply HG]]]).
  - (* PubRec *)
    split; [reflexivity|split; [reflexivity|split; [apply HFF|]]]. unfold in_flight. cbn [lg_open lg_sent lg_rel].
    assert (req_ids (filter (answers (PPubRec a)) se) = if existsb (answers (PPubRec a)) se then [ak_id a] else []) as HE.
    { rewrite (filter_ext _ _ (answers_pubrec a)), (existsb_ext2 _ _ se (answers_pubrec a)). now apply filter_kind. }
    pose proof (req_ids_split (answers (PPubRec a)) se) as HP. rewrite HE in HP.
    destruct cl, (existsb (answers (PPubRec a)) se), (rec_accepts (ak_rc a)); cbn [andb negb]; perm.
  - (* PubComp *)
    split; [reflexivity|split; [reflexivity|split; [exact HI|]]]. unfold in_flight. cbn [lg_open lg_sent lg_rel].
    pose proof (rel_split (ak_id a) re HN2) as HP.
    destruct cl, (existsb (N.eqb (ak_id a)) re); cbn [andb negb]; perm.
Qed.

Lemma answer_keeps clean g p : Forall identified (lg_sent g) ->
  let g' := ledger_step clean g (OAnswer p) in
  lg_open g' = lg_open g /\ lg_clients g' = lg_clients g /\ Forall identified (lg_sent g') /\
  Permutation ((if lg_clients g then frees clean g (OAnswer p) else []) ++ in_flight g' ++ lg_lost g') (in_flight g ++ lg_lost g).
Proof.
  intros HI. destruct g as [op se re lo cl ex er]. cbn [lg_sent lg_rel lg_clients lg_open lg_lost in_flight] in *.
  assert (let g' := Ledger op se re lo cl ex er in lg_open g' = op /\ lg_clients g' = cl /\ Forall identified (lg_sent g') /\
     Permutation ((if cl then [] else []) ++ in_flight g' ++ lg_lost g') (in_flight (Ledger op se re lo cl ex er) ++ lo)) as HS.
  { cbn. destruct cl; repeat split; auto. }
  destruct p; cbn [ledger_step frees]; try exact HS. destruct (ca_rc c); try exact HS.
  destruct (ca_session_present c && negb clean); cbn [lg_open lg_clients lg_sent lg_rel lg_lost]; (split; [reflexivity|split; [reflexivity|]]).
  - split. { apply Forall_forall. intros q Hq. apply filter_In in Hq as [Hq _]. rewrite Forall_forall in HI. auto. }
    unfold in_flight. cbn [lg_open lg_sent lg_rel]. pose proof (req_ids_split is_pub se) as HP. destruct cl; perm.
  - split; [constructor|]. unfold in_flight. cbn [lg_open lg_sent lg_rel]. destruct cl; perm.
Qed.

Lemma closes_keeps clean g o p : closes o = Some p ->
  NoDup (req_ids (lg_open g)) -> (req_id p <> None -> In p (lg_open g)) ->
  Forall identified (lg_sent g) ->
  let g' := ledger_step clean g o in
  lg_clients g' = lg_clients g /\ lg_rel g' = lg_rel g /\ Forall identified (lg_sent g') /\
  lg_open g' = without_req p (lg_open g) /\
  Permutation (in_flight g' ++ lg_lost g') (in_flight g ++ lg_lost g).
Proof.
  intros HC HN HO HI. destruct g as [op se re lo cl ex er]. cbn [lg_sent lg_rel lg_clients lg_open lg_lost] in *.
  assert (forall i, req_id p = Some i -> Permutation (req_ids op) (i :: req_ids (without i op))) as HW.
  { intros i E. apply (without_split p); [exact HN|apply HO; congruence|exact E]. }
  destruct o; try discriminate HC; cbn [closes] in HC.
  1,2: injection HC as <-; cbn [ledger_step lg_clients lg_rel lg_sent lg_open lg_lost in_flight]; unfold without_req in *; repeat split; auto;
    unfold in_flight; cbn [lg_open lg_sent lg_rel]; destruct (req_id p0) as [i|] eqn:E; [specialize (HW _ eq_refl); perm|perm].
  - destruct o; try discriminate HC. injection HC as <-. cbn [ledger_step lg_clients lg_rel lg_sent lg_open lg_lost].
    repeat split; auto.
    + destruct (req_id p0) eqn:E; cbn [is_some]; [|exact HI]. apply Forall_app. split; [exact HI|]. constructor; [|constructor]. unfold identified. congruence.
    + unfold in_flight, without_req; cbn [lg_open lg_sent lg_rel]; destruct (req_id p0) as [i|] eqn:E; cbn [is_some]; [specialize (HW _ eq_refl)|perm].
      rewrite req_ids_app, req_ids_cons, E. perm.
  - destruct o; try discriminate HC. injection HC as <-. cbn [ledger_step lg_clients lg_rel lg_sent lg_open lg_lost].
    unfold without_req; repeat split; auto;
    unfold in_flight; cbn [lg_open lg_sent lg_rel]; destruct (req_id p0) as [i|] eqn:E; [specialize (HW _ eq_refl); perm|perm].
Qed.

(* ---- the invariant --------------------------------------------------------------------------- *)
Definition held (q : pc) : list packet := match q with PRequest p => [p] | _ => [] end.
Definition pending (s : sys) : list packet := y_wait s ++ y_chan s ++ held (y_pc s).
Definition live (q : pc) : bool := match q with PCrash => false | _ => true end.
Definition has_req (p : packet) : bool := is_some (req_id p).
Definition expects (g : ledger) (q : pc) : Prop :=
  match q with
  | PConnHandle (Some ps) | PConnResend ps =>
    exists rel', ps = lg_expect g ++ map (fun i => PPubRel (Ack i RSuccess no_props)) rel' /\
      Permutation rel' (lg_expect_rel g) /\ sorted rel'
  | PConnHandle None => False
  | _ => True
  end.
Definition cleans (c : config) : bool := op_clean_start (cf_opts c).
Definition ledger_at (c : config) (s : sys) : ledger := ledger_of (cleans c) (trace s).

Record Inv (c : config) (st : state) (pend : list packet) (g : ledger) (lv : bool) : Prop := {
  i_perm : Permutation (pl_ids (st_pool st) ++ in_flight g ++ lg_lost g) (ids_upto (send_max (cf_opts c)));
  i_cap : pl_cap (st_pool st) = send_max (cf_opts c);
  i_open : pl_open (st_pool st) = lg_clients g;
  i_pend : Permutation (lg_open g) (filter has_req pend);
  i_shape : Forall request_shape pend;
  i_sent : Forall identified (lg_sent g);
  i_R : lv = true -> R (receive_max (cf_opts c)) st (lg_sent g) (lg_rel g) }.

Record inv (c : config) (s : sys) : Prop := {
  v_inv : Inv c (y_state s) (pending s) (ledger_at c s) (live (y_pc s));
  v_expects : expects (ledger_at c s) (y_pc s) }.

Lemma ids_upto_in n i : In i (ids_upto n) <-> 1 <= i <= n.
Proof.
  unfold ids_upto. rewrite in_map_iff. split.
  - intros (k & <- & H). apply in_seq in H. lia.
  - intros H. exists (N.to_nat i). split; [lia|]. apply in_seq. lia.
Qed.
Lemma ids_upto_nodup n : NoDup (ids_upto n).
Proof. unfold ids_upto. apply FinFun.Injective_map_NoDup; [intros a b; lia|]. apply seq_NoDup. Qed.
Lemma ids_upto_len n : len (ids_upto n) = n.
Proof. unfold len, ids_upto. rewrite map_length, seq_length. lia. Qed.

Lemma Inv_nodup c st pend g lv : Inv c st pend g lv -> NoDup (pl_ids (st_pool st) ++ in_flight g ++ lg_lost g).
Proof. intros H. apply (Permutation_NoDup (Permutation_sym (i_perm _ _ _ _ _ H))), ids_upto_nodup. Qed.
Lemma Inv_range c st pend g lv i : Inv c st pend g lv -> In i (pl_ids (st_pool st) ++ in_flight g ++ lg_lost g) ->
  1 <= i <= send_max (cf_opts c).
Proof. intros H HI. apply ids_upto_in. now apply (Permutation_in _ (i_perm _ _ _ _ _ H)). Qed.
Lemma Inv_fine c st pend g lv : Inv c st pend g lv -> fine (lg_sent g) (lg_rel g).
Proof.
  intros H. split; [exact (i_sent _ _ _ _ _ H)|]. split.
  - pose proof (Inv_nodup _ _ _ _ _ H) as N0. apply nodup_app_r, nodup_app_l in N0. unfold in_flight in N0. now apply nodup_app_r in N0.
  - apply Forall_forall. intros i Hi. eapply Inv_range; [exact H|]. apply in_or_app. right. apply in_or_app. left.
    unfold in_flight. apply in_or_app. now right.
Qed.
Lemma Inv_open_nodup c st pend g lv : Inv c st pend g lv -> NoDup (req_ids (lg_open g)).
Proof. intros H. pose proof (Inv_nodup _ _ _ _ _ H) as N0. apply nodup_app_r, nodup_app_l in N0. unfold in_flight in N0. now apply nodup_app_l in N0. Qed.
Lemma perm_len {A} (a b : list A) : Permutation a b -> len a = len b.
Proof. intros H. unfold len. now rewrite (Permutation_length H). Qed.
Lemma Inv_room c st pend g lv : Inv c st pend g lv ->
  len (pl_ids (st_pool st)) + len (req_ids (lg_sent g) ++ lg_rel g) <= pl_cap (st_pool st).
Proof.
  intros H. rewrite (i_cap _ _ _ _ _ H). pose proof (perm_len _ _ (i_perm _ _ _ _ _ H)) as L. rewrite ids_upto_len in L.
  unfold in_flight in L. rewrite !len_app2 in *. lia.
Qed.

Lemma Inv_pend c st pend pend' g lv lv' : Inv c st pend g lv -> Permutation pend pend' -> (lv' = true -> lv = true) -> Inv c st pend' g lv'.
Proof.
  intros [A B C D E F G] HP HL. constructor; auto.
  - rewrite D. clear - HP. induction HP; cbn [filter].
    + reflexivity. + destruct (has_req x); [now constructor|assumption].
    + destruct (has_req x), (has_req y); try reflexivity. constructor. + etransitivity; eassumption.
  - eapply Permutation_Forall; eassumption.
Qed.

(* ---- single observations --------------------------------------------------------------------- *)
Lemma has_req_spec p : has_req p = true <-> req_id p <> None.
Proof. unfold has_req. destruct (req_id p); cbn; intuition congruence. Qed.
Lemma without_pend g p rest : NoDup (req_ids (lg_open g)) -> Permutation (lg_open g) (filter has_req (p :: rest)) ->
  Permutation (without_req p (lg_open g)) (filter has_req rest).
Proof.
  intros HN HP. unfold without_req. cbn [filter] in HP. unfold has_req at 1 in HP. destruct (req_id p) as [i|] eqn:E; cbn [is_some] in HP; [|exact HP].
  assert (NoDup (req_ids (p :: filter has_req rest))) as HN2.
  { eapply Permutation_NoDup; [|exact HN]. unfold req_ids. now apply Permutation_flat_map. }
  rewrite req_ids_cons, E in HN2. cbn in HN2. inversion HN2; subst.
  assert (Permutation (without i (lg_open g)) (without i (p :: filter has_req rest))) as ->.
  { unfold without. clear - HP. induction HP; cbn [filter]; [reflexivity| | |etransitivity; eassumption].
    - destruct (negb (has_id i x)); [now constructor|assumption].
    - destruct (negb (has_id i x)), (negb (has_id i y)); try reflexivity. constructor. }
  unfold without. cbn [filter]. rewrite (proj2 (has_id_spec i p) E). cbn [negb].
  rewrite filter_all; [reflexivity|]. intros q Hq. destruct (has_id i q) eqn:EQ; [|reflexivity]. exfalso.
  apply has_id_spec in EQ. apply H1, in_req_ids. eauto.
Qed.

Lemma inv_close c st p rest g lv lv' o st' : Inv c st (p :: rest) g lv -> closes o = Some p ->
  st_pool st' = st_pool st ->
  (lv' = true -> R (receive_max (cf_opts c)) st' (lg_sent (ledger_step (cleans c) g o)) (lg_rel g)) ->
  Inv c st' rest (ledger_step (cleans c) g o) lv'.
Proof.
  intros HI HC HP HR. pose proof (Inv_open_nodup _ _ _ _ _ HI) as HN.
  assert (req_id p <> None -> In p (lg_open g)) as HO.
  { intros X. apply (Permutation_in _ (Permutation_sym (i_pend _ _ _ _ _ HI))). apply filter_In. split; [now left|now apply has_req_spec]. }
  destruct (closes_keeps (cleans c) g o p HC HN HO (i_sent _ _ _ _ _ HI)) as (K1 & K2 & K3 & K4 & K5).
  destruct HI as [A B C D E F G]. constructor; try congruence.
  - rewrite HP. rewrite <- A. apply Permutation_app_head. exact K5.
  - rewrite K4. now apply without_pend.
  - now inversion E.
  - intros X. rewrite K2. auto.
Qed.

Lemma sent_after g p : lg_sent (ledger_step true g (OWrite FromClient p)) = (if has_req p then lg_sent g ++ [p] else lg_sent g).
Proof. destruct g. cbn. unfold has_req. reflexivity. Qed.

Lemma inv_request c st p rest g st' r : Inv c st (p :: rest) g true ->
  handle_outgoing_packet p st = (st', r) ->
  let g' := ledger_step (cleans c) g (OWrite FromClient p) in
  if bad_request (receive_max (cf_opts c)) p then r = HPanic /\ Inv c st' rest g' false
  else r = HOk tt /\ st_in st' = st_in st /\ Inv c st' rest g' true.
Proof.
  intros HI H g'.
  assert (Inv c st rest g' false) as H0. { eapply inv_close; [exact HI|reflexivity|reflexivity|discriminate]. }
  pose proof (Inv_fine _ _ _ _ _ H0) as HF.
  assert (lg_sent g' = if has_req p then lg_sent g ++ [p] else lg_sent g) as ES by (destruct g; reflexivity).
  assert (lg_rel g' = lg_rel g) as ER by (destruct g; reflexivity).
  rewrite ES, ER in HF. pose proof (i_shape _ _ _ _ _ HI) as HS. apply Forall_inv in HS.
  pose proof (outgoing_spec _ _ _ _ _ _ _ (i_R _ _ _ _ _ HI eq_refl) HS HF H) as HO.
  destruct (bad_request _ p).
  - destruct HO as [-> ->]. auto.
  - destruct HO as (-> & HP & HN & HR). split; [reflexivity|]. split; [exact HN|].
    eapply inv_close; [exact HI|reflexivity|exact HP|]. intros _. fold g'. rewrite ES. exact HR.
Qed.

Lemma inv_read c st pend g p st' r : Inv c st pend g true -> handle_incoming_packet p st = (st', r) ->
  let g' := ledger_step (cleans c) g (ORead p) in
  if bad_ack (receive_max (cf_opts c)) p then r = HPanic /\ st' = st /\ Inv c st' pend g' false
  else r <> HPanic /\ Inv c st' pend g' true.
Proof.
  intros HI H g'. pose proof (Inv_fine _ _ _ _ _ HI) as HF.
  pose proof (incoming_spec (cleans c) _ _ g _ _ _ (i_R _ _ _ _ _ HI eq_refl) HF (i_open _ _ _ _ _ HI) (Inv_room _ _ _ _ _ HI) H) as HS.
  destruct (read_keeps (cleans c) g p HF) as (K1 & K2 & K3 & K4). fold g' in HS, K1, K2, K3, K4.
  destruct (bad_ack _ p) eqn:EB.
  - destruct HS as (-> & -> & S1 & S2). split; [reflexivity|]. split; [reflexivity|].
    assert (frees (cleans c) g (ORead p) = []) as EF.
    { destruct p; try discriminate EB; [|reflexivity]. cbn [frees].
      apply (f_equal req_ids) in S1. pose proof (req_ids_split (answers (PPubAck a)) (lg_sent g)) as P0.
      assert (lg_sent g' = filter (fun q => negb (answers (PPubAck a) q)) (lg_sent g)) as X by (destruct g; reflexivity).
      rewrite X in S1. rewrite S1 in P0. apply perm_len in P0. rewrite len_app2 in P0.
      destruct (req_ids (filter (answers (PPubAck a)) (lg_sent g))); [reflexivity|]. unfold len in P0. cbn [length] in P0. lia. }
    rewrite EF in K4. destruct HI as [A B C D E F G]. constructor; try congruence; auto.
    rewrite <- A. apply Permutation_app_head. rewrite <- K4. now destruct (lg_clients g).
  - destruct HS as (S0 & S1 & S2). split; [exact S0|]. destruct HI as [A B C D E F G].
    unfold pool_after in S2. constructor; auto.
    + rewrite <- A, S2. destruct (lg_clients g); cbn [pl_ids]; [rewrite <- app_assoc|]; apply Permutation_app_head; exact K4.
    + rewrite S2. destruct (lg_clients g); exact B.
    + rewrite S2, K2. destruct (lg_clients g); exact C.
    + rewrite K1. exact D.
Qed.

Lemma inv_answer c st pend g a st' r : Inv c st pend g true -> ca_rc a = RSuccess ->
  handle_incoming_connack (cleans c) a st = (st', r) ->
  let g' := ledger_step (cleans c) g (OAnswer (PConnAck a)) in
  Inv c st' pend g' true /\ st_in st' = [] /\
  match r with
  | HOk re => expects g' (PConnHandle re)
  | HErr e => lg_clients g = false
  | HPanic => False
  end.
Proof.
  intros HI HC H g'. pose proof (Inv_fine _ _ _ _ _ HI) as HF.
  pose proof (connack_spec (cleans c) _ _ g _ _ _ (i_R _ _ _ _ _ HI eq_refl) HF (i_open _ _ _ _ _ HI) (Inv_room _ _ _ _ _ HI) HC H) as HS.
  destruct (answer_keeps (cleans c) g (PConnAck a) (i_sent _ _ _ _ _ HI)) as (K1 & K2 & K3 & K4). fold g' in K1, K2, K3, K4.
  cbn zeta in HS. fold g' in HS. destruct HS as (S1 & S2 & (fr & P1 & P2) & S3). split; [|split; [exact S2|]].
  - destruct HI as [A B C D E F G]. unfold pool_after in P2. constructor; auto.
    + rewrite <- A, P2. destruct (lg_clients g); cbn [pl_ids]; [rewrite <- app_assoc|]; apply Permutation_app_head; [|exact K4].
      rewrite P1. exact K4.
    + rewrite P2. destruct (lg_clients g); exact B.
    + rewrite P2, K2. destruct (lg_clients g); exact C.
    + rewrite K1. exact D.
  - destruct r as [re|e|]; [|exact S3|exact S3]. destruct S3 as (rel' & -> & S4 & S5). cbn. eauto.
Qed.

Lemma inv_begin c st pend g lv p pool' : Inv c st pend g lv -> request_shape p ->
  pl_ids (st_pool st) = opt_list (req_id p) ++ pl_ids pool' -> pl_cap pool' = pl_cap (st_pool st) -> pl_open pool' = pl_open (st_pool st) ->
  Inv c (set_pool pool' st) (pend ++ [p]) (ledger_step (cleans c) g (OBegin p)) lv.
Proof.
  intros [A B C D E F G] HS H1 H2 H3. destruct g as [op se re lo cl ex er]. cbn [ledger_step].
  cbn [lg_open lg_sent lg_rel lg_clients lg_lost] in *.
  assert (forall x, R (receive_max (cf_opts c)) st se re -> R (receive_max (cf_opts c)) (set_pool x st) se re) as HRP by (intros; now apply R_pool).
  rewrite H1 in A. unfold in_flight in *. cbn [lg_open lg_sent lg_rel] in *.
  destruct (req_id p) as [i|] eqn:EI; cbn [is_some].
  - constructor; unfold in_flight; cbn [lg_open lg_sent lg_rel lg_clients lg_lost set_pool st_pool]; try congruence; auto.
    + rewrite <- A. rewrite req_ids_app, req_ids_cons, EI. perm.
    + rewrite filter_app, <- D. cbn [filter]. unfold has_req at 1. rewrite EI. reflexivity.
    + apply Forall_app. auto.
  - constructor; unfold in_flight; cbn [lg_open lg_sent lg_rel lg_clients lg_lost set_pool st_pool]; try congruence; auto.
    + rewrite filter_app, <- D. cbn [filter]. unfold has_req at 1. rewrite EI. cbn. now rewrite app_nil_r.
    + apply Forall_app. auto.
Qed.
Lemma inv_drop c st pend g lv : Inv c st pend g lv ->
  Inv c (set_pool (Pool (pl_ids (st_pool st)) (pl_cap (st_pool st)) false) st) pend (ledger_step (cleans c) g ODropClients) lv.
Proof.
  intros [A B C D E F G]. destruct g. cbn [ledger_step]. constructor; auto. intros X. apply R_pool. now apply G.
Qed.

(* ---- observations that do not concern requests ------------------------------------------------ *)
Definition neutral (o : out) : bool :=
  match o with
  | OAccept _ | OConnect | OConnectEnd _ | ORun | ORunEnd _ | OHandle _ | OHandled | OPanic => true
  | OAnswer (PConnAck a) => match ca_rc a with RSuccess => false | _ => true end
  | OAnswer _ => true
  | OWrite FromClient _ | OWriteFail FromClient _ => false
  | OWrite _ _ | OWriteFail _ _ => true
  | ORead (PPubAck _ | PPubRec _ | PPubComp _ | PSubAck _ | PUnsubAck _) => false
  | ORead _ => true
  | _ => false
  end.
Lemma neutral_step clean g o : neutral o = true -> ledger_step clean g o = g.
Proof.
  destruct g as [op se re lo cl ex er]. destruct o; cbn [neutral ledger_step]; intros H; try discriminate; try reflexivity.
  - destruct p; try reflexivity. now destruct (ca_rc c).
  - assert (forall a, (forall p, answers a p = false) ->
      Ledger op (filter (fun p => negb (answers a p)) se) re (lo ++ (if cl then [] else req_ids (filter (answers a) se))) cl ex er = Ledger op se re lo cl ex er) as HG.
    { intros a HA. rewrite (filter_all _ se) by (intros q _; now rewrite HA). rewrite (filter_none _ se) by (intros q _; apply HA).
      destruct cl; cbn; now rewrite app_nil_r. }
    destruct p; try discriminate H; apply HG; intros q; now destruct q.
  - now destruct o.
  - now destruct o.
Qed.
Lemma neutral_steps clean g l : forallb neutral l = true -> fold_left (ledger_step clean) l g = g.
Proof.
  revert g. induction l as [|o l IH]; intros g; cbn [forallb fold_left]; [reflexivity|]. intros H. apply andb_true_iff in H as [H1 H2].
  rewrite neutral_step by exact H1. auto.
Qed.
Lemma trace_log l s : trace (log l s) = trace s ++ l.
Proof. unfold trace, log. cbn. rewrite map_app, map_map. cbn. now rewrite map_id. Qed.
Lemma ledger_log c l s : ledger_at c (log l s) = fold_left (ledger_step (cleans c)) l (ledger_at c s).
Proof. unfold ledger_at, ledger_of. now rewrite trace_log, fold_left_app. Qed.

Lemma inv_frame c s s' l : inv c s -> y_state s' = y_state s -> Permutation (pending s) (pending s') ->
  trace s' = trace s ++ l -> forallb neutral l = true -> (live (y_pc s') = true -> live (y_pc s) = true) ->
  expects (ledger_at c s) (y_pc s') -> inv c s'.
Proof.
  intros [A B] HS HP HT HN HL HE.
  assert (ledger_at c s' = ledger_at c s) as EG.
  { unfold ledger_at, ledger_of. rewrite HT, fold_left_app. now apply neutral_steps. }
  constructor; rewrite EG; [|exact HE]. rewrite HS. eapply Inv_pend; eassumption.
Qed.

Ltac tr := unfold again, connected, end_connect, end_run, crash_now, smol_flush, smol_push; repeat (rewrite trace_log || match goal with
  | |- context [trace (set_state ?x ?s)] => change (trace (set_state x s)) with (trace s)
  | |- context [trace (set_wait ?x ?s)] => change (trace (set_wait x s)) with (trace s)
  | |- context [trace (set_chan ?x ?s)] => change (trace (set_chan x s)) with (trace s)
  | |- context [trace (set_net ?x ?s)] => change (trace (set_net x s)) with (trace s)
  | |- context [trace (set_pc ?x ?s)] => change (trace (set_pc x s)) with (trace s)
  | |- context [trace (set_now ?x ?s)] => change (trace (set_now x s)) with (trace s)
  end); rewrite <- ?app_assoc.

Ltac lg := repeat match goal with
  | |- context [ledger_at ?c (set_state ?x ?s)] => change (ledger_at c (set_state x s)) with (ledger_at c s)
  | |- context [ledger_at ?c (set_wait ?x ?s)] => change (ledger_at c (set_wait x s)) with (ledger_at c s)
  | |- context [ledger_at ?c (set_chan ?x ?s)] => change (ledger_at c (set_chan x s)) with (ledger_at c s)
  | |- context [ledger_at ?c (set_net ?x ?s)] => change (ledger_at c (set_net x s)) with (ledger_at c s)
  | |- context [ledger_at ?c (set_pc ?x ?s)] => change (ledger_at c (set_pc x s)) with (ledger_at c s)
  end.

(* the network task stops or goes on, without a word about requests *)
Definition quiet (q : pc) : bool := match q with PRequest _ | PConnHandle _ | PConnResend _ => false | _ => true end.
Lemma inv_quiet c s s' l : inv c s -> y_state s' = y_state s -> y_wait s' = y_wait s -> y_chan s' = y_chan s -> held (y_pc s) = [] ->
  trace s' = trace s ++ l -> forallb neutral l = true -> (live (y_pc s') = true -> live (y_pc s) = true) -> quiet (y_pc s') = true -> inv c s'.
Proof.
  intros HI HS HW HC HH HT HN HL HQ. eapply inv_frame; eauto.
  - unfold pending. rewrite HW, HC, HH. destruct (y_pc s'); try discriminate; reflexivity.
  - destruct (y_pc s'); try discriminate; exact I.
Qed.

Lemma pc_end_run rt r s : y_pc (end_run rt r s) = PIdle. Proof. now destruct rt. Qed.
Lemma state_end_run rt r s : y_state (end_run rt r s) = y_state s. Proof. now destruct rt. Qed.
Lemma wait_end_run rt r s : y_wait (end_run rt r s) = y_wait s. Proof. now destruct rt. Qed.
Lemma chan_end_run rt r s : y_chan (end_run rt r s) = y_chan s. Proof. now destruct rt. Qed.
Lemma trace_end_run rt r s : trace (end_run rt r s) = trace s ++ [ORunEnd r].
Proof. unfold end_run. now tr. Qed.

Lemma neutral_writes (o : origin) ps oks : o <> FromClient -> forallb neutral (tokio_writes o ps oks) = true.
Proof.
  intros HO. revert oks. induction ps as [|p ps IH]; intros oks; cbn [tokio_writes]; [reflexivity|].
  destruct oks as [|b oks]; (destruct (write_result Tokio p _); cbn [forallb]; rewrite IH; now destruct o).
Qed.
Lemma neutral_smol_writes (o : origin) ps ok : o <> FromClient -> forallb neutral (smol_writes o ps ok) = true.
Proof.
  intros HO. unfold smol_writes. apply forallb_forall. intros x Hx. apply in_map_iff in Hx as (p & <- & _).
  destruct (smol_write_all ps ok), o; try reflexivity; contradiction.
Qed.

(* an end of run after which the state, the waiting calls and the channel are as before *)
Lemma reply_now_fields rt r s : y_state (reply_now rt r s) = y_state s /\ y_wait (reply_now rt r s) = y_wait s /\
  y_chan (reply_now rt r s) = y_chan s /\ trace (reply_now rt r s) = trace s /\ quiet (y_pc (reply_now rt r s)) = true.
Proof. now destruct rt, r. Qed.

Lemma inv_init c : inv c (init c).
Proof.
  constructor; [|exact I]. unfold ledger_at. cbn. constructor; cbn; try reflexivity.
  - unfold in_flight. cbn. now rewrite app_nil_r.
  - constructor.
  - constructor.
  - intros _. constructor; cbn.
    + apply repeat_length. + reflexivity. + intros i x. rewrite slot_repeat. split; [discriminate|intros [[] _]].
    + split; [constructor|tauto]. + split; [constructor|tauto]. + split; [constructor|tauto].
Qed.

Lemma pick_perm {A} i (l : list A) x r : pick i l = Some (x, r) -> Permutation l (x :: r).
Proof.
  revert l x r. induction i as [|i IH]; intros [|y l] x r; cbn [pick]; intros H; try discriminate.
  - now injection H as <- <-.
  - destruct (pick i l) as [[z t]|] eqn:E; [|discriminate]. injection H as <- <-. rewrite (IH _ _ _ E). constructor.
Qed.

Ltac quiet l0 := eapply inv_quiet with (l := l0); [eassumption|reflexivity|reflexivity|reflexivity|now match goal with E : y_pc _ = _ |- _ => rewrite E end|try (now tr)|try reflexivity|try (match goal with E : y_pc _ = _ |- _ => rewrite E end; reflexivity)|try reflexivity].

Lemma inv_step c e s s' : config_ok c -> inv c s -> step c e s = Some s' -> inv c s'.
Proof.
  intros HC HI H. destruct e; cbn [step] in H.
  - (* tick *) injection H as <-. eapply inv_frame with (l := []); [eassumption|reflexivity|reflexivity|now rewrite app_nil_r|reflexivity|auto|apply HI].
  - (* call *)
    unfold begin_call, client_call in H. destruct (pl_open (st_pool (y_state s))) eqn:EO; [|discriminate].
    assert (exists i pool', (if needs_id c0 then pl_ids (st_pool (y_state s)) = i :: pl_ids pool' else pl_ids (st_pool (y_state s)) = pl_ids pool') /\
      pl_cap pool' = pl_cap (st_pool (y_state s)) /\ pl_open pool' = pl_open (st_pool (y_state s)) /\
      match validate (max_packet (cf_opts c)) (build c0 i) with
      | Some e => Some (log [OBegin (build c0 i); ORefuse (build c0 i) e] (set_state (set_pool pool' (y_state s)) s)) = Some s'
      | None => Some (log [OBegin (build c0 i)] (set_wait (y_wait s ++ [build c0 i]) (set_state (set_pool pool' (y_state s)) s))) = Some s'
      end) as (i & pool' & E1 & E2 & E3 & E4).
    { destruct (needs_id c0); [destruct (pl_ids (st_pool (y_state s))) as [|i ids] eqn:EI; [discriminate|]|];
        [exists i, (Pool ids (pl_cap (st_pool (y_state s))) (pl_open (st_pool (y_state s))))|exists 0, (st_pool (y_state s))];
        (split; [reflexivity|split; [reflexivity|split; [first [reflexivity|cbn; congruence]|]]]);
        destruct (validate _ _); rewrite ?EO; exact H. }
    clear H. set (p := build c0 i) in *.
    assert (Inv c (set_pool pool' (y_state s)) (pending s ++ [p]) (ledger_step (cleans c) (ledger_at c s) (OBegin p)) (live (y_pc s))) as HB.
    { apply inv_begin; [apply HI|apply build_shape| |exact E2|exact E3]. unfold p. rewrite build_id. destruct (needs_id c0); exact E1. }
    destruct (validate _ _) as [ve|]; injection E4 as <-.
    + constructor.
      * rewrite ledger_log. lg. cbn [fold_left y_state log set_state]. eapply inv_close with (p := p) (lv := live (y_pc s)) (o := ORefuse p ve); [|reflexivity|reflexivity|].
        -- eapply Inv_pend; [exact HB| |auto]. unfold pending. cbn. rewrite <- Permutation_cons_append. reflexivity.
        -- intros L. pose proof (i_R _ _ _ _ _ HB L) as X. destruct (ledger_step (cleans c) (ledger_at c s) (OBegin p)). exact X.
      * rewrite ledger_log. lg. cbn [fold_left y_pc log set_state]. pose proof (v_expects _ _ HI) as X. destruct (ledger_at c s). cbn. destruct (is_some (req_id p)); exact X.
    + constructor.
      * rewrite ledger_log. lg. cbn [fold_left y_state log set_state]. eapply Inv_pend; [exact HB| |auto]. unfold pending. cbn. rewrite <- !app_assoc.
        apply Permutation_app_head. rewrite app_assoc. symmetry. apply Permutation_cons_append.
      * rewrite ledger_log. lg. cbn [fold_left y_pc log set_state]. pose proof (v_expects _ _ HI) as X. destruct (ledger_at c s). cbn. destruct (is_some (req_id p)); exact X.
  - (* send *)
    unfold send_call in H. destruct (pick i (y_wait s)) as [[p rest]|] eqn:EP; [|discriminate].
    destruct (len (y_chan s) <? CHANNEL_SIZE); [|discriminate]. injection H as <-. apply pick_perm in EP.
    eapply inv_frame with (l := [OAccept p]); [eassumption|reflexivity| |now tr|reflexivity|auto|apply HI].
    unfold pending. cbn. rewrite EP, <- app_assoc. cbn [app]. rewrite !app_assoc. now apply Permutation_cons_app.
  - (* give up *)
    unfold give_up in H. destruct (pick i (y_wait s)) as [[p rest]|] eqn:EP; [|discriminate]. injection H as <-. apply pick_perm in EP.
    constructor; rewrite ledger_log; lg; cbn [fold_left].
    + eapply inv_close with (p := p) (lv := live (y_pc s)); [|reflexivity|reflexivity|].
      * eapply Inv_pend; [apply HI| |auto]. unfold pending. cbn. now rewrite EP.
      * intros L. pose proof (i_R _ _ _ _ _ (v_inv _ _ HI) L) as X. destruct (ledger_at c s). exact X.
    + pose proof (v_expects _ _ HI) as X. destruct (ledger_at c s). exact X.
  - (* drop *)
    unfold drop_clients in H. destruct (y_wait s) eqn:EW; [|discriminate]. injection H as <-.
    constructor; rewrite ledger_log; lg; cbn [fold_left].
    + exact (inv_drop _ _ _ _ _ (v_inv _ _ HI)).
    + pose proof (v_expects _ _ HI) as X. destruct (ledger_at c s). exact X.
  - (* connect *)
    destruct (y_pc s) eqn:EP; try discriminate. injection H as <-. quiet [OConnect].
  - (* run *)
    destruct (y_pc s) eqn:EP; try discriminate. injection H as <-. unfold start_run. destruct (nt_connected (y_net s)).
    + destruct (cf_rt c); quiet [ORun].
    + quiet [ORunEnd (inr NoNetwork)]. cbn. now rewrite EP.
  - (* packet *)
    destruct (y_pc s) eqn:EP; try discriminate; injection H as <-.
    + (* the answer to CONNECT *)
      unfold connect_answer. destruct p; try (quiet [OAnswer p; OConnectEnd (Some (NotConnAck p))]).
      all: try (match goal with |- context [NotConnAck ?p] => quiet [OAnswer p; OConnectEnd (Some (NotConnAck p))] end).
      destruct (ca_rc c0) eqn:EC; try (match goal with |- context [ConnectionRefused ?r] => quiet [OAnswer (PConnAck c0); OConnectEnd (Some (ConnectionRefused r))] end; cbn; now rewrite EC).
      cbn [y_state set_net log]. destruct (handle_incoming_connack (op_clean_start (cf_opts c)) c0 (y_state s)) as [st r] eqn:EH.
      pose proof (v_inv _ _ HI) as HV. rewrite EP in HV. cbn [live] in HV.
      destruct (inv_answer _ _ _ _ _ _ _ HV EC EH) as (J1 & _ & J2). destruct r as [re|he|].
      * constructor; rewrite ledger_log; cbn [fold_left]; rewrite neutral_step by reflexivity.
        -- lg. rewrite ledger_log. cbn [fold_left].
           eapply Inv_pend; [exact J1| |auto]. unfold pending. cbn. rewrite EP. reflexivity.
        -- lg. rewrite ledger_log. exact J2.
      * constructor; unfold end_connect; rewrite ledger_log; cbn [fold_left]; rewrite neutral_step by reflexivity; [|exact I].
        lg. rewrite ledger_log. cbn [fold_left].
        eapply Inv_pend; [exact J1| |auto]. unfold pending. cbn. rewrite EP. reflexivity.
      * contradiction.
    + (* a packet during run *)
      assert (forall st r, handle_incoming_packet p (y_state s) = (st, r) -> inv c (
        let s := set_state st (log [ORead p] s) in
        match r with
        | HErr e => end_run (cf_rt c) (inr (HandlerErr e)) s
        | HPanic => crash_now s
        | HOk (reply, true) => log [OHandle p] (set_pc (PHandle (AfterPacket reply)) s)
        | HOk (reply, false) => reply_now (cf_rt c) reply s
        end)) as HG.
      { intros st r EH. pose proof (v_inv _ _ HI) as HV. rewrite EP in HV. cbn [live] in HV.
        pose proof (inv_read _ _ _ _ _ _ _ HV EH) as J. cbn zeta.
        set (s1 := set_state st (log [ORead p] s)).
        assert (ledger_at c s1 = ledger_step (cleans c) (ledger_at c s) (ORead p)) as EL.
        { change (ledger_at c s1) with (ledger_at c (log [ORead p] s)). now rewrite ledger_log. }
        destruct (bad_ack (receive_max (cf_opts c)) p).
        - destruct J as (-> & _ & J). unfold crash_now. constructor; rewrite ledger_log; cbn [fold_left]; [|exact I].
          rewrite neutral_step by reflexivity. change (ledger_at c (set_pc ?q s1)) with (ledger_at c s1). rewrite EL.
          eapply Inv_pend; [exact J| |auto]. unfold pending. cbn. now rewrite EP.
        - destruct J as (J0 & J).
          assert (inv c s1) as I1. { constructor; rewrite EL; [|cbn; rewrite EP; exact I]. unfold pending. cbn. rewrite EP. unfold pending in J. rewrite EP in J. exact J. }
          assert (y_pc s1 = PSelect since) as E1 by exact EP.
          destruct r as [[reply []]|he|]; [| | |congruence].
          + quiet [OHandle p].
          + destruct (reply_now_fields (cf_rt c) reply s1) as (F1 & F2 & F3 & F4 & F5).
            eapply inv_quiet with (l := []); [exact I1|exact F1|exact F2|exact F3|now rewrite E1|now rewrite app_nil_r|reflexivity|now rewrite E1|exact F5].
          + eapply inv_quiet with (l := [ORunEnd (inr (HandlerErr he))]);
              [exact I1|apply state_end_run|apply wait_end_run|apply chan_end_run|now rewrite E1|apply trace_end_run|reflexivity|now rewrite E1|now rewrite pc_end_run]. }
      unfold incoming. destruct (handle_incoming_packet p (y_state s)) as [st r] eqn:EH. specialize (HG st r eq_refl).
      destruct p; try exact HG;
      try (change (y_state (log ?l s)) with (y_state s); rewrite EH; exact HG).
      * clear HG. quiet [ORead PPingResp; OHandle PPingResp].
      * clear HG. quiet [ORead (PDisconnect d); OHandle (PDisconnect d)].
  - (* partial *)
    destruct (y_pc s) eqn:EP; try discriminate. injection H as <-. destruct (cf_rt c); [exact HI|].
    quiet (@nil out). now rewrite app_nil_r.
  - (* read error *)
    destruct (y_pc s) eqn:EP; try discriminate; injection H as <-.
    + quiet [OConnectEnd (Some e)].
    + eapply inv_quiet with (l := [ORunEnd (inr e)]);
        [exact HI|apply state_end_run|apply wait_end_run|apply chan_end_run|now rewrite EP|apply trace_end_run|reflexivity|now rewrite EP|now rewrite pc_end_run].
  - (* outgoing *)
    destruct (y_pc s) eqn:EP; try discriminate. unfold outgoing in H. destruct (y_chan s) as [|p rest] eqn:EC.
    + destruct (pl_open _); [discriminate|]. injection H as <-.
      eapply inv_quiet with (l := [ORunEnd (inr NoOutgoingPacketSender)]);
        [exact HI|apply state_end_run|apply wait_end_run|apply chan_end_run|now rewrite EP|apply trace_end_run|reflexivity|now rewrite EP|now rewrite pc_end_run].
    + injection H as <-. eapply inv_frame with (l := []); [eassumption|reflexivity| |now rewrite app_nil_r|reflexivity|now rewrite EP|exact I].
      unfold pending. cbn. rewrite EP, EC. cbn [held app]. apply Permutation_app_head. rewrite app_nil_r. apply Permutation_cons_append.
  - (* timer *)
    destruct (y_pc s) eqn:EP; try discriminate. unfold timer, tokio_timer, smol_timer in H.
    destruct (cf_rt c); [destruct (_ <? _); [discriminate|]|destruct (_ <? _); [discriminate|]];
      (destruct (nt_await (y_net s)); [|destruct (nt_perform (y_net s))]); try discriminate; injection H as <-;
      (quiet (@nil out); now rewrite app_nil_r).
  - (* handled *)
    destruct (y_pc s) eqn:EP; try discriminate; injection H as <-.
    + pose proof (v_expects _ _ HI) as HE. rewrite EP in HE. destruct re as [ps|]; [|destruct HE].
      eapply inv_frame with (l := [OHandled]); [eassumption|reflexivity| |now tr|reflexivity|now rewrite EP|exact HE].
      unfold pending. cbn. now rewrite EP.
    + unfold handled. destruct a.
      * destruct (cf_rt c); quiet [OHandled].
      * destruct (cf_rt c); quiet [OHandled; ORunEnd (inl IncomingDisconnect)].
      * destruct (reply_now_fields (cf_rt c) reply (log [OHandled] s)) as (F1 & F2 & F3 & F4 & F5).
        eapply inv_quiet with (l := [OHandled]); [exact HI|exact F1|exact F2|exact F3|now rewrite EP|rewrite F4; now tr|reflexivity|now rewrite EP|exact F5].
  - (* write *)
    destruct (y_pc s) eqn:EP; try discriminate; injection H as <-.
    + destruct (write_result _ _ _) as [e|].
      * quiet [OWriteFail FromConnect (create_connect (nt_opts (y_net s))); OConnectEnd (Some e)].
      * quiet [OWrite FromConnect (create_connect (nt_opts (y_net s)))].
    + unfold reply_written. destruct (write_result _ _ _) as [e|].
      * quiet [OWriteFail FromReply p; ORunEnd (inr e)].
      * quiet [OWrite FromReply p].
    + unfold flushed. pose proof (neutral_smol_writes FromReply ps ok ltac:(discriminate)) as HN. destruct (smol_write_all ps ok) as [e|].
      * quiet (smol_writes FromReply ps ok ++ [ORunEnd (inr e)]). rewrite forallb_app, HN. reflexivity.
      * quiet (smol_writes FromReply ps ok). exact HN.
    + (* a request *)
      unfold request_written. pose proof (v_inv _ _ HI) as HV. rewrite EP in HV. cbn [live] in HV.
      assert (Inv c (y_state s) (p :: y_wait s ++ y_chan s) (ledger_at c s) true) as HV1.
      { eapply Inv_pend; [exact HV| |auto]. unfold pending. rewrite EP. cbn [held]. rewrite app_assoc. symmetry. apply Permutation_cons_append. }
      destruct (write_result _ _ _) as [e|].
      * assert (ledger_at c (end_run (cf_rt c) (inr e) (log [OWriteFail FromClient p] s)) = ledger_step (cleans c) (ledger_at c s) (OWriteFail FromClient p)) as EL.
        { unfold ledger_at, ledger_of. rewrite trace_end_run, trace_log, !fold_left_app. cbn [fold_left]. now rewrite neutral_step. }
        constructor; rewrite EL.
        -- rewrite state_end_run, pc_end_run. unfold pending. rewrite wait_end_run, chan_end_run, pc_end_run. cbn [held live]. rewrite app_nil_r.
           eapply inv_close; [exact HV1|reflexivity|reflexivity|]. intros _. pose proof (i_R _ _ _ _ _ HV1 eq_refl) as X. destruct (ledger_at c s). exact X.
        -- rewrite pc_end_run. exact I.
      * cbn [y_state log]. destruct (handle_outgoing_packet p (y_state s)) as [st r] eqn:EH.
        pose proof (inv_request _ _ _ _ _ _ _ HV1 EH) as J.
        set (s1 := set_state st (log [OWrite FromClient p] s)).
        assert (ledger_at c s1 = ledger_step (cleans c) (ledger_at c s) (OWrite FromClient p)) as EL.
        { change (ledger_at c s1) with (ledger_at c (log [OWrite FromClient p] s)). now rewrite ledger_log. }
        destruct (bad_request _ p).
        -- destruct J as (-> & J). unfold crash_now. constructor; rewrite ledger_log; cbn [fold_left]; [|exact I].
           rewrite neutral_step by reflexivity. change (ledger_at c (set_pc ?q s1)) with (ledger_at c s1). rewrite EL.
           unfold pending. cbn. rewrite app_nil_r. exact J.
        -- destruct J as (-> & _ & J).
           assert (inv c (again (set_net (set_last (y_now s1) (y_net s1)) s1))) as I1.
           { constructor; [|exact I]. change (ledger_at c (again (set_net ?n s1))) with (ledger_at c s1). rewrite EL. unfold pending. cbn. rewrite app_nil_r. exact J. }
           destruct (type_of p); try exact I1.
           change (end_run (cf_rt c) (inl OutgoingDisconnect) (set_net (set_last (y_now s1) (y_net s1)) s1)) with
             (end_run (cf_rt c) (inl OutgoingDisconnect) (again (set_net (set_last (y_now s1) (y_net s1)) s1))).
           eapply inv_quiet with (l := [ORunEnd (inl OutgoingDisconnect)]);
             [exact I1|apply state_end_run|apply wait_end_run|apply chan_end_run|reflexivity|apply trace_end_run|reflexivity|reflexivity|now rewrite pc_end_run].
    + unfold ping_written. destruct (write_result _ _ _) as [e|].
      * destruct (cf_rt c); quiet [OWriteFail FromTimer PPingReq; ORunEnd (inr e)].
      * quiet [OWrite FromTimer PPingReq].
    + unfold bye_written. destruct (write_result _ _ _) as [e|].
      * destruct (cf_rt c); quiet [OWriteFail FromTimer bye; ORunEnd (inr e)].
      * destruct (cf_rt c); quiet [OWrite FromTimer bye; ORunEnd (inl KeepAliveTimeout)].
  - (* retransmission *)
    destruct (y_pc s) eqn:EP; try discriminate; injection H as <-. unfold connect_resend. destruct (cf_rt c).
    + pose proof (neutral_writes FromResend re oks ltac:(discriminate)) as HN. destruct ok.
      * quiet (tokio_writes FromResend re oks ++ [OConnectEnd None]). rewrite forallb_app, HN; reflexivity.
      * quiet (tokio_writes FromResend re oks ++ [OConnectEnd (Some Io)]). rewrite forallb_app, HN; reflexivity.
    + pose proof (neutral_smol_writes FromResend re ok ltac:(discriminate)) as HN. destruct (smol_write_all re ok) as [e|].
      * quiet (smol_writes FromResend re ok ++ [OConnectEnd (Some e)]). rewrite forallb_app, HN; reflexivity.
      * quiet (smol_writes FromResend re ok ++ [OConnectEnd None]). rewrite forallb_app, HN; reflexivity.
Qed.

Lemma inv_exec c es s s' : config_ok c -> inv c s -> exec c es s = Some s' -> inv c s'.
Proof.
  intros HC. revert s. induction es as [|e es IH]; intros s HI; cbn [exec]; [congruence|].
  destruct (step c e s) as [t|] eqn:E; [|discriminate]. apply IH. eapply inv_step; eassumption.
Qed.
Lemma inv_reachable c s : config_ok c -> reachable c s -> inv c s.
Proof. intros HC [es H]. eapply inv_exec; [exact HC|apply inv_init|exact H]. Qed.
