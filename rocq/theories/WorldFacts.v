(* C67: the invariant of client and broker. *)
From Coq Require Import Permutation.
From Verif Require Import Base VarInt Prims Props Codes Packets BaseFacts Options Session Client System SpecSession SpecNet SpecWorld SessionFacts SystemFacts AckFacts IdFacts.

(* ---- the ledger ------------------------------------------------------------------------------ *)
Definition known (g : ledger) : list N := in_flight g ++ lg_lost g.
Record sound (g : ledger) : Prop := {
  so_nodup : NoDup (known g);
  so_sent : Forall identified (lg_sent g);
  so_pos : Forall (fun i => 1 <= i) (known g);
  so_open : Forall request_shape (lg_open g) }.
Definition side (clean : bool) (g : ledger) (o : out) : Prop :=
  match o with
  | OBegin p => request_shape p /\ forall i, req_id p = Some i -> 1 <= i /\ ~ In i (known g)
  | ORefuse p _ | OGiveUp p | OWrite FromClient p | OWriteFail FromClient p => request_shape p /\ (req_id p <> None -> In p (lg_open g))
  | OWrite FromConnect (PConnect x) | OWriteFail FromConnect (PConnect x) => cn_clean_start x = clean
  | _ => True
  end.

Lemma known_in g i : In i (known g) <-> In i (req_ids (lg_open g)) \/ In i (req_ids (lg_sent g)) \/ In i (lg_rel g) \/ In i (lg_lost g).
Proof. unfold known, in_flight. rewrite !in_app_iff. tauto. Qed.
Lemma sound_fine g : sound g -> fine (lg_sent g) (lg_rel g).
Proof.
  intros [A B C D]. split; [exact B|]. unfold known, in_flight in *. split; [now apply nodup_app_l, nodup_app_r in A|].
  rewrite !Forall_app in C. apply Forall_app. tauto.
Qed.
Lemma nodup_disjoint {A} (a b : list A) x : NoDup (a ++ b) -> In x a -> In x b -> False.
Proof.
  induction a as [|y a IH]; [intros _ []|]. cbn [app]. intros HN. inversion HN; subst. intros [->|HA] HB; [apply H1, in_or_app; auto|auto].
Qed.
Lemma sound_perm (fr : list N) g g' : sound g -> Forall identified (lg_sent g') -> Forall request_shape (lg_open g') ->
  Permutation (fr ++ known g') (known g) -> sound g'.
Proof.
  intros [A B C D] HS HO HP. constructor; auto.
  - apply Permutation_sym in HP. apply (Permutation_NoDup HP) in A. now apply nodup_app_r in A.
  - apply Permutation_sym in HP. apply (Permutation_Forall HP) in C. apply Forall_app in C. tauto.
Qed.

Lemma open_nodup g : sound g -> NoDup (req_ids (lg_open g)).
Proof. intros HS. pose proof (so_nodup _ HS) as H. unfold known, in_flight in H. now apply nodup_app_l, nodup_app_l in H. Qed.

Lemma sound_step clean g o : sound g -> side clean g o -> sound (ledger_step clean g o).
Proof.
  intros HS HD. pose proof (sound_fine _ HS) as HF.
  assert (forall p, closes o = Some p -> (req_id p <> None -> In p (lg_open g)) -> sound (ledger_step clean g o)) as HCL.
  { intros p HC HI. destruct (closes_keeps clean g o p HC (open_nodup _ HS) HI (so_sent _ HS)) as (_ & _ & K3 & K4 & K5).
    apply (sound_perm [] _ _ HS K3); [|exact K5]. rewrite K4. unfold without_req. destruct (req_id p); [|apply (so_open _ HS)].
    apply Forall_forall. intros q Hq. apply filter_In in Hq as [Hq _]. pose proof (so_open _ HS) as X. rewrite Forall_forall in X. auto. }
  destruct o; try (destruct g; exact HS); cbn [side] in HD; try (apply (HCL p); [reflexivity|tauto]).
  - (* begin *)
    destruct HD as [H1 H2]. destruct g as [op se re lo cl ex er]. cbn [ledger_step]. destruct (req_id p) as [i|] eqn:E; cbn [is_some]; [|exact HS].
    destruct (H2 _ eq_refl) as [H3 H4]. destruct HS as [A B C D]. unfold known, in_flight in *. cbn [lg_open lg_sent lg_rel lg_lost] in *.
    assert (Permutation ((req_ids (op ++ [p]) ++ req_ids se ++ re) ++ lo) (i :: (req_ids op ++ req_ids se ++ re) ++ lo)) as HP.
    { rewrite req_ids_app, req_ids_cons, E. perm. }
    constructor; unfold known, in_flight; cbn [lg_open lg_sent lg_rel lg_lost]; auto.
    + apply (Permutation_NoDup (Permutation_sym HP)). now constructor.
    + apply (Permutation_Forall (Permutation_sym HP)). now constructor.
    + apply Forall_app. auto.
  - destruct g as [op se re lo cl ex er]. destruct HS as [A B C D]. now constructor.
  - (* answer *)
    destruct (answer_keeps clean g p (so_sent _ HS)) as (K1 & _ & K3 & K4). apply (sound_perm _ _ _ HS K3) in K4; [exact K4|]. rewrite K1. apply (so_open _ HS).
  - destruct (read_keeps clean g p HF) as (K1 & _ & K3 & K4). apply (sound_perm _ _ _ HS K3) in K4; [exact K4|]. rewrite K1. apply (so_open _ HS).
  - destruct o; try (destruct g; exact HS). apply (HCL p); [reflexivity|tauto].
  - destruct o; try (destruct g; exact HS). apply (HCL p); [reflexivity|tauto].
Qed.

(* an identifier is in one place only *)
Section Places.
  Variables (g : ledger) (i : N).
  Hypothesis HS : sound g.
  Let HN : NoDup ((req_ids (lg_open g) ++ req_ids (lg_sent g) ++ lg_rel g) ++ lg_lost g) := so_nodup _ HS.
  Lemma open_in p : In p (lg_open g) -> req_id p = Some i -> In i (req_ids (lg_open g)).
  Proof. intros. apply in_req_ids. eauto. Qed.
  Lemma sent_in p : In p (lg_sent g) -> req_id p = Some i -> In i (req_ids (lg_sent g)).
  Proof. intros. apply in_req_ids. eauto. Qed.
  Lemma open_sent : In i (req_ids (lg_open g)) -> In i (req_ids (lg_sent g)) -> False.
  Proof. clear - HN. intros H1 H2. apply nodup_app_l in HN. apply (nodup_disjoint _ _ _ HN H1). apply in_or_app. auto. Qed.
  Lemma open_rel : In i (req_ids (lg_open g)) -> In i (lg_rel g) -> False.
  Proof. clear - HN. intros H1 H2. apply nodup_app_l in HN. apply (nodup_disjoint _ _ _ HN H1). apply in_or_app. auto. Qed.
  Lemma sent_rel : In i (req_ids (lg_sent g)) -> In i (lg_rel g) -> False.
  Proof. clear - HN. intros H1 H2. apply nodup_app_l, nodup_app_r in HN. exact (nodup_disjoint _ _ _ HN H1 H2). Qed.
  Lemma lost_open : In i (lg_lost g) -> In i (req_ids (lg_open g)) -> False.
  Proof. clear - HN. intros H1 H2. apply (nodup_disjoint _ _ i HN); [|exact H1]. rewrite !in_app_iff. auto. Qed.
  Lemma lost_sent : In i (lg_lost g) -> In i (req_ids (lg_sent g)) -> False.
  Proof. clear - HN. intros H1 H2. apply (nodup_disjoint _ _ i HN); [|exact H1]. rewrite !in_app_iff. auto. Qed.
  Lemma lost_rel : In i (lg_lost g) -> In i (lg_rel g) -> False.
  Proof. clear - HN. intros H1 H2. apply (nodup_disjoint _ _ i HN); [|exact H1]. rewrite !in_app_iff. auto. Qed.
  Lemma open_one p q : In p (lg_open g) -> In q (lg_open g) -> req_id p = Some i -> req_id q = Some i -> p = q.
  Proof.
    clear - HN. intros H1 H2 E1 E2. apply (same_id_same (lg_open g)); auto; try congruence. now apply nodup_app_l, nodup_app_l in HN.
  Qed.
  Lemma sent_one p q : In p (lg_sent g) -> In q (lg_sent g) -> req_id p = Some i -> req_id q = Some i -> p = q.
  Proof.
    clear - HN. intros H1 H2 E1 E2. apply (same_id_same (lg_sent g)); auto; try congruence. now apply nodup_app_l, nodup_app_r, nodup_app_l in HN.
  Qed.
End Places.

(* ---- what is under way for identifier i ------------------------------------------------------- *)
Definition todo_packets (l : list item) : list packet :=
  flat_map (fun it => match it with IReply p | IResend p => [p] | _ => [] end) l.
Definition up_tok (i : N) (p : packet) : bool :=
  match p with
  | PPublish x => match pb_qos x with AtMostOnce => false | _ => has_id i p end
  | PPubRel a => i =? ak_id a
  | _ => false
  end.
Definition down_tok (i : N) (p : packet) : bool :=
  match p with PPubAck a | PPubRec a | PPubComp a => i =? ak_id a | _ => false end.
Definition toks (i : N) (up : list packet) (todo : list item) (down : list packet) : list packet :=
  filter (up_tok i) (up ++ todo_packets todo) ++ filter (down_tok i) down.

Definition asked_or_passed (x : publish) (t : stage) : Prop := t = Asked (PPublish x) \/ t = Passed x.
(* what a packet under way tells *)
Definition tells (i : N) (rel rcv : list N) (stale : bool) (t : stage) (p : packet) : Prop :=
  match p with
  | PPublish y => exists x, same x y /\ pb_pkid x = Some i /\ pb_qos x <> AtMostOnce /\ asked_or_passed x t /\
      (pb_qos x = ExactlyOnce -> stale = false -> t = Passed x -> In i rcv)
  | PPubRel _ => In i rel
  | PPubAck a => exists x, pb_qos x = AtLeastOnce /\ asked_or_passed x t /\ (rec_accepts (ak_rc a) = true -> t = Passed x)
  | PPubRec a => exists x, pb_qos x = ExactlyOnce /\ if rec_accepts (ak_rc a) then t = Passed x else t = Asked (PPublish x)
  | PPubComp _ => In i rel /\ ~ In i rcv
  | _ => True
  end.
Definition done2 (t : stage) : Prop := exists x, t = Passed x /\ pb_qos x = ExactlyOnce.

Record view (i : N) (g : ledger) (up : list packet) (todo : list item) (down : list packet) (rcv : list N) (stale : bool) (t : stage) : Prop := {
  v_open : forall p, In p (lg_open g) -> req_id p = Some i -> t = Asked p /\ toks i up todo down = [];
  v_sub : forall p, In p (lg_sent g) -> req_id p = Some i -> is_pub p = false -> t = Asked p /\ toks i up todo down = [];
  v_pub : forall x, In (PPublish x) (lg_sent g) -> pb_pkid x = Some i -> pb_qos x <> AtMostOnce /\ asked_or_passed x t /\
    (pb_qos x = ExactlyOnce -> stale = false -> t = Passed x -> In i rcv);
  v_rel : In i (lg_rel g) -> done2 t;
  v_rcv : In i rcv -> done2 t /\ In i (known g);
  v_known : toks i up todo down <> [] -> In i (known g);
  v_one : (length (toks i up todo down) <= 1)%nat;
  v_tells : Forall (tells i (lg_rel g) rcv stale t) (toks i up todo down) }.

Lemma toks_up_cons i p u td d : toks i (p :: u) td d = (if up_tok i p then [p] else []) ++ toks i u td d.
Proof. unfold toks. cbn [app filter]. now destruct (up_tok i p). Qed.
Lemma toks_down_snoc i p u td d : toks i u td (d ++ [p]) = toks i u td d ++ (if down_tok i p then [p] else []).
Proof. unfold toks. rewrite (filter_app (down_tok i)). cbn [filter]. rewrite <- app_assoc. now destruct (down_tok i p). Qed.
Lemma toks_down_cons i p u td d : filter (up_tok i) (u ++ todo_packets td) = [] -> toks i u td (p :: d) = (if down_tok i p then [p] else []) ++ toks i u td d.
Proof. intros H. unfold toks. rewrite H. cbn [app filter]. now destruct (down_tok i p). Qed.
Lemma toks_write i p u td d : toks i (u ++ [p]) td d = filter (up_tok i) (u ++ p :: todo_packets td) ++ filter (down_tok i) d.
Proof. unfold toks. now rewrite <- app_assoc. Qed.
Lemma toks_push i p u it td d : todo_packets [it] = [p] -> toks i (u ++ [p]) td d = toks i u (it :: td) d.
Proof. intros H. rewrite toks_write. unfold toks. replace (todo_packets (it :: td)) with (todo_packets [it] ++ todo_packets td); [now rewrite H|]. unfold todo_packets. cbn [flat_map]. now rewrite app_nil_r. Qed.

(* nothing happens for identifier i, or packets under way are lost *)
Lemma view_keep i g g' u u' td td' d d' r r' st st' t : view i g u td d r st t ->
  (forall p, req_id p = Some i -> In p (lg_open g') -> In p (lg_open g)) ->
  (forall p, req_id p = Some i -> In p (lg_sent g') -> In p (lg_sent g)) ->
  (In i (lg_rel g') <-> In i (lg_rel g)) ->
  (In i (known g) -> In i (known g')) ->
  (toks i u' td' d' = toks i u td d \/ toks i u' td' d' = []) ->
  (In i r' <-> In i r) -> (st' = false -> st = false) ->
  view i g' u' td' d' r' st' t.
Proof.
  intros [A B C D E F G H] HO HSE HR HK HT HRC HST.
  assert (toks i u td d = [] -> toks i u' td' d' = []) as HE. { intros X. destruct HT as [->| ->]; auto. }
  constructor.
  - intros p H1 H2. destruct (A p (HO _ H2 H1) H2) as [X Y]. auto.
  - intros p H1 H2 H3. destruct (B p (HSE _ H2 H1) H2 H3) as [X Y]. auto.
  - intros x H1 H2. destruct (C x (HSE (PPublish x) H2 H1) H2) as (X & Y & Z). repeat split; auto. intros K1 K2 K3. apply HRC. auto.
  - intros X. apply D, HR, X.
  - intros X. apply HRC in X. destruct (E X). auto.
  - intros X. apply HK, F. intros Y. apply X. auto.
  - destruct HT as [->| ->]; [exact G|cbn; lia].
  - destruct HT as [->| ->]; [|constructor]. eapply Forall_impl; [|exact H]. intros p HP. destruct p; cbn [tells] in *; auto.
    + destruct HP as (x & X1 & X2 & X3 & X4 & X5). exists x. repeat split; auto. intros K1 K2 K3. apply HRC. auto.
    + apply HR, HP.
    + rewrite HR, HRC. exact HP.
Qed.
(* the same, the ledger being the same *)
Lemma view_same i g u u' td td' d d' r r' st st' t : view i g u td d r st t ->
  (toks i u' td' d' = toks i u td d \/ toks i u' td' d' = []) ->
  (In i r' <-> In i r) -> (st' = false -> st = false) ->
  view i g u' td' d' r' st' t.
Proof. intros HV HT HR HS. eapply view_keep; try exact HV; auto; tauto. Qed.
(* the broker gives up the session *)
Lemma view_reset i g u u' td d d' r st st' t : view i g u td d r st t ->
  (toks i u' td d' = toks i u td d \/ toks i u' td d' = []) ->
  filter (up_tok i) u = [] -> (st' = false -> st = false /\ r = []) ->
  view i g u' td d' [] st' t.
Proof.
  intros [A B C D E F G H] HT HU HST.
  assert (toks i u td d = [] -> toks i u' td d' = []) as HE. { intros X. destruct HT as [->| ->]; auto. }
  constructor.
  - intros p H1 H2. destruct (A p H1 H2). auto.
  - intros p H1 H2 H3. destruct (B p H1 H2 H3). auto.
  - intros x H1 H2. destruct (C x H1 H2) as (X & Y & Z). repeat split; auto. intros K1 K2 K3. destruct (HST K2) as [K4 ->]. exact (Z K1 K4 K3).
  - exact D.
  - intros [].
  - intros X. apply F. auto.
  - destruct HT as [->| ->]; [exact G|cbn; lia].
  - destruct HT as [->| ->]; [|constructor]. eapply Forall_impl; [|exact H]. intros p HP. destruct p; cbn [tells] in *; auto.
    + destruct HP as (x & X1 & X2 & X3 & X4 & X5). exists x. repeat split; auto. intros K1 K2 K3. destruct (HST K2) as [K4 ->]. exact (X5 K1 K4 K3).
    + destruct HP. split; [assumption|intros []].
Qed.

(* ---- client and broker -------------------------------------------------------------------------- *)
Definition act_item (it : item) : bool := match it with IReply _ | IResend _ | IOpen => true | _ => false end.
Definition active (q : nstate) : bool := n_open q || existsb act_item (n_todo q).
Inductive waiting (clean : bool) : world -> Prop :=
| wt_none us v h r st l : waiting clean (World us [] [] v false h r st l)
| wt_sent x us v h r st l : cn_clean_start x = clean -> waiting clean (World us [PConnect x] [] v false h r st l)
| wt_refused a us v h r st l : ca_rc a <> RSuccess -> waiting clean (World us [] [PConnAck a] v false h r st l)
| wt_ok a d us v n h r st l : ca_rc a = RSuccess -> Forall (fun p => reserved p = false) d -> (v = true -> n = true) ->
    (ca_session_present a = false -> r = []) -> (ca_session_present a = true -> clean = false /\ (v = true -> st = false)) ->
    waiting clean (World us [] (PConnAck a :: d) v n h r st l).
Record glob (c : config) (q : nstate) (w : world) : Prop := {
  gl_sound : sound (n_led q);
  gl_used : n_open q = wd_used w;
  gl_loop : n_phase q = FLoop -> n_open q = true;
  gl_act : active q = true -> wd_live w = true -> wd_in w = true /\ wd_stale w = false;
  gl_opening : n_phase q = FOpening -> n_open q = false /\ n_todo q = [] /\ wd_up w = [] /\ wd_down w = [] /\ wd_in w = false;
  gl_answer : n_phase q = FAnswer -> n_open q = false /\ n_todo q = [] /\ waiting (cleans c) w;
  gl_up : wd_in w = false \/ wd_stale w = true -> forall i, filter (up_tok i) (wd_up w) = [];
  gl_rcv : wd_session w = false -> wd_rcv w = [];
  gl_in : wd_in w = true -> wd_session w = true }.
Definition views (q : nstate) (w : world) : Prop :=
  forall i, exists t, follows i (wd_log w) t /\ view i (n_led q) (wd_up w) (n_todo q) (wd_down w) (wd_rcv w) (wd_stale w) t.
Definition agree (c : config) (q : nstate) (w : world) : Prop := glob c q w /\ views q w.

Lemma view_recv i g p k u td d r st t : view i g (p :: u) td d r st t -> up_tok i p = true -> down_tok i k = true ->
  toks i u td d = [] /\ toks i u td (d ++ [k]) = [k] /\ tells i (lg_rel g) r st t p /\ In i (known g).
Proof.
  intros [A B C D E F G H] HU HD. rewrite toks_up_cons, HU in *. cbn [app length] in *.
  assert (toks i u td d = []) as HE. { destruct (toks i u td d); [reflexivity|cbn in G; lia]. }
  split; [exact HE|]. rewrite toks_down_snoc, HD, HE. split; [reflexivity|]. split; [now inversion H|]. apply F. discriminate.
Qed.
(* a publish is passed on and acknowledged *)
Lemma view_pass i g y k u td d r r' st t : view i g (PPublish y :: u) td d r st t -> pb_pkid y = Some i -> pb_qos y <> AtMostOnce -> down_tok i k = true ->
  (forall x, same x y -> pb_qos x = pb_qos y) -> st = false ->
  match k with
  | PPubAck a => pb_qos y = AtLeastOnce /\ r' = r
  | PPubRec a => pb_qos y = ExactlyOnce /\ ~ In i r /\ r' = i :: r /\ rec_accepts (ak_rc a) = true
  | _ => False end ->
  exists x, next_stage i t (Pass y) (Passed x) /\ view i g u td (d ++ [k]) r' st (Passed x).
Proof.
  intros HV HI HQ HD HQE Hst HK.
  assert (up_tok i (PPublish y) = true) as HU. { cbn. destruct (pb_qos y); [congruence| |]; unfold has_id; cbn; rewrite HI; apply N.eqb_refl. }
  destruct (view_recv _ _ _ _ _ _ _ _ _ _ HV HU HD) as (HE & HE2 & (x & X1 & X2 & X3 & X4 & X5) & HN).
  destruct HV as [A B C D E F G H]. rewrite toks_up_cons, HU in *. cbn [app] in *.
  pose proof (HQE _ X1) as XQ.
  assert (pb_qos y = ExactlyOnce -> t = Asked (PPublish x)) as XA.
  { intros K. destruct X4 as [X4|X4]; [exact X4|]. exfalso. destruct k; try contradiction; destruct HK as [K1 K2]; [congruence|]. destruct K2 as [K2 _]. apply K2, X5; congruence. }
  assert (done2 t -> t = Passed x /\ pb_qos x = ExactlyOnce) as XD.
  { intros (z & -> & Z). destruct X4 as [X4|X4]; [discriminate X4|]. injection X4 as ->. auto. }
  exists x. split.
  { destruct X4 as [->| ->]; [apply sg_pass; [exact X1|]; unfold has_id; cbn; rewrite X2; apply N.eqb_refl|].
    apply sg_again; [exact X1|]. destruct (pb_qos y) eqn:EQ; try congruence. specialize (XA eq_refl). discriminate XA. }
  constructor.
  - intros p H1 H2. destruct (A p H1 H2) as [_ Y]. discriminate Y.
  - intros p H1 H2 H3. destruct (B p H1 H2 H3) as [_ Y]. discriminate Y.
  - intros z H1 H2. destruct (C z H1 H2) as (Y1 & Y2 & Y3).
    assert (z = x) as ->. { destruct Y2 as [Y2|Y2], X4 as [X4|X4]; rewrite Y2 in X4; congruence. }
    split; [exact Y1|]. split; [now right|]. intros K1 _ _. destruct k; try contradiction; destruct HK as [K2 K3]; [congruence|]. destruct K3 as (_ & -> & _). now left.
  - intros K. destruct (XD (D K)) as [-> K2]. exists x. auto.
  - intros K. destruct k; try contradiction; destruct HK as [K2 K3].
    + subst r'. destruct (E K) as [K4 K5]. split; [|exact K5]. destruct (XD K4) as [_ K6]. congruence.
    + destruct K3 as (K3 & -> & _). split; [exists x; split; [reflexivity|congruence]|exact HN].
  - intros _. exact HN.
  - rewrite HE2. cbn. lia.
  - rewrite HE2. constructor; [|constructor]. destruct k; try contradiction; destruct HK as [K2 K3]; cbn [tells].
    + exists x. split; [congruence|]. split; [now right|reflexivity].
    + destruct K3 as (_ & _ & ->). exists x. split; [congruence|reflexivity].
Qed.
Lemma same_qos x y : same x y -> pb_qos x = pb_qos y.
Proof. intros [->|H]; [reflexivity|]. cbn in H. now injection H as ->. Qed.
Lemma same_id x y : same x y -> pb_pkid x = pb_pkid y.
Proof. intros [->|H]; [reflexivity|]. cbn in H. now injection H as ->. Qed.
(* a publish is acknowledged without being passed on *)
Lemma view_ack i g p k u td d r st t : view i g (p :: u) td d r st t -> up_tok i p = true -> down_tok i k = true ->
  (tells i (lg_rel g) r st t p -> tells i (lg_rel g) r st t k) -> view i g u td (d ++ [k]) r st t.
Proof.
  intros HV HU HD HT. destruct (view_recv _ _ _ _ _ _ _ _ _ _ HV HU HD) as (HE & HE2 & HP & HN).
  destruct HV as [A B C D E F G H]. rewrite toks_up_cons, HU in *. cbn [app] in *. constructor; auto.
  - intros q H1 H2. destruct (A q H1 H2) as [_ Y]. discriminate Y.
  - intros q H1 H2 H3. destruct (B q H1 H2 H3) as [_ Y]. discriminate Y.
  - rewrite HE2. cbn. lia.
  - rewrite HE2. constructor; [auto|constructor].
Qed.
Lemma in_drop i j r : In i (drop_id j r) <-> In i r /\ i <> j.
Proof. unfold drop_id. rewrite filter_In. destruct (N.eqb_spec j i); cbn; intuition congruence. Qed.
Lemma view_release i g b a u td d r st t : sound g -> view i g (PPubRel b :: u) td d r st t -> ak_id b = i -> ak_id a = i ->
  view i g u td (d ++ [PPubComp a]) (drop_id i r) st t.
Proof.
  intros HS HV HU HD.
  assert (up_tok i (PPubRel b) = true) as HU1 by (cbn; now apply N.eqb_eq).
  assert (down_tok i (PPubComp a) = true) as HD1 by (cbn; now apply N.eqb_eq).
  destruct (view_recv _ _ _ _ _ _ _ _ _ _ HV HU1 HD1) as (HE & HE2 & HP & HN). cbn [tells] in HP.
  destruct HV as [A B C D E F G H]. rewrite toks_up_cons, HU1 in *. cbn [app] in *. constructor; auto.
  - intros q H1 H2. destruct (A q H1 H2) as [_ Y]. discriminate Y.
  - intros q H1 H2 H3. destruct (B q H1 H2 H3) as [_ Y]. discriminate Y.
  - intros x H1 H2. exfalso. apply (sent_rel g i HS); [|exact HP]. apply in_req_ids. exists (PPublish x). auto.
  - rewrite HE2. cbn. lia.
  - rewrite HE2. constructor; [|constructor]. cbn [tells]. split; [exact HP|]. rewrite in_drop. tauto.
Qed.

Lemma up_tok_pub i x : up_tok i (PPublish x) = true -> pb_pkid x = Some i.
Proof. cbn. unfold has_id. cbn. destruct (pb_qos x); [discriminate| |]; (destruct (pb_pkid x) as [j|]; [|discriminate]; intros H; apply N.eqb_eq in H; now subst). Qed.
Lemma pub_up_tok i j x : pb_qos x <> AtMostOnce -> pb_pkid x = Some j -> up_tok i (PPublish x) = (i =? j).
Proof. intros H E. cbn. unfold has_id. cbn. rewrite E. destruct (pb_qos x); [congruence| |]; reflexivity. Qed.
Lemma concerns_pass i j x : pb_pkid x = Some j -> i <> j -> concerns i (Pass x) = false.
Proof. intros E H. cbn. unfold has_id. cbn. rewrite E. now apply N.eqb_neq. Qed.
Lemma fo_other i l t e : follows i l t -> concerns i e = false -> follows i (l ++ [e]) t.
Proof. intros H HC. eapply fo_snoc; [exact H|now apply sg_other]. Qed.

Ltac wcbn := cbn [wd_used wd_up wd_down wd_live wd_in wd_session wd_rcv wd_stale wd_log] in *.
Lemma waiting_no_up clean us p u d v n h r st l : waiting clean (World us (p :: u) d v n h r st l) ->
  exists x, p = PConnect x /\ u = [] /\ d = [] /\ n = false /\ cn_clean_start x = clean.
Proof. intros H. inversion H; subst. eauto 10. Qed.


(* everything global about a packet received by the broker, apart from the stages of identifiers *)
Lemma glob_recv c q p us u d d' v h r r' st l l' : glob c q (World us (p :: u) d v true h r st l) -> (h = false -> r' = []) ->
  glob c q (World us u d' v true h r' st l').
Proof.
  intros [A B C D E F G H K] HR. constructor; wcbn; auto.
  - intros X. destruct (E X) as (_ & _ & X1 & _). discriminate X1.
  - intros X. destruct (F X) as (_ & _ & X1). apply waiting_no_up in X1 as (x & _ & _ & _ & X1 & _). discriminate X1.
  - intros X i. specialize (G X i). cbn [filter] in G. destruct (up_tok i p); [discriminate G|exact G].
Qed.
Lemma recv_fresh c q x i us u d v h r st l : glob c q (World us (PPublish x :: u) d v true h r st l) -> pb_qos x <> AtMostOnce -> pb_pkid x = Some i -> st = false /\ h = true.
Proof.
  intros HG HQ HI. split; [|now apply (gl_in _ _ _ HG)]. destruct st; [|reflexivity]. pose proof (gl_up _ _ _ HG (or_intror eq_refl) i) as X. cbn [wd_up filter] in X.
  rewrite (pub_up_tok i i x HQ HI), N.eqb_refl in X. discriminate X.
Qed.
(* another identifier *)
Lemma view_other i g p k u td d r r' st t : view i g (p :: u) td d r st t -> up_tok i p = false -> down_tok i k = false -> (In i r' <-> In i r) ->
  view i g u td (d ++ [k]) r' st t.
Proof.
  intros HV HU HD HR. eapply view_same; [exact HV| |exact HR|auto]. left. rewrite toks_up_cons, toks_down_snoc, HU, HD. now rewrite app_nil_r.
Qed.

Lemma toks_cut i u td d : (length (toks i u td d) <= 1)%nat -> toks i [] td d = toks i u td d \/ toks i [] td d = [].
Proof.
  unfold toks. rewrite filter_app. cbn [app]. destruct (filter (up_tok i) u) as [|p l]; [now left|]. cbn [app length]. rewrite !app_length.
  destruct (filter (up_tok i) (todo_packets td)); [|cbn; lia]. destruct (filter (down_tok i) d); [now right|cbn; lia].
Qed.

Lemma agree_broker c q w w' : agree c q w -> broker true w w' -> agree c q w'.
Proof.
  intros [HG HV] HB. destruct HB.
  - (* accept *)
    assert (r = [] \/ h = true) as HRH. { destruct h; [auto|]. left. now apply (gl_rcv _ _ _ HG). }
    split.
    + destruct HG as [A B C D E F G H' K]. constructor; wcbn; auto; try discriminate.
      * intros X Y. destruct (D X Y) as [D1 _]. discriminate D1.
      * intros X. destruct (E X) as (_ & _ & X1 & _). discriminate X1.
      * intros X. destruct (F X) as (F1 & F2 & F3). split; [exact F1|]. split; [exact F2|]. apply waiting_no_up in F3 as (x & F3 & -> & -> & _ & F4). injection F3 as ->.
        cbn [app]. apply wt_ok; auto.
        -- intros Y. now rewrite Y.
        -- intros Y. rewrite Y. destruct (H0 Y) as (_ & Y1 & Y2). split; [congruence|auto].
      * intros _ i. specialize (G (or_introl eq_refl) i). exact G.
    + intros i. destruct (HV i) as (t & HF & HW). wcbn. exists t. split; [exact HF|].
      pose proof (gl_up _ _ _ HG (or_introl eq_refl) i) as HU. wcbn.
      assert (toks i u (n_todo q) (d ++ [PConnAck a]) = toks i (PConnect cn :: u) (n_todo q) d) as HT. { rewrite toks_up_cons, toks_down_snoc. apply app_nil_r. }
      destruct (ca_session_present a).
      * eapply view_same; [exact HW|now left|reflexivity|auto].
      * eapply view_reset; [exact HW|now left|exact HU|]. intros X. apply orb_false_iff in X as [X1 X2]. split; [exact X1|]. destruct HRH; congruence.
  - (* refuse *)
    split.
    + destruct HG as [A B C D E F G H' K]. constructor; wcbn; auto; try discriminate.
      * intros X. destruct (E X) as (_ & _ & X1 & _). discriminate X1.
      * intros X. destruct (F X) as (F1 & F2 & F3). split; [exact F1|]. split; [exact F2|]. apply waiting_no_up in F3 as (x & F3 & -> & -> & _ & F4). now apply wt_refused.
    + intros i. destruct (HV i) as (t & HF & HW). wcbn. exists t. split; [exact HF|]. eapply view_same; [exact HW| |reflexivity|auto].
      left. pose proof (gl_up _ _ _ HG (or_introl eq_refl) i) as HU. wcbn. rewrite toks_down_snoc. cbn [down_tok]. rewrite app_nil_r.
      unfold toks. rewrite !filter_app, HU. reflexivity.
  - (* QoS 1, passed on *)
    assert (pb_qos x <> AtMostOnce) as HQ by congruence. destruct (recv_fresh _ _ _ _ _ _ _ _ _ _ _ _ HG HQ H0) as [-> ->].
    split; [eapply glob_recv; [exact HG|discriminate]|]. intros j. destruct (HV j) as (t & HF & HW). wcbn. destruct (N.eq_dec j i) as [->|HN].
    + destruct (view_pass _ _ _ (PPubAck a) _ _ _ _ r _ _ HW H0 HQ) as (z & Z1 & Z2); [cbn; now apply N.eqb_eq|intros z; apply same_qos|reflexivity|auto|].
      exists (Passed z). split; [eapply fo_snoc; eassumption|exact Z2].
    + exists t. split; [apply fo_other; [exact HF|now apply (concerns_pass j i)]|]. eapply view_other; [exact HW| | |reflexivity].
      * rewrite (pub_up_tok j i) by assumption. now apply N.eqb_neq.
      * cbn. apply N.eqb_neq. congruence.
  - assert (pb_qos x <> AtMostOnce) as HQ by congruence. destruct (recv_fresh _ _ _ _ _ _ _ _ _ _ _ _ HG HQ H0) as [-> ->].
    split; [eapply glob_recv; [exact HG|discriminate]|]. intros j. destruct (HV j) as (t & HF & HW). wcbn. exists t. split; [exact HF|]. destruct (N.eq_dec j i) as [->|HN].
    + eapply view_ack; [exact HW|now rewrite (pub_up_tok i i), N.eqb_refl|cbn; now apply N.eqb_eq|]. cbn [tells]. intros (z & Z1 & Z2 & Z3 & Z4 & Z5).
      exists z. split; [rewrite (same_qos _ _ Z1); exact H|]. split; [exact Z4|congruence].
    + eapply view_other; [exact HW| | |reflexivity]; [rewrite (pub_up_tok j i) by assumption; now apply N.eqb_neq|cbn; apply N.eqb_neq; congruence].
  - (* QoS 2, passed on *)
    assert (pb_qos x <> AtMostOnce) as HQ by congruence. destruct (recv_fresh _ _ _ _ _ _ _ _ _ _ _ _ HG HQ H0) as [-> ->].
    split; [eapply glob_recv; [exact HG|discriminate]|]. intros j. destruct (HV j) as (t & HF & HW). wcbn. destruct (N.eq_dec j i) as [->|HN].
    + destruct (view_pass _ _ _ (PPubRec a) _ _ _ _ (i :: r) _ _ HW H0 HQ) as (z & Z1 & Z2); [cbn; now apply N.eqb_eq|intros z; apply same_qos|reflexivity|auto|].
      exists (Passed z). split; [eapply fo_snoc; eassumption|exact Z2].
    + exists t. split; [apply fo_other; [exact HF|now apply (concerns_pass j i)]|]. eapply view_other; [exact HW| | |].
      * rewrite (pub_up_tok j i) by assumption. now apply N.eqb_neq.
      * cbn. apply N.eqb_neq. congruence.
      * cbn. intuition congruence.
  - assert (pb_qos x <> AtMostOnce) as HQ by congruence. destruct (recv_fresh _ _ _ _ _ _ _ _ _ _ _ _ HG HQ H0) as [-> ->].
    split; [eapply glob_recv; [exact HG|discriminate]|]. intros j. destruct (HV j) as (t & HF & HW). wcbn. exists t. split; [exact HF|]. destruct (N.eq_dec j i) as [->|HN].
    + eapply view_ack; [exact HW|now rewrite (pub_up_tok i i), N.eqb_refl|cbn; now apply N.eqb_eq|]. cbn [tells]. intros (z & Z1 & Z2 & Z3 & Z4 & Z5).
      rewrite H3. exists z. split; [rewrite (same_qos _ _ Z1); exact H|]. destruct (v_rcv _ _ _ _ _ _ _ _ HW H1) as [(z' & -> & _) _]. destruct Z4; [discriminate|assumption].
    + eapply view_other; [exact HW| | |reflexivity]; [rewrite (pub_up_tok j i) by assumption; now apply N.eqb_neq|cbn; apply N.eqb_neq; congruence].
  - assert (pb_qos x <> AtMostOnce) as HQ by congruence. destruct (recv_fresh _ _ _ _ _ _ _ _ _ _ _ _ HG HQ H0) as [-> ->].
    split; [eapply glob_recv; [exact HG|discriminate]|]. intros j. destruct (HV j) as (t & HF & HW). wcbn. exists t. split; [exact HF|]. destruct (N.eq_dec j i) as [->|HN].
    + eapply view_ack; [exact HW|now rewrite (pub_up_tok i i), N.eqb_refl|cbn; now apply N.eqb_eq|]. cbn [tells]. intros (z & Z1 & Z2 & Z3 & Z4 & Z5).
      rewrite H3. exists z. rewrite (same_qos _ _ Z1) in *. split; [exact H|]. destruct Z4 as [Z4|Z4]; [exact Z4|]. exfalso. auto.
    + eapply view_other; [exact HW| | |reflexivity]; [rewrite (pub_up_tok j i) by assumption; now apply N.eqb_neq|cbn; apply N.eqb_neq; congruence].
  - (* PUBREL *)
    split.
    { eapply glob_recv; [exact HG|]. intros X. pose proof (gl_in _ _ _ HG eq_refl) as Y. wcbn. congruence. }
    intros j. destruct (HV j) as (t & HF & HW). wcbn. exists t. split; [exact HF|]. destruct (N.eq_dec j (ak_id b)) as [->|HN].
    + eapply view_release; [exact (gl_sound _ _ _ HG)|exact HW|reflexivity|exact H].
    + eapply view_other; [exact HW| | |]; [cbn; now apply N.eqb_neq|cbn; apply N.eqb_neq; congruence|]. rewrite in_drop. tauto.
  - split. { eapply glob_recv; [exact HG|]. intros X. now apply (gl_rcv _ _ _ HG). }
    intros j. destruct (HV j) as (t & HF & HW). wcbn. exists t. split; [exact HF|]. eapply view_same; [exact HW| |reflexivity|auto].
    left. rewrite toks_up_cons. replace (up_tok j p) with false; [reflexivity|]. destruct p; try reflexivity; try discriminate H. cbn in *. now destruct (pb_qos _).
  - (* the broker sends something else *)
    split.
    + destruct HG as [A B C D E F G H' K]. constructor; wcbn; auto; try discriminate.
      * intros X. destruct (E X) as (_ & _ & _ & _ & X1). discriminate X1.
      * intros X. destruct (F X) as (F1 & F2 & F3). split; [exact F1|]. split; [exact F2|]. inversion F3; subst. cbn [app]. apply wt_ok; auto. apply Forall_app. auto.
    + intros j. destruct (HV j) as (t & HF & HW). wcbn. exists t. split; [exact HF|]. eapply view_same; [exact HW| |reflexivity|auto].
      left. rewrite toks_down_snoc. replace (down_tok j p) with false; [apply app_nil_r|]. now destruct p.
  - (* the connection breaks *)
    split.
    + destruct HG as [A B C D E F G H' K]. constructor; wcbn; auto; try discriminate.
      * intros X. destruct (E X) as (X1 & X2 & _ & X3 & _). auto.
      * intros X. destruct (F X) as (F1 & F2 & F3). split; [exact F1|]. split; [exact F2|]. inversion F3; subst.
        -- apply wt_none. -- apply wt_none. -- now apply wt_refused.
        -- apply wt_ok; auto; try discriminate. intros Y. match goal with K1 : ca_session_present a = true -> _ |- _ => destruct (K1 Y) as [K2 _] end. split; [exact K2|discriminate].
    + intros j. destruct (HV j) as (t & HF & HW). wcbn. exists t. split; [exact HF|]. eapply view_same; [exact HW| |reflexivity|auto]. apply toks_cut, (v_one _ _ _ _ _ _ _ _ HW).
  - (* the session expires *)
    assert (r = [] \/ h = true) as HRH. { destruct h; [auto|]. left. now apply (gl_rcv _ _ _ HG). }
    split.
    + destruct HG as [A B C D E F G H' K]. constructor; wcbn; auto; try discriminate.
      * intros X Y. destruct (D X Y) as [D1 _]. discriminate D1.
      * intros X. destruct (F X) as (F1 & F2 & F3). split; [exact F1|]. split; [exact F2|]. inversion F3; subst; try (constructor; auto; fail).
        apply wt_ok; auto. intros Y. match goal with K1 : ca_session_present a = true -> _, K0 : v = true -> false = true |- _ => destruct (K1 Y) as [K2 _]; split; [exact K2|]; intros Z; now specialize (K0 Z) end.
    + intros j. destruct (HV j) as (t & HF & HW). wcbn. exists t. split; [exact HF|]. pose proof (gl_up _ _ _ HG (or_introl eq_refl) j) as HU. wcbn.
      eapply view_reset; [exact HW|now left|exact HU|]. intros X. apply orb_false_iff in X as [X1 X2]. split; [exact X1|]. destruct HRH; congruence.
Qed.
