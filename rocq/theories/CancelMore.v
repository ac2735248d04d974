(* More for P_Cancel.v. *)
From Coq Require Import Permutation.
From Verif Require Import Base VarInt Prims Props Codes Packets BaseFacts SpecCodec Options Session Client System SpecSession SpecTrace SpecOut Cancel SpecCancel
  SessionFacts SystemFacts Cases TraceMore OutMore CancelFacts.

Lemma shown_trace s : map snd (shown (y_log s)) = filter visible (trace s).
Proof.
  unfold trace, shown. induction (y_log s) as [|[t o] l IH]; [reflexivity|]. cbn [filter map snd]. destruct (visible o); cbn [map snd]; now rewrite IH.
Qed.
Lemma careful_like c s stale : careful c s stale -> exists s', reachable c s' /\
  y_state s' = y_state s /\ y_wait s' = y_wait s /\ y_chan s' = y_chan s /\ y_pc s' = y_pc s /\ y_now s' = y_now s /\ shown (y_log s') = shown (y_log s).
Proof.
  intros H. destruct (careful_sim c s stale H) as (es & s2 & HE & n & l & -> & _ & L). eexists. split; [exists es; exact HE|]. cbn. now rewrite L.
Qed.
Lemma like_trace s s' : shown (y_log s') = shown (y_log s) -> filter visible (trace s') = filter visible (trace s).
Proof. intros H. now rewrite <- !shown_trace, H. Qed.

Lemma filter_split {A} (f : A -> bool) l x : forall a b, filter f l = a ++ x :: b -> exists l1 l2, l = l1 ++ x :: l2 /\ filter f l1 = a /\ filter f l2 = b.
Proof.
  induction l as [|y l IH]; intros a b H; cbn [filter] in H; [now destruct a|].
  destruct (f y) eqn:EY.
  - destruct a as [|z a]; cbn [app] in H; injection H as -> H; [now exists [], l|].
    destruct (IH a b H) as (l1 & l2 & -> & <- & E). exists (z :: l1), l2. cbn [app filter]. now rewrite EY.
  - destruct (IH a b H) as (l1 & l2 & -> & <- & E). exists (y :: l1), l2. cbn [app filter]. now rewrite EY.
Qed.
(* a message is handed over once *)
Lemma careful_once c s stale i p1 p2 l1 m l2 : config_ok c -> careful c s stale -> trace s = l1 ++ OHandle p1 :: m ++ OHandle p2 :: l2 -> q2 i p1 -> q2 i p2 ->
  exists o, In o m /\ releases i o = true.
Proof.
  intros HC H HT Q1 Q2. destruct (careful_like c s stale H) as (s' & HR & _ & _ & _ & _ & _ & L). apply like_trace in L. rewrite HT in L.
  rewrite filter_app in L. cbn [filter visible] in L. rewrite filter_app in L. cbn [filter visible] in L.
  destruct (filter_split _ _ _ _ _ L) as (a & b & E & _ & Eb). destruct (filter_split _ _ _ _ _ Eb) as (a2 & b2 & E2 & Em & _). subst b.
  destruct (once c s' i p1 p2 a a2 b2 HC HR E Q1 Q2) as (o & HI & HO). exists o. split; [|exact HO].
  assert (In o (filter visible a2)) as X by (apply filter_In; split; [exact HI|]; destruct o; try discriminate HO; reflexivity).
  rewrite Em in X. now apply filter_In in X.
Qed.

(* what was sent and not finished does not depend on failures *)
Lemma ledger_visible clean l : forall g g', lg_sent g = lg_sent g' -> lg_rel g = lg_rel g' ->
  lg_sent (fold_left (ledger_step clean) l g) = lg_sent (fold_left (ledger_step clean) (filter visible l) g') /\
  lg_rel (fold_left (ledger_step clean) l g) = lg_rel (fold_left (ledger_step clean) (filter visible l) g').
Proof.
  induction l as [|o l IH]; intros [op se re lo cl ex er] [op' se' re' lo' cl' ex' er'] H1 H2; cbn [lg_sent lg_rel] in *; subst; [now split|].
  destruct o; cbn [filter visible fold_left]; try (apply IH; cbn; now auto).
  - apply IH; cbn; now destruct (req_id p).
  - apply IH; cbn; destruct p; reflexivity || (destruct (ca_rc c); try reflexivity; now destruct (ca_session_present c && negb clean)).
  - apply IH; cbn; destruct p; reflexivity.
  - apply IH; cbn; now destruct o.
  - apply IH; cbn; now destruct o.
Qed.
Lemma req_ids_filter l : req_ids (filter has_req l) = req_ids l.
Proof. induction l as [|p l IH]; [reflexivity|]. cbn [filter]. unfold has_req at 1. destruct (req_id p) eqn:E; cbn [is_some]; rewrite ?req_ids_cons, IH, ?E; reflexivity. Qed.
Lemma careful_ids c s stale : config_ok c -> careful c s stale ->
  NoDup (req_ids (y_wait s ++ y_chan s) ++ req_ids (lg_sent (now_ledger c s)) ++ lg_rel (now_ledger c s) ++ pool_of s).
Proof.
  intros HC H. destruct (careful_like c s stale H) as (s' & HR & E1 & E2 & E3 & _ & _ & L). apply like_trace in L.
  destruct (ledger_visible (cleans c) (trace s) ledger0 ledger0 eq_refl eq_refl) as [A1 A2].
  destruct (ledger_visible (cleans c) (trace s') ledger0 ledger0 eq_refl eq_refl) as [B1 B2]. rewrite L, <- A1 in B1. rewrite L, <- A2 in B2.
  unfold now_ledger, ledger_of, pool_of. fold (cleans c). rewrite <- B1, <- B2, <- E1, <- E2, <- E3.
  pose proof (v_inv _ _ (inv_reachable _ _ HC HR)) as V. pose proof (Inv_nodup _ _ _ _ _ V) as ND.
  assert (exists more, Permutation (req_ids (lg_open (ledger_at c s'))) (req_ids (y_wait s' ++ y_chan s') ++ more)) as [more HM].
  { exists (req_ids (held (y_pc s'))). etransitivity; [unfold req_ids; apply Permutation_flat_map; exact (i_pend _ _ _ _ _ V)|].
    fold (req_ids (filter has_req (pending s'))). unfold pending. rewrite app_assoc. now rewrite req_ids_filter, req_ids_app. }
  apply (@nodup_app_l _ _ (more ++ lg_lost (ledger_at c s'))). eapply Permutation_NoDup; [|exact ND]. unfold in_flight. rewrite HM. unfold ledger_at, ledger_of.
  set (a := req_ids (y_wait s' ++ y_chan s')). set (b := lg_sent _). set (d := lg_rel _). set (e := lg_lost _). set (p := pl_ids _).
  perm.
Qed.

(* ---- bytes ---- *)
Lemma send_complete rt ls x : sd_buf x = [] ->
  fold_left (fun x pe => send rt (fst pe) (snd pe) x) (map (fun ps => (ps, Complete)) ls) x = Side [] (sd_sent x ++ concat (map (wire_bytes rt) (concat ls))).
Proof.
  revert x. induction ls as [|ps ls IH]; intros [b t] H; cbn [sd_buf sd_sent] in *; subst b; cbn [map fold_left concat]; [now rewrite app_nil_r|].
  rewrite IH by (destruct rt; reflexivity). f_equal. rewrite map_app, concat_app, app_assoc. f_equal. now destruct rt.
Qed.
Lemma sent_complete rt ls : sd_sent (send_all rt (map (fun ps => (ps, Complete)) ls)) = concat (map (wire_bytes rt) (concat ls)) /\ sd_buf (send_all rt (map (fun ps => (ps, Complete)) ls)) = [].
Proof. unfold send_all. now rewrite send_complete. Qed.
Lemma sent_cut rt ls ps k : sd_sent (send_all rt (map (fun ps => (ps, Complete)) ls ++ [(ps, Cut k)])) = concat (map (wire_bytes rt) (concat ls)) ++ take k (concat (map (wire_bytes rt) ps)).
Proof. unfold send_all. rewrite fold_left_app, send_complete by reflexivity. cbn [fold_left fst snd sd_sent side0 app]. now destruct rt. Qed.
Lemma take_rest k (b : bytes) : exists r, b = take k b ++ r.
Proof. unfold take. exists (skipn (N.to_nat k) b). now rewrite firstn_skipn. Qed.
(* whoever reads what was sent finds a beginning of what the client wanted to send *)
Lemma sent_parsed_cut rt ls ps e : Forall (fun p => packet_ok p /\ encodes p (wire_bytes rt p)) (concat ls ++ ps) ->
  forall qs cs rest, Forall packet_ok qs -> Forall2 encodes qs cs -> concat cs ++ rest = sd_sent (send_all rt (map (fun ps => (ps, Complete)) ls ++ [(ps, e)])) ->
  exists more, concat ls ++ ps = qs ++ more.
Proof.
  intros H qs cs rest HQ HE E.
  assert (exists r, concat cs ++ r = concat (map (wire_bytes rt) (concat ls ++ ps))) as [r ER].
  { destruct e as [|k].
    - exists rest. rewrite E. pose proof (sent_complete rt (ls ++ [ps])) as [X _]. rewrite map_app in X. cbn [map] in X. rewrite X. now rewrite concat_app; cbn [concat]; rewrite app_nil_r.
    - rewrite sent_cut in E. destruct (take_rest k (concat (map (wire_bytes rt) ps))) as [r Hr]. exists (rest ++ r). now rewrite app_assoc, E, <- app_assoc, <- Hr, map_app, concat_app. }
  eapply parse_prefix; [| |exact HQ|exact HE|exact ER].
  - eapply Forall_impl; [|exact H]. now intros p [? _].
  - clear - H. induction H as [|p l [_ HP] _ IH]; cbn [map]; [apply Forall2_nil|]. apply Forall2_cons; [exact HP|exact IH].
Qed.
