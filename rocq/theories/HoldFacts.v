(* Proofs for P_Hold.v. *)
From Coq Require Import Permutation Sorting.Sorted.
From Verif Require Import Base VarInt Prims Props Codes Packets BaseFacts Options Session Client System SpecSession SpecNet SpecTrace SpecHold SessionFacts SystemFacts NetFacts NetMore.
From Verif Require LabelFacts.

Lemma put_in i l x : In x (put i l) <-> x = i \/ In x l.
Proof.
  induction l as [|j r IH]; cbn [put In]; [intuition|].
  destruct (i <? j); [cbn [In]; intuition|]. destruct (N.eqb_spec i j); [subst; cbn [In]; intuition|]. cbn [In]. rewrite IH. tauto.
Qed.
Lemma put_sorted i l : sorted l -> sorted (put i l).
Proof.
  unfold sorted. induction 1 as [|j r HS IH HA]; cbn [put]; [repeat constructor|].
  destruct (N.ltb_spec i j).
  - constructor; [constructor; assumption|]. constructor; [assumption|]. eapply Forall_impl; [|exact HA]. cbn. intros; lia.
  - destruct (N.eqb_spec i j); [constructor; assumption|]. constructor; [exact IH|]. apply Forall_forall. intros x Hx. apply put_in in Hx as [->|Hx]; [lia|].
    rewrite Forall_forall in HA. now apply HA.
Qed.
Lemma ascending_in l x : In x (ascending l) <-> In x l.
Proof. induction l as [|j r IH]; cbn [ascending fold_right In]; [tauto|]. fold (ascending r). rewrite put_in, IH. intuition. Qed.
Lemma ascending_sorted l : sorted (ascending l).
Proof. induction l as [|j r IH]; cbn [ascending fold_right]; [constructor|]. now apply put_sorted. Qed.
Lemma is_ascending l m : sorted l -> (forall i, In i l <-> In i m) -> l = ascending m.
Proof. intros HS HI. apply LabelFacts.sorted_eq; [exact HS|apply ascending_sorted|]. intros x. now rewrite ascending_in. Qed.

Lemma table_is v rmax sent : length v = N.to_nat rmax -> (forall i x, slot v i = Some x <-> In x (pubs sent) /\ pb_pkid x = Some i) ->
  v = map (fun i => find (named i) (messages sent)) (ids_upto rmax).
Proof.
  intros HL HS. apply nth_ext with (d := None) (d' := None); [unfold ids_upto; now rewrite !map_length, seq_length|]. intros n Hn. rewrite HL in Hn.
  unfold ids_upto. rewrite map_map. rewrite (nth_indep (map _ (seq 1 (N.to_nat rmax))) None (find (named (N.of_nat 0)) (messages sent))) by now rewrite map_length, seq_length.
  rewrite map_nth with (f := fun k => find (named (N.of_nat k)) (messages sent)), seq_nth by exact Hn.
  assert (nth n v None = slot v (N.of_nat (1 + n))) as ->.
  { unfold slot. destruct (N.eqb_spec (N.of_nat (1 + n)) 0); [lia|]. replace (N.to_nat (N.of_nat (1 + n) - 1)) with n by lia.
    destruct (nth_error v n) eqn:E; [now apply nth_error_nth|]. apply nth_error_None in E. lia. }
  set (i := N.of_nat (1 + n)). change (messages sent) with (pubs sent).
  destruct (find (named i) (pubs sent)) as [x|] eqn:E.
  - apply HS. apply find_some in E as [E1 E2]. split; [exact E1|]. unfold named in E2. destruct (pb_pkid x) as [j|]; [|discriminate]. apply N.eqb_eq in E2. now subst.
  - destruct (slot v i) as [x|] eqn:E2; [|reflexivity]. apply HS in E2 as [A B]. pose proof (find_none _ _ E _ A) as C. unfold named in C. rewrite B, N.eqb_refl in C. discriminate.
Qed.
Lemma order_is sent : Forall identified sent -> map pid (pubs sent) = flat_map name_of (messages sent).
Proof.
  intros H. change (messages sent) with (pubs sent). assert (forall x, In x (pubs sent) -> pb_pkid x <> None) as HP.
  { intros x Hx. apply in_pubs in Hx. rewrite Forall_forall in H. specialize (H _ Hx). exact H. }
  clear H. induction (pubs sent) as [|x l IH]; [reflexivity|]. cbn [map flat_map]. rewrite IH by (intros y Hy; apply HP; now right).
  specialize (HP x (or_introl eq_refl)). unfold pid, name_of. destruct (pb_pkid x); [reflexivity|congruence].
Qed.

Lemma session c s : config_ok c -> reachable c s -> y_pc s <> PCrash ->
  y_state s = session_of (receive_max (cf_opts c)) (st_pool (y_state s)) (now_ledger c s) (received (trace s)).
Proof.
  intros HC HR HP. pose proof (inv_reachable _ _ HC HR) as HI. destruct (conforms _ _ HC HR) as [q HQ].
  pose proof (v_inv _ _ HI) as HV. assert (live (y_pc s) = true) as HL by (destruct (y_pc s); try reflexivity; congruence).
  pose proof (i_R _ _ _ _ _ HV HL) as H. pose proof (i_sent _ _ _ _ _ HV) as HS. pose proof (nrun_in _ _ _ (k_run _ _ _ HQ)) as HN.
  pose proof (k_in _ _ _ HQ) as K1. pose proof (k_sorted _ _ _ HQ) as K2. rewrite HN in K1. change (now_ledger c s) with (ledger_at c s).
  destruct H as [R1 R2 R3 [R4 R4'] [R5 R5'] [R6 R6']]. destruct (y_state s) as [pl su un pu o re inn]. cbn [st_pool st_sub st_unsub st_pub st_order st_rel st_in] in *.
  unfold session_of. f_equal.
  - now apply is_ascending.
  - now apply is_ascending.
  - now apply table_is.
  - rewrite R2. now apply order_is.
  - now apply is_ascending.
  - apply is_ascending; [exact K2|]. intros i. symmetry. apply K1.
Qed.

Lemma find_empty rmax : map (fun i => find (named i) (messages [])) (ids_upto rmax) = repeat None (N.to_nat rmax).
Proof.
  unfold ids_upto. rewrite map_map. generalize 1%nat. induction (N.to_nat rmax) as [|n IH]; intros k; [reflexivity|]. cbn [seq map repeat]. f_equal. apply IH.
Qed.
Lemma as_new c s : config_ok c -> reachable c s -> y_pc s <> PCrash -> settled (now_ledger c s) (received (trace s)) ->
  y_state s = new_state (receive_max (cf_opts c)) (st_pool (y_state s)) /\
  Permutation (pl_ids (st_pool (y_state s)) ++ lg_lost (now_ledger c s)) (ids_upto (send_max (cf_opts c))).
Proof.
  intros HC HR HP (E1 & E2 & E3 & E4). split.
  - rewrite (session c s HC HR HP) at 1. unfold session_of, new_state. rewrite E2, E3, E4. f_equal. apply find_empty.
  - pose proof (i_perm _ _ _ _ _ (v_inv _ _ (inv_reachable _ _ HC HR))) as H. change (ledger_at c s) with (now_ledger c s) in H.
    unfold in_flight in H. rewrite E1, E2, E3 in H. exact H.
Qed.
