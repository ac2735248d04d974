(* Lemmas about lengths, splitting and writers *)
From Verif Require Import Base.

Lemma len_nil {A} : len (@nil A) = 0.
Proof. reflexivity. Qed.
Lemma len_cons {A} (x : A) l : len (x :: l) = 1 + len l.
Proof. unfold len; cbn [length]; lia. Qed.
Lemma len_app {A} (a b : list A) : len (a ++ b) = len a + len b.
Proof. unfold len; rewrite app_length; lia. Qed.
Lemma len_map {A B} (f : A -> B) l : len (map f l) = len l.
Proof. unfold len; rewrite map_length; reflexivity. Qed.
Lemma len_zero {A} (l : list A) : len l = 0 -> l = [].
Proof. destruct l; [reflexivity|]. rewrite len_cons. lia. Qed.
#[export] Hint Rewrite @len_nil @len_cons @len_app @len_map : len.

Lemma take_app {A} (a b : list A) n : n = len a -> take n (a ++ b) = a.
Proof.
  intros ->. unfold take, len. rewrite Nat2N.id, firstn_app, Nat.sub_diag, firstn_O, app_nil_r.
  apply firstn_all.
Qed.
Lemma drop_app {A} (a b : list A) n : n = len a -> drop n (a ++ b) = b.
Proof.
  intros ->. unfold drop, len. rewrite Nat2N.id, skipn_app, Nat.sub_diag, skipn_O.
  rewrite skipn_all. reflexivity.
Qed.
Lemma take_drop {A} (l : list A) n : take n l ++ drop n l = l.
Proof. apply firstn_skipn. Qed.
Lemma take_0 {A} (l : list A) : take 0 l = [].
Proof. reflexivity. Qed.
Lemma drop_0 {A} (l : list A) : drop 0 l = l.
Proof. reflexivity. Qed.
Lemma take_all {A} (l : list A) n : n = len l -> take n l = l.
Proof. intros H. rewrite <- (app_nil_r l) at 1. apply take_app. exact H. Qed.
Lemma drop_all {A} (l : list A) n : n = len l -> drop n l = [].
Proof. intros H. rewrite <- (app_nil_r l) at 1. apply drop_app. exact H. Qed.
Lemma len_take {A} (l : list A) n : n <= len l -> len (take n l) = n.
Proof. unfold len, take. rewrite firstn_length. lia. Qed.
Lemma len_drop {A} (l : list A) n : len (drop n l) = len l - n.
Proof. unfold len, drop. rewrite skipn_length. lia. Qed.
Lemma take_app_le {A} (a b : list A) n : n <= len a -> take n (a ++ b) = take n a.
Proof.
  unfold take, len. intros H. rewrite firstn_app.
  replace (N.to_nat n - length a)%nat with 0%nat by lia. rewrite firstn_O, app_nil_r. reflexivity.
Qed.
Lemma drop_app_le {A} (a b : list A) n : n <= len a -> drop n (a ++ b) = drop n a ++ b.
Proof.
  unfold drop, len. intros H. rewrite skipn_app.
  replace (N.to_nat n - length a)%nat with 0%nat by lia. reflexivity.
Qed.
Lemma drop_drop {A} (l : list A) n m : drop n (drop m l) = drop (m + n) l.
Proof.
  unfold drop. rewrite N2Nat.inj_add. revert l. generalize (N.to_nat m) as k.
  induction k as [|k IH]; intros l; [reflexivity|].
  destruct l; cbn [skipn Nat.add]; [now rewrite skipn_nil|apply IH].
Qed.

Lemma all_bytes_app a b : all_bytes (a ++ b) <-> all_bytes a /\ all_bytes b.
Proof. apply Forall_app. Qed.
Lemma all_bytes_take n l : all_bytes l -> all_bytes (take n l).
Proof. intros H. rewrite <- (take_drop l n) in H. apply all_bytes_app in H. tauto. Qed.
Lemma all_bytes_drop n l : all_bytes l -> all_bytes (drop n l).
Proof. intros H. rewrite <- (take_drop l n) in H. apply all_bytes_app in H. tauto. Qed.

(* ---- writers ---- *)
Lemma w_seq_put a b : w_put a >>> w_put b = w_put (a ++ b).
Proof. unfold w_seq, w_put; cbn. now rewrite len_app. Qed.
Lemma w_seq_nil_r a : a >>> w_nil = a.
Proof. unfold w_seq, w_nil. destruct a as [b c [e|]]; cbn; [reflexivity|]. rewrite app_nil_r. f_equal. lia. Qed.
Lemma w_seq_nil_l a : w_nil >>> a = a.
Proof. destruct a; reflexivity. Qed.
Lemma w_put_nil : w_put [] = w_nil.
Proof. reflexivity. Qed.
Lemma w_seq_assoc a b c : a >>> b >>> c = a >>> (b >>> c).
Proof.
  unfold w_seq. destruct a as [ab ac [ae|]]; cbn; [reflexivity|].
  destruct b as [bb bc [be|]]; cbn; [reflexivity|]. now rewrite app_assoc, N.add_assoc.
Qed.
Lemma w_concat_put (l : list bytes) : w_concat (map w_put l) = w_put (concat l).
Proof.
  induction l as [|a l IH]; [reflexivity|]. cbn [map w_concat fold_right concat].
  change (fold_right w_seq w_nil (map w_put l)) with (w_concat (map w_put l)).
  now rewrite IH, w_seq_put.
Qed.
Lemma w_concat_put_ext {A} (f : A -> wr) (g : A -> bytes) (l : list A) :
  (forall x, In x l -> f x = w_put (g x)) -> w_concat (map f l) = w_put (concat (map g l)).
Proof.
  intros H. rewrite <- w_concat_put, map_map. f_equal. now apply map_ext_in.
Qed.

Lemma ptype_eqb_refl t : ptype_eqb t t = true.
Proof. unfold ptype_eqb. destruct (ptype_eq_dec t t); congruence. Qed.
Lemma ptype_eqb_eq t u : ptype_eqb t u = true <-> t = u.
Proof. unfold ptype_eqb. destruct (ptype_eq_dec t u); split; congruence. Qed.
Lemma ptype_eqb_neq t u : t <> u -> ptype_eqb t u = false.
Proof. unfold ptype_eqb. destruct (ptype_eq_dec t u); congruence. Qed.

(* a sweep over all values below a bound *)
Definition upto (n : nat) : list N := map N.of_nat (seq 0 n).
Lemma in_upto n x : x < N.of_nat n -> In x (upto n).
Proof.
  intros H. apply in_map_iff. exists (N.to_nat x). split; [lia|]. apply in_seq. lia.
Qed.
Lemma sweep (P : N -> bool) n : forallb P (upto n) = true -> forall x, x < N.of_nat n -> P x = true.
Proof. intros H x Hx. rewrite forallb_forall in H. apply H, in_upto, Hx. Qed.
