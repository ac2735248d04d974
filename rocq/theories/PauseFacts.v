(* Proofs for P_Pause.v. *)
From Verif Require Import Base VarInt Prims Props Codes Packets BaseFacts Options Session Client System SpecSession SpecPause Cases TimeFacts CancelFacts.

Definition later_pc (d : N) (q : pc) : pc := match q with PSelect i => PSelect (i + d) | _ => q end.
Definition meets (q : pc) : bool := running q || answered q.
Record shift (rt : runtime) (d : N) (q : pc) (n1 n2 : net) : Prop := {
  sh_conn : nt_connected n2 = nt_connected n1;
  sh_opts : nt_opts n2 = nt_opts n1;
  sh_keep : nt_keep n2 = nt_keep n1;
  sh_last : meets q || nt_connected n1 = true -> nt_last n2 = nt_last n1 + d;
  sh_wait : rt = Smol \/ running q = true -> nt_await n2 = option_map (fun i => i + d) (nt_await n1);
  sh_perf : nt_perform n2 = nt_perform n1;
  sh_buf : nt_buf n2 = nt_buf n1 }.
Definition psim (c : config) (d : N) (l0 : list (N * out)) (s1 s2 : sys) : Prop :=
  exists n l, s2 = Sys (y_state s1) (y_wait s1) (y_chan s1) n (later_pc d (y_pc s1)) (y_now s1 + d) (l0 ++ later d l) /\
    shift (cf_rt c) d (y_pc s1) (y_net s1) n /\ y_log s1 = l0 ++ l.
Definition orel {A} (P : A -> A -> Prop) (a b : option A) : Prop :=
  match a, b with Some x, Some y => P x y | None, None => True | _, _ => False end.

Lemma psim_done c d l0 st w ch n1 n2 q q' t l m : shift (cf_rt c) d q n1 n2 -> q' = later_pc d q ->
  psim c d l0 (Sys st w ch n1 q t (l0 ++ l ++ map (pair t) m)) (Sys st w ch n2 q' (t + d) (l0 ++ later d l ++ map (pair (t + d)) m)).
Proof.
  intros A ->. exists n2, (l ++ map (pair t) m). unfold later. rewrite map_app, map_map. split; [reflexivity|]. split; [exact A|reflexivity].
Qed.
Lemma psim_done0 c d l0 st w ch n1 n2 q q' t t' l : shift (cf_rt c) d q n1 n2 -> q' = later_pc d q -> t' = t + d ->
  psim c d l0 (Sys st w ch n1 q t (l0 ++ l)) (Sys st w ch n2 q' t' (l0 ++ later d l)).
Proof. intros A -> ->. exists n2, l. auto. Qed.
Ltac pgo := repeat match goal with
  | |- orel _ (match ?x with _ => _ end) _ => destruct x eqn:?; rd; try congruence
  | |- orel _ (Some (match ?x with _ => _ end)) _ => destruct x eqn:?; rd; try congruence
  | |- orel _ (let (_, _) := ?x in _) _ => destruct x eqn:?; rd
  | |- orel _ (Some (let (_, _) := ?x in _)) _ => destruct x eqn:?; rd
  end.
Ltac pfin := cbn [orel later_pc]; try exact I; rd; pairs; rewrite <- ?app_assoc, <- ?map_app;
  try ((apply psim_done0 || apply psim_done); [constructor|reflexivity|try lia ..]);
  cbn [nt_connected nt_opts nt_keep nt_last nt_await nt_perform nt_buf running answered meets orb option_map] in *; 
  try assumption; try reflexivity; try congruence; try tauto;
  try (let X := fresh in intros X; match goal with A : _ \/ _ -> ?a = ?b |- ?a = ?b => apply A; destruct X as [X|X]; [left; congruence|first [discriminate X|right; exact X]] end).

Lemma shift_lt t d a k : (t <? a + k) = (t + d <? a + d + k).
Proof. destruct (N.ltb_spec t (a + k)), (N.ltb_spec (t + d) (a + d + k)); try reflexivity; lia. Qed.
Lemma psim_step c d l0 e s1 s2 : psim c d l0 s1 s2 -> orel (psim c d l0) (step c e s1) (step c e s2).
Proof.
  intros (n & l & -> & A & L). destruct s1 as [st w ch [b1 o1 k1 la1 a1 p1 bu1] q t lg]. cbn [y_log] in L. subst lg.
  destruct n as [b2 o2 k2 la2 a2 p2 bu2]. destruct A as [A1 A2 A3 A4 A5 A6 A7].
  cbn [nt_connected nt_opts nt_keep nt_last nt_await nt_perform nt_buf y_state y_wait y_chan y_net y_pc y_now y_log] in *. subst.
  destruct (cf_rt c) eqn:RT; (destruct e; rd; rewrite ?RT).
  - pfin.
  - unf; rd; rewrite ?RT; pgo; pfin.
  - unf; rd; rewrite ?RT; pgo; pfin.
  - unf; rd; rewrite ?RT; pgo; pfin.
  - unf; rd; rewrite ?RT; pgo; pfin.
  - destruct q; cbn [later_pc]; try exact I. unf; rd; rewrite ?RT; pgo; pfin.
  - destruct q; cbn [later_pc]; try exact I. unf; rd; rewrite ?RT; pgo; pfin.
  - destruct q; cbn [later_pc]; try exact I; unf; rd; rewrite ?RT; pgo; pfin.
  - destruct q; cbn [later_pc]; try exact I; unf; rd; rewrite ?RT; pgo; pfin.
  - destruct q; cbn [later_pc]; try exact I; unf; rd; rewrite ?RT; pgo; pfin.
  - destruct q; cbn [later_pc]; try exact I; unf; rd; rewrite ?RT; pgo; pfin.
  - destruct q; cbn [later_pc]; try exact I; unf; rd; rewrite ?RT; specialize (A5 (or_intror eq_refl)); specialize (A4 eq_refl); subst; destruct a1 as [i|], p1; cbn [option_map negb]; rewrite <- ?(shift_lt _ d _ _); pgo; pfin.
  - destruct q; cbn [later_pc]; try exact I; unf; rd; rewrite ?RT; pgo; pfin.
  - destruct q; cbn [later_pc]; try exact I; unf; rd; rewrite ?RT; pgo; pfin.
  - destruct q; cbn [later_pc]; try exact I; unf; rd; rewrite ?RT; pgo; pfin.
  - pfin.
  - unf; rd; rewrite ?RT; pgo; pfin.
  - unf; rd; rewrite ?RT; pgo; pfin.
  - unf; rd; rewrite ?RT; pgo; pfin.
  - unf; rd; rewrite ?RT; pgo; pfin.
  - destruct q; cbn [later_pc]; try exact I. unf; rd; rewrite ?RT; pgo; pfin.
  - destruct q; cbn [later_pc]; try exact I. unf; rd; rewrite ?RT; pgo; pfin.
  - destruct q; cbn [later_pc]; try exact I; unf; rd; rewrite ?RT; pgo; pfin.
  - destruct q; cbn [later_pc]; try exact I; unf; rd; rewrite ?RT; pgo; pfin.
  - destruct q; cbn [later_pc]; try exact I; unf; rd; rewrite ?RT; pgo; pfin.
  - destruct q; cbn [later_pc]; try exact I; unf; rd; rewrite ?RT; pgo; pfin.
  - destruct q; cbn [later_pc]; try exact I; unf; rd; rewrite ?RT; specialize (A5 (or_intror eq_refl)); specialize (A4 eq_refl); subst; destruct a1 as [i|], p1; cbn [option_map negb]; rewrite <- ?(shift_lt _ d _ _); pgo; pfin.
  - destruct q; cbn [later_pc]; try exact I; unf; rd; rewrite ?RT; pgo; pfin.
  - destruct q; cbn [later_pc]; try exact I; unf; rd; rewrite ?RT; pgo; pfin.
  - destruct q; cbn [later_pc]; try exact I; unf; rd; rewrite ?RT; pgo; pfin.
Qed.
Lemma psim_exec c d l0 es : forall s1 s2, psim c d l0 s1 s2 -> orel (psim c d l0) (exec c es s1) (exec c es s2).
Proof.
  induction es as [|e es IH]; intros s1 s2 H; [exact H|]. cbn [exec]. pose proof (psim_step c d l0 e s1 s2 H) as K.
  destruct (step c e s1), (step c e s2); cbn [orel] in K; try contradiction; [now apply IH|exact I].
Qed.
Lemma apart_psim c s d : config_ok c -> reachable c s -> apart s -> psim c d (y_log s) s (set_now (y_now s + d) s).
Proof.
  intros HC HR [A1 A2]. exists (y_net s), []. cbn [later map]. rewrite app_nil_r. split; [|split; [|reflexivity]].
  - destruct s as [st w ch n q t lg]. cbn [y_pc] in A2. unfold set_now. cbn. f_equal. destruct q; try contradiction; reflexivity.
  - pose proof (ti_idle _ _ _ _ _ (time_inv c s HC HR)) as HT. constructor; try reflexivity.
    + rewrite A1, orb_false_r. destruct (y_pc s); try contradiction; discriminate.
    + intros HX. destruct HX as [HX|HX]; [|destruct (y_pc s); try contradiction; discriminate HX].
      destruct (y_pc s) eqn:EP; try contradiction; destruct (HT eq_refl) as (_ & _ & HZ); (destruct (HZ HX) as [-> |HZ']; [reflexivity|discriminate HZ']).
Qed.
Lemma pause c s d es : config_ok c -> reachable c s -> apart s -> same_later d s (exec c es s) (exec c (ETick d :: es) s).
Proof.
  intros HC HR HA. cbn [exec step]. pose proof (psim_exec c d (y_log s) es _ _ (apart_psim c s d HC HR HA)) as H.
  destruct (exec c es s) as [t|], (exec c es (set_now _ s)) as [t'|]; cbn [orel same_later] in *; try contradiction; [|exact I].
  destruct H as (n & l & -> & _ & HL). cbn [y_state y_wait y_chan y_now y_log]. repeat split. exists l. split; [exact HL|reflexivity].
Qed.
