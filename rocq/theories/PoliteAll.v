(* C71: the client and a polite broker, together. *)
From Coq Require Import Permutation.
From Verif Require Import Base VarInt Prims Props Codes Packets BaseFacts Options Session Client System SpecSession SpecNet SpecPolite SessionFacts SystemFacts AckFacts IdFacts Cases NetFacts NetMore OutFacts WorldFacts WorldMore WorldAll PoliteFacts PoliteMore.

Lemma no_ids_hold g u d t : uids u ++ dids d = [] -> NoDup (uids t) -> Forall (held_up g) t -> hold g (u ++ t) d.
Proof.
  intros E HN HT. apply app_eq_nil in E as [E1 E2]. constructor.
  - rewrite uids_app, E1, E2. cbn. now rewrite app_nil_r.
  - apply Forall_app. split; [|exact HT]. apply Forall_forall. intros p X i EI. assert (In i (uids u)) as Y by (apply in_uids; eauto). rewrite E1 in Y. contradiction.
  - apply Forall_forall. intros p X i EI. assert (In i (dids d)) as Y. { unfold dids. apply in_flat_map. exists p. rewrite EI. split; [exact X|now left]. } rewrite E2 in Y. contradiction.
Qed.
Lemma fail_dead q its : In IFail its -> n_todo q = its -> alive q -> False.
Proof. intros H <- [A _]. contradiction. Qed.
Lemma pop_alive b f it rest inn g b' : alive (NState b f rest inn g) -> it <> IFail -> alive (NState b' f (it :: rest) inn g).
Proof. intros [A B] H. split; cbn [n_todo n_phase n_open] in *; [intros [X|X]; congruence|]. intros (_ & _ & X). discriminate X. Qed.
Lemma alive_led b f td inn inn' g g' : alive (NState b f td inn g) -> alive (NState b f td inn' g').
Proof. intros [A B]. split; assumption. Qed.
Lemma spoil_fail l : In IFail (spoil l) <-> In IFail l.
Proof.
  unfold spoil. rewrite in_map_iff. split.
  - intros (x & E & H). destruct x; try discriminate E. exact H.
  - intros H. exists IFail. auto.
Qed.
Lemma loop_alive b td inn g : ~ In IFail td -> alive (NState b FLoop td inn g).
Proof. intros H. split; [exact H|]. intros (X & _). discriminate X. Qed.

Lemma client_ledger clean g o : by_client o = true -> lg_sent (ledger_step clean g o) = lg_sent g /\ lg_rel (ledger_step clean g o) = lg_rel g.
Proof. destruct g, o; try discriminate; intros _; cbn [ledger_step]; repeat match goal with |- context [if ?b then _ else _] => destruct b end; auto. Qed.
Lemma hold_out c q o q' w w' : okay_with c q w -> side (cleans c) (n_led q) o -> nstep c q o q' -> noticed o w w' -> alive q' ->
  hold (n_led q') (ln_up w' ++ todo_packets (n_todo q')) (ln_down w').
Proof.
  intros HK HD HN HO HA. pose proof (sound_step (cleans c) _ _ (k_sound _ _ _ HK) HD) as HS. destruct q as [op ph td qi g].
  destruct HN as [HB|b f its inn HB HC].
  - qcbn. apply (alive_led _ _ _ _ qi _ g) in HA. pose proof (k_hold _ _ _ HK HA) as HH. qcbn.
    destruct o; try discriminate HB; inversion HO; subst; try contradiction; lcbn; (eapply hold_eq; [| |exact HH]); now apply client_ledger.
  - destruct HK as [A B C D E F G H K L I J]. qcbn. fold (cleans c) in *. set (g' := ledger_step (cleans c) g o) in *.
    assert (quiet o = true -> forall ps d, hold g ps d -> hold g' ps d) as HQ.
    { intros X ps d Y. destruct (quiet_ledger (cleans c) g o X) as (_ & L2 & L3 & _). now apply (hold_eq g). }
    destruct HC; inversion HO; subst; try contradiction; lcbn; try (exfalso; eapply fail_dead; [|reflexivity|exact HA]; now left);
      try (exfalso; destruct HA as [_ HA]; apply HA; qcbn; now rewrite ?B).
    + apply HQ; [reflexivity|]. apply J. eapply pop_alive; [eapply alive_led; exact HA|discriminate].
    + apply HQ; [reflexivity|]. apply J. eapply pop_alive; [eapply alive_led; exact HA|discriminate].
    + apply HQ; [reflexivity|]. apply hold_pop. apply J. eapply pop_alive; [eapply alive_led; exact HA|discriminate].
    + apply HQ; [reflexivity|]. apply hold_pop. apply J. eapply pop_alive; [eapply alive_led; exact HA|discriminate].
    + apply HQ; [reflexivity|]. replace (todo_packets (match cf_rt c with Tokio => rest | Smol => spoil rest end)) with (todo_packets rest) by (destruct (cf_rt c); now rewrite ?todo_spoil).
      apply hold_pop. apply J. destruct HA as [HA _]. split; cbn [n_todo n_phase n_open] in *; [|intros (_ & _ & X); discriminate X].
      intros [X|X]; [discriminate X|]. apply HA. destruct (cf_rt c); [exact X|now apply spoil_fail].
    + apply HQ; [reflexivity|]. apply J. split; cbn [n_todo n_phase n_open] in *; [intros [X|[]]; discriminate X|intros (_ & _ & X); discriminate X].
    + apply HQ; [reflexivity|]. apply J. split; cbn [n_todo n_phase n_open] in *; [intros [X|[]]; discriminate X|intros (_ & _ & X); discriminate X].
    + apply HQ; [reflexivity|]. apply J. split; cbn [n_todo n_phase n_open] in *; [intros [X|[]]; discriminate X|intros (_ & _ & X); discriminate X].
    + apply HQ; [reflexivity|]. apply J. split; cbn [n_todo n_phase n_open] in *; [intros [X|[]]; discriminate X|intros (_ & _ & X); discriminate X].
    + apply HQ; [reflexivity|]. apply J. split; cbn [n_todo n_phase n_open] in *; [intros [X|[]]; discriminate X|intros (_ & _ & X); discriminate X].
    + apply HQ; [reflexivity|]. cbn. constructor; constructor.
    + apply HQ; [reflexivity|]. destruct (D eq_refl) as (_ & _ & -> & D4 & _). apply no_ids_hold; [|constructor|constructor]. rewrite D4. destruct v; reflexivity.
    + apply HQ; [reflexivity|]. destruct (D eq_refl) as (_ & _ & -> & D4 & _). apply no_ids_hold; [|constructor|constructor]. rewrite D4. destruct (v && arrives); reflexivity.
    + destruct (E eq_refl) as (E1 & _ & _ & _). exfalso. destruct HA as [_ HA]. apply HA. qcbn. auto.
    + destruct (E eq_refl) as (E1 & _ & E3 & _). destruct (answer_items _ _ _ _ _ _ H0 A HS) as (X1 & X2 & _). apply no_ids_hold; auto.
      apply app_eq_nil in E3 as [-> E3]. rewrite dids_cons in E3. now apply app_eq_nil in E3 as [_ ->].
    + apply HQ; [reflexivity|]. apply J. apply alive_led with (inn := inn) (g := g'). split; [intros []|]. qcbn. intros (_ & X & _). discriminate X.
    + apply hold_read. apply (J (loop_alive _ _ _ _ (@in_nil _ _))).
    + rewrite request_todo. destruct HD as [D1 D2]. apply hold_request; auto. apply (J (loop_alive _ _ _ _ (@in_nil _ _))).
    + apply HQ; [reflexivity|]. apply hold_add; [reflexivity|]. apply (J (loop_alive _ _ _ _ (@in_nil _ _))).
    + apply HQ; [reflexivity|]. apply hold_add; [reflexivity|]. apply (J (loop_alive _ _ _ _ (@in_nil _ _))).
Qed.

Lemma arrive_conns b p u : is_conn p = false -> conns (arrive b p u) = conns u.
Proof. intros E. destruct b; [|reflexivity]. cbn [arrive]. rewrite conns_app, conns_cons, E. cbn. apply app_nil_r. Qed.
Lemma shape_conn p : request_shape p -> is_conn p = false. Proof. now destruct p. Qed.
Lemma pop_panic it rest : (In IPanic (it :: rest) -> it :: rest = [IPanic]) -> In IPanic rest -> rest = [IPanic].
Proof. intros H X. specialize (H (or_intror X)). injection H as _ ->. contradiction. Qed.
Lemma spoil_panic l : In IPanic (spoil l) <-> In IPanic l.
Proof.
  unfold spoil. rewrite in_map_iff. split.
  - intros (x & E & H). destruct x; try discriminate E. exact H.
  - intros H. exists IPanic. auto.
Qed.
Lemma spoil_open l : In IOpen (spoil l) -> False.
Proof. unfold spoil. rewrite in_map_iff. intros (x & E & H). destruct x; discriminate E. Qed.
Lemma items_tail it rest : conns (todo_packets (it :: rest)) = [] -> conns (todo_packets rest) = [].
Proof. change (it :: rest) with ([it] ++ rest). rewrite todo_app, conns_app. intros H. now apply app_eq_nil in H as [_ H]. Qed.
Lemma items_head it p rest : conns (todo_packets (it :: rest)) = [] -> it = IReply p \/ it = IResend p -> is_conn p = false.
Proof. intros H [-> | ->]; cbn in H; now destruct (is_conn p). Qed.
Lemma answer_rest clean g p inn inn' its : on_answer clean g p inn inn' its -> ~ In IPanic its /\ (In IOpen its -> is_conn p = true).
Proof.
  destruct 1 as [inn E1|inn a E1 E2|inn a rel E1 E2 E3|inn a j E1 E2 E3]; (split; [|intros X; try (destruct X as [X|[]]; discriminate X)]); try (intros [X|[]]; discriminate X).
  - unfold deliver, resend_items. rewrite !in_app_iff, in_map_iff. intros [[X|[X|[]]]|[(x & X & _)|[X|[]]]]; discriminate X.
  - now subst p.
Qed.
Lemma read_rest rmax g inn p : (In IPanic (on_read rmax g inn p) -> on_read rmax g inn p = [IPanic]) /\ ~ In IOpen (on_read rmax g inn p).
Proof.
  unfold on_read, on_ack, deliver, reply, refuse. destruct p;
    repeat match goal with |- context [if ?b then _ else _] => destruct b | |- context [match pb_qos ?x with _ => _ end] => destruct (pb_qos x) | |- context [match pb_pkid ?x with _ => _ end] => destruct (pb_pkid x) end;
    cbn [In app]; (split; [try reflexivity; intros X; exfalso|]); intuition discriminate.
Qed.
Lemma request_rest rmax p : (In IPanic (on_request rmax p) -> on_request rmax p = [IPanic]) /\ ~ In IOpen (on_request rmax p) /\
  forall x i, p = PPublish x -> pb_pkid x = Some i -> ~ In IPanic (on_request rmax p) -> i <= rmax.
Proof.
  split; [|split].
  - destruct p; cbn; try contradiction; [destruct (pb_pkid p); [destruct (_ <? _)|]|]; cbn; intuition discriminate.
  - destruct p; cbn; auto; [destruct (pb_pkid p); [destruct (_ <? _)|]|]; cbn; intuition discriminate.
  - intros x i -> E. cbn. rewrite E. destruct (N.ltb_spec rmax i); [|auto]. intros X. exfalso. apply X. now left.
Qed.
Lemma answer_sent clean g p q : In q (lg_sent (ledger_step clean g (OAnswer p))) -> In q (lg_sent g).
Proof.
  destruct g. cbn [ledger_step]. destruct p; auto. destruct (ca_rc c); auto. destruct (_ && _); cbn; [|contradiction]. intros H. now apply filter_In in H.
Qed.

Lemma okay_out c q o q' w w' : okay_with c q w -> side (cleans c) (n_led q) o -> nstep c q o q' -> noticed o w w' -> okay_with c q' w'.
Proof.
  intros HK HD HN HO. pose proof (hold_out _ _ _ _ _ _ HK HD HN HO) as HH. pose proof (sound_step (cleans c) _ _ (k_sound _ _ _ HK) HD) as HS.
  destruct HN as [HB|b f its inn HB HC].
  - destruct HK as [A B C D E F G H K L I J]. qcbn.
    assert (ln_used w' = ln_used w /\ ln_up w' = ln_up w /\ ln_down w' = ln_down w) as (W1 & W2 & W3). { destruct o; try discriminate HB; inversion HO; subst; try contradiction; auto. }
    constructor; qcbn; rewrite ?W1, ?W2, ?W3 in *; auto. rewrite (proj1 (client_ledger _ _ _ HB)). auto.
  - destruct q as [op ph td qi g]. destruct HK as [A B C D E F G H K L I J]. qcbn. fold (cleans c) in *. set (g' := ledger_step (cleans c) g o) in *.
    assert (quiet o = true -> lg_sent g' = lg_sent g) as HQ. { intros X. now destruct (quiet_ledger (cleans c) g o X) as (_ & L2 & _). }
    assert (o <> OPanic -> forall x i, In (PPublish x) (lg_sent g) -> pb_pkid x = Some i -> i <= receive_max (cf_opts c)) as HP.
    { intros X. apply I.
      - intros Y. specialize (L Y). destruct HC; discriminate.
      - intros Y. specialize (K Y). destruct HC; try discriminate K. now elim X. }
    assert (f <> FDead -> ~ In IPanic its -> forall x i, In (PPublish x) (lg_sent g') -> pb_pkid x = Some i -> i <= receive_max (cf_opts c)) as HR.
    { intros X1 X2 x0 i0 X3 X4. destruct (quiet o) eqn:EQ.
      - assert (o <> OPanic) as X. { intros ->. inversion HC; subst. now elim X1. } apply (HP X x0 i0); [now rewrite <- HQ|exact X4].
      - destruct HC; try discriminate EQ; try discriminate HB.
        + apply (HP ltac:(discriminate) x0 i0); [|exact X4]. eapply answer_sent, X3.
        + apply (HP ltac:(discriminate) x0 i0); [|exact X4]. apply (read_facts (cleans c) g p) in X3. tauto.
        + destruct (sent_after (cleans c) g p) as [E1 _]. fold g' in E1. rewrite E1 in X3.
          assert (In (PPublish x0) (lg_sent g) \/ p = PPublish x0) as [X|X]. { destruct (is_some _); [apply in_app_iff in X3 as [X3|[X3|[]]]|]; auto. }
          * now apply (HP ltac:(discriminate) x0 i0).
          * now apply (proj2 (proj2 (request_rest (receive_max (cf_opts c)) p)) x0 i0).
        + apply (HP ltac:(discriminate) x0 i0); [|exact X4]. subst g'. destruct g. exact X3. }
    destruct HC; inversion HO; subst; try contradiction; lcbn; constructor; qcbn; lcbn; auto; try discriminate.
    all: try (intros [X|[]]; discriminate X). all: try (solve [intros []]).
    all: try (intros X; specialize (L X); discriminate L).
    all: try (intros X; destruct (D X) as (_ & X1 & _); discriminate X1).
    all: try (intros X; destruct (E X) as (_ & X1 & _); discriminate X1).
    all: try (exact (items_tail _ _ F)).
    all: try (exact (pop_panic _ _ K)).
    all: try (intros [X|[X|[]]]; [|discriminate X]; rewrite arrive_conns by reflexivity; apply G; now left).
    all: try (intros X; rewrite ?arrive_conns by (eapply items_head; [exact F|eauto]); apply G; destruct X as [X|X]; [now left|right; now right]).
    all: try (intros [X|[]]; apply G; (left; congruence) || (right; now left)).
    + intros [X|[X|[]]]; [|discriminate X]. rewrite arrive_conns by (eapply items_head; [exact F|eauto]). apply G. now left.
    + replace (todo_packets (match cf_rt c with Tokio => rest | Smol => spoil rest end)) with (todo_packets rest) by (destruct (cf_rt c); now rewrite ?todo_spoil). exact (items_tail _ _ F).
    + intros X. rewrite arrive_conns by (eapply items_head; [exact F|eauto]). apply G. destruct X as [X|X]; [now left|]. destruct (cf_rt c); [right; now right|now apply spoil_open in X].
    + destruct (cf_rt c); [exact (pop_panic _ _ K)|]. rewrite spoil_panic. intros X. now rewrite (pop_panic _ _ K X).
    + intros _. destruct (D eq_refl) as (D1 & _ & -> & -> & ->). split; [exact D1|]. split; [reflexivity|]. destruct v; cbn; auto.
    + intros [X|[]]. destruct (D eq_refl) as (D1 & _). congruence.
    + intros [X|[X|[]]]; [|discriminate X]. destruct (D eq_refl) as (D1 & _). congruence.
    + destruct (answer_items _ _ _ _ _ _ H0 A HS) as (_ & _ & X). exact X.
    + destruct (E eq_refl) as (E1 & _ & _ & E4). intros [X|X]; [congruence|]. pose proof (proj2 (answer_rest _ _ _ _ _ _ H0) X) as EC.
      rewrite conns_cons, EC, !app_length in E4. cbn [length] in E4. destruct (conns u); [|cbn [length] in E4; lia]. destruct (conns d); [reflexivity|cbn [length] in E4; lia].
    + now inversion H.
    + intros X. exfalso. now apply (proj1 (answer_rest _ _ _ _ _ _ H0)).
    + destruct (read_reply (cleans c) (receive_max (cf_opts c)) g inn p) as [X|[(k & X & _ & Y)|(a & _ & X & _)]]; rewrite X; [reflexivity|cbn; now rewrite Y|reflexivity].
    + intros [X|X]; [|exfalso; now apply (proj2 (read_rest (receive_max (cf_opts c)) g inn p))]. specialize (G (or_introl X)). apply app_eq_nil in G as [G1 G2].
      rewrite conns_cons in G2. apply app_eq_nil in G2 as [_ G2]. now rewrite G1, G2.
    + now inversion H.
    + apply read_rest.
    + now rewrite request_todo.
    + intros [X|X]; [|exfalso; now apply (proj1 (proj2 (request_rest (receive_max (cf_opts c)) p)))]. rewrite arrive_conns by (apply shape_conn; apply HD). apply G. now left.
    + apply request_rest.
    + intros [X|[X|[]]]; [|discriminate X]. rewrite arrive_conns by (apply shape_conn; apply HD). apply G. now left.
    + intros [X|[]]. rewrite arrive_conns by reflexivity. apply G. now left.
Qed.

(* ---- the whole run --------------------------------------------------------------------------- *)
Lemma okay_outs c l q w w' q' l0 : nrun c l0 q -> everywhere (side_at c) (l0 ++ l) -> nfrom c q l q' -> notices l w w' -> okay_with c q w -> okay_with c q' w'.
Proof.
  intros HN HE HF. revert w l0 HN HE. induction HF as [q|q o q1 l q' HS HF IH]; intros w l0 HN HE HO HA; inversion HO as [|? ? ? w1 ? HO1 HO2]; subst; [exact HA|].
  apply (IH w1 (l0 ++ [o])); [eapply nrun_snoc; eassumption|now rewrite <- app_assoc|exact HO2|]. eapply okay_out; [exact HA| |exact HS|exact HO1].
  rewrite (nrun_led _ _ _ HN). exact (HE l0 o l eq_refl).
Qed.
Lemma okay_init c : okay_with c nstate0 line0.
Proof.
  constructor; cbn; try discriminate; try reflexivity; try contradiction; auto; try (intros [X|[]]; discriminate X).
  - repeat constructor.
  - intros [_ X]. elim X. auto.
Qed.
Lemma with_reachable c s w : with_broker c s w -> reachable c s.
Proof. induction 1; [exists []; reflexivity|eapply reachable_step; eassumption|assumption]. Qed.
Lemma with_okay c s w : config_ok c -> with_broker c s w -> forall q, nrun c (trace s) q -> okay_with c q w.
Proof.
  intros HC. induction 1 as [|s w e s' l w' HJ IH HGe HS HT HO|s w w' HJ IH HB]; intros q HQ.
  - inversion HQ; subst; [apply okay_init|]. destruct l; discriminate.
  - rewrite HT in HQ. apply nrun_from, nfrom_app in HQ as (q1 & H1 & H2). apply nrun_from in H1.
    apply (okay_outs c l q1 w w' q (trace s) H1); auto. rewrite <- HT.
    apply side_everywhere; [exact HC|]. eapply reachable_step; [eapply with_reachable; exact HJ|exact HS].
  - eapply okay_broker; [now apply IH|exact HB].
Qed.
