(* C71: every acknowledgement of a broker that answers only what it has received is awaited. *)
From Coq Require Import Permutation.
From Verif Require Import Base VarInt Prims Props Codes Packets BaseFacts Options Session Client System SpecSession SpecNet SpecPolite SessionFacts SystemFacts AckFacts IdFacts Cases NetFacts NetMore OutFacts WorldFacts WorldMore WorldAll.

(* ---- what is under way ------------------------------------------------------------------------ *)
Definition up_id (p : packet) : option N :=
  match p with
  | PPublish x => match pb_qos x with AtMostOnce => None | _ => pb_pkid x end
  | PPubRel a => Some (ak_id a)
  | PSubscribe x => Some (sb_id x)
  | PUnsubscribe x => Some (ub_id x)
  | _ => None
  end.
Definition down_id (p : packet) : option N :=
  match p with PPubAck a | PPubRec a | PPubComp a => Some (ak_id a) | PSubAck a | PUnsubAck a => Some (sa_id a) | _ => None end.
Definition uids (l : list packet) : list N := flat_map (fun p => opt_list (up_id p)) l.
Definition dids (l : list packet) : list N := flat_map (fun p => opt_list (down_id p)) l.
Lemma uids_app a b : uids (a ++ b) = uids a ++ uids b. Proof. apply flat_map_app. Qed.
Lemma dids_app a b : dids (a ++ b) = dids a ++ dids b. Proof. apply flat_map_app. Qed.
Lemma uids_cons p l : uids (p :: l) = opt_list (up_id p) ++ uids l. Proof. reflexivity. Qed.
Lemma dids_cons p l : dids (p :: l) = opt_list (down_id p) ++ dids l. Proof. reflexivity. Qed.
Lemma in_uids i l : In i (uids l) <-> exists p, In p l /\ up_id p = Some i.
Proof. unfold uids. rewrite in_flat_map. split; intros (p & H1 & H2); exists p; (split; [exact H1|]); destruct (up_id p); cbn in *; intuition congruence. Qed.

Definition held_up (g : ledger) (p : packet) : Prop :=
  forall i, up_id p = Some i ->
  match p with
  | PPublish _ => exists x, In (PPublish x) (lg_sent g) /\ pb_pkid x = Some i
  | PPubRel _ => In i (lg_rel g)
  | _ => In p (lg_sent g)
  end.
Definition held_down (g : ledger) (p : packet) : Prop :=
  forall i, down_id p = Some i ->
  match p with
  | PPubAck _ | PPubRec _ => exists x, In (PPublish x) (lg_sent g) /\ pb_pkid x = Some i
  | PPubComp _ => In i (lg_rel g)
  | PSubAck _ => exists x, In (PSubscribe x) (lg_sent g) /\ sb_id x = i
  | PUnsubAck _ => exists x, In (PUnsubscribe x) (lg_sent g) /\ ub_id x = i
  | _ => True
  end.
(* [ps]: sent, or to be sent before anything else *)
Record hold (g : ledger) (ps down : list packet) : Prop := {
  ho_one : NoDup (uids ps ++ dids down);
  ho_up : Forall (held_up g) ps;
  ho_down : Forall (held_down g) down }.
Lemma hold_less g g' ps ps' d d' : hold g ps d -> (forall p, held_up g p -> held_up g' p) -> (forall p, held_down g p -> held_down g' p) ->
  incl ps' ps -> incl d' d -> (exists l, Permutation (uids ps ++ dids d) (l ++ uids ps' ++ dids d')) -> hold g' ps' d'.
Proof.
  intros [A B C] H1 H2 H3 H4 [l H5]. constructor.
  - apply (Permutation_NoDup H5) in A. now apply nodup_app_r in A.
  - apply Forall_forall. intros p X. apply H1. rewrite Forall_forall in B. auto.
  - apply Forall_forall. intros p X. apply H2. rewrite Forall_forall in C. auto.
Qed.
Lemma hold_sub g ps ps' d d' : hold g ps d -> incl ps' ps -> incl d' d -> (exists l, Permutation (uids ps ++ dids d) (l ++ uids ps' ++ dids d')) -> hold g ps' d'.
Proof. intros H. now apply (hold_less g g). Qed.
Lemma hold_led g g' ps d : hold g ps d -> (forall p, held_up g p -> held_up g' p) -> (forall p, held_down g p -> held_down g' p) -> hold g' ps d.
Proof. intros H H1 H2. apply (hold_less _ _ _ _ _ _ H H1 H2); try apply incl_refl. now exists []. Qed.

Lemma answer_ids p k : answer_to p k = true -> up_id p = down_id k.
Proof.
  destruct p, k; try discriminate; try reflexivity; cbn [answer_to up_id down_id]; try (intros H; apply N.eqb_eq in H; congruence).
  all: destruct (pb_qos p), (pb_pkid p); try discriminate; intros H; apply N.eqb_eq in H; congruence.
Qed.
Lemma answer_held g p k : answer_to p k = true -> held_up g p -> held_down g k.
Proof.
  intros H HU i E. rewrite <- (answer_ids _ _ H) in E. specialize (HU i E).
  destruct p, k; try discriminate; auto.
  - exists s. split; [exact HU|]. cbn in E. congruence.
  - exists u. split; [exact HU|]. cbn in E. congruence.
Qed.
Lemma hold_answer g u1 p u2 t d k : hold g ((u1 ++ p :: u2) ++ t) d -> answer_to p k = true -> hold g ((u1 ++ u2) ++ t) (d ++ [k]).
Proof.
  intros [A B C] H. rewrite <- !app_assoc in *. cbn [app] in *. constructor.
  - rewrite !uids_app, uids_cons, uids_app, (answer_ids _ _ H) in A. rewrite !uids_app, dids_app, dids_cons. cbn [dids flat_map]. rewrite app_nil_r.
    eapply Permutation_NoDup; [|exact A]. perm.
  - apply Forall_app in B as [B1 B2]. inversion B2; subst. apply Forall_app. auto.
  - apply Forall_app. split; [exact C|]. constructor; [|constructor]. apply Forall_app in B as [_ B]. inversion B; subst. eapply answer_held; eassumption.
Qed.

(* ---- the answer to CONNECT ---------------------------------------------------------------------- *)
Definition is_conn (p : packet) : bool := match p with PConnect _ | PConnAck _ => true | _ => false end.
Definition conns (l : list packet) : list packet := filter is_conn l.
Definition from_server (p : packet) : Prop :=
  match p with
  | PPublish x => pb_qos x = AtMostOnce \/ pb_pkid x <> None
  | PConnAck _ | PPubAck _ | PPubRec _ | PPubRel _ | PPubComp _ | PSubAck _ | PUnsubAck _ | PPingResp | PDisconnect _ => True
  | _ => False
  end.
Lemma answer_from p k : answer_to p k = true -> from_server k.
Proof. destruct p, k; cbn; auto; discriminate. Qed.
Lemma offers_from p : offers p = true -> from_server p.
Proof. destruct p; cbn; auto; try discriminate. destruct (pb_qos p); auto; destruct (pb_pkid p); cbn; [right; discriminate|discriminate|right; discriminate|discriminate]. Qed.
Lemma answer_conn p k : answer_to p k = true -> is_conn k = is_conn p.
Proof. destruct p, k; try discriminate; reflexivity. Qed.
Lemma offers_conn p : offers p = true -> is_conn p = false.
Proof. destruct p; try discriminate; reflexivity. Qed.
Lemma offers_id p : offers p = true -> down_id p = None.
Proof. destruct p; try discriminate; reflexivity. Qed.
Lemma offers_held g p : offers p = true -> held_down g p.
Proof. intros H i E. rewrite (offers_id _ H) in E. discriminate. Qed.

Definition alive (q : nstate) : Prop :=
  ~ In IFail (n_todo q) /\ ~ (n_phase q = FIdle /\ n_open q = false /\ n_todo q = []).
Record okay_with (c : config) (q : nstate) (w : line) : Prop := {
  k_sound : sound (n_led q);
  k_used : n_open q = ln_used w;
  k_loop : n_phase q = FLoop -> n_open q = true;
  k_opening : n_phase q = FOpening -> n_open q = false /\ n_todo q = [] /\ ln_up w = [] /\ dids (ln_down w) = [] /\ conns (ln_down w) = [];
  k_answer : n_phase q = FAnswer -> n_open q = false /\ n_todo q = [] /\ uids (ln_up w) ++ dids (ln_down w) = [] /\ (length (conns (ln_up w) ++ conns (ln_down w)) <= 1)%nat;
  k_items : conns (todo_packets (n_todo q)) = [];
  k_conns : n_open q = true \/ In IOpen (n_todo q) -> conns (ln_up w) ++ conns (ln_down w) = [];
  k_down : Forall from_server (ln_down w);
  k_panic : In IPanic (n_todo q) -> n_todo q = [IPanic];
  k_dead : n_phase q = FDead -> n_todo q = [];
  k_range : n_phase q <> FDead -> ~ In IPanic (n_todo q) -> forall x i, In (PPublish x) (lg_sent (n_led q)) -> pb_pkid x = Some i -> i <= receive_max (cf_opts c);
  k_hold : alive q -> hold (n_led q) (ln_up w ++ todo_packets (n_todo q)) (ln_down w) }.

Ltac lcbn := cbn [ln_used ln_up ln_down ln_live] in *.
Lemma conns_app a b : conns (a ++ b) = conns a ++ conns b. Proof. apply filter_app. Qed.
Lemma conns_cons p l : conns (p :: l) = (if is_conn p then [p] else []) ++ conns l. Proof. cbn. now destruct (is_conn p). Qed.

Lemma okay_broker c q w w' : okay_with c q w -> polite w w' -> okay_with c q w'.
Proof.
  intros HK HP. destruct HK as [A B C D E F G H K L I J]. destruct HP; lcbn.
  - constructor; lcbn; auto.
    + intros X. destruct (D X) as (_ & _ & X1 & _). now destruct u1.
    + intros X. destruct (E X) as (E1 & E2 & E3 & E4). split; [exact E1|]. split; [exact E2|]. split.
      * apply app_eq_nil in E3 as [E3 E5]. rewrite uids_app, uids_cons in E3. apply app_eq_nil in E3 as [E3 E6]. apply app_eq_nil in E6 as [E6 E7].
        rewrite uids_app, dids_app, E3, E7, E5. cbn. rewrite <- (answer_ids _ _ H0), app_nil_r. exact E6.
      * rewrite !conns_app, !conns_cons in *. rewrite (answer_conn _ _ H0). cbn [conns filter]. rewrite !app_length in *. destruct (is_conn p); cbn [length] in *; lia.
    + intros X. specialize (G X). apply app_eq_nil in G as [G1 G2]. rewrite !conns_app, !conns_cons in *. rewrite (answer_conn _ _ H0).
      apply app_eq_nil in G1 as [G1 G3]. apply app_eq_nil in G3 as [G3 G4]. destruct (is_conn p); [discriminate G3|]. now rewrite G1, G2, G4.
    + apply Forall_app. split; [exact H|]. constructor; [|constructor]. eapply answer_from; eassumption.
    + intros X. apply hold_answer with (p := p); [exact (J X)|exact H0].
  - constructor; lcbn; auto.
    + intros X. destruct (D X) as (_ & _ & X1 & _). now destruct u1.
    + intros X. destruct (E X) as (E1 & E2 & E3 & E4). split; [exact E1|]. split; [exact E2|]. split.
      * apply app_eq_nil in E3 as [E3 E5]. rewrite uids_app, uids_cons in E3. apply app_eq_nil in E3 as [E3 E6]. apply app_eq_nil in E6 as [E6 E7].
        now rewrite uids_app, E3, E7, E5.
      * rewrite !conns_app, !conns_cons in *. rewrite !app_length in *. lia.
    + intros X. specialize (G X). apply app_eq_nil in G as [G1 G2]. rewrite !conns_app, !conns_cons in *.
      apply app_eq_nil in G1 as [G1 G3]. apply app_eq_nil in G3 as [G3 G4]. now rewrite G1, G2, G4.
    + intros X. eapply hold_sub; [exact (J X)| |apply incl_refl|].
      * intros y. rewrite !in_app_iff. cbn. tauto.
      * exists (opt_list (up_id p)). rewrite !uids_app, uids_cons. perm.
  - constructor; lcbn; auto.
    + intros X. destruct (D X) as (D1 & D2 & D3 & D4 & D5). rewrite dids_app, conns_app, D4, D5, dids_cons, conns_cons, (offers_id _ H0), (offers_conn _ H0). auto.
    + intros X. destruct (E X) as (E1 & E2 & E3 & E4). rewrite dids_app, conns_app, dids_cons, conns_cons, (offers_id _ H0), (offers_conn _ H0). cbn. rewrite !app_nil_r. auto.
    + intros X. specialize (G X). rewrite conns_app, conns_cons, (offers_conn _ H0). cbn. now rewrite app_nil_r.
    + apply Forall_app. split; [exact H|]. constructor; [|constructor]. now apply offers_from.
    + intros X. destruct (J X) as [J1 J2 J3]. constructor; [|exact J2|].
      * rewrite dids_app, dids_cons, (offers_id _ H0). cbn. now rewrite app_nil_r.
      * apply Forall_app. split; [exact J3|]. constructor; [|constructor]. now apply offers_held.
  - constructor; lcbn; auto.
    + intros X. destruct (D X) as (D1 & D2 & D3 & D4 & D5). auto.
    + intros X. destruct (E X) as (E1 & E2 & E3 & E4). split; [exact E1|]. split; [exact E2|]. apply app_eq_nil in E3 as [_ E3]. rewrite app_length in E4. cbn. split; [exact E3|lia].
    + intros X. specialize (G X). now apply app_eq_nil in G as [_ G].
    + intros X. eapply hold_sub; [exact (J X)| |apply incl_refl|].
      * cbn [app]. intros y. rewrite in_app_iff. tauto.
      * exists (uids u). cbn [app]. rewrite uids_app. perm.
Qed.
