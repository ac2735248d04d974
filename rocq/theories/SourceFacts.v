(* C73: where a message of the broker is. *)
From Verif Require Import Base VarInt Prims Props Codes Packets BaseFacts Options Session Client System SpecSession SpecNet SpecPolite SpecSource NetFacts WorldFacts PoliteFacts.

Ltac scbn := cbn [so_line so_in so_session so_out so_again so_log ln_used ln_up ln_down ln_live n_open n_phase n_todo n_in n_led] in *.
Definition pub_tok (i : N) (y : publish) : bool := match pb_qos y with AtMostOnce => false | _ => match pb_pkid y with Some j => j =? i | None => false end end.
Definition tokd (i : N) (p : packet) : bool := match p with PPublish y => pub_tok i y | PPubRel a => ak_id a =? i | _ => false end.
Definition toku (i : N) (p : packet) : bool := match p with PPubAck a | PPubRec a | PPubComp a => ak_id a =? i | _ => false end.
Definition about (i : N) (it : item) : bool := match it with IHandle (PPublish y) => pub_tok i y | IReply p => toku i p | _ => false end.
Definition is_open (it : item) : bool := match it with IOpen => true | _ => false end.
Definition act (q : nstate) : bool := n_open q || existsb is_open (n_todo q).

(* the last message with identifier i: was it read (without DUP), handed over, and has the client connected since? *)
Record cur := Cur { cu_msg : publish; cu_read : bool; cu_handled : bool; cu_cut : bool }.
Definition cur_step (i : N) (c : option cur) (m : moment) : option cur :=
  match m with
  | Start x => if numbered i (x, false) then Some (Cur x false false false) else c
  | Client OConnect => option_map (fun c => Cur (cu_msg c) (cu_read c) (cu_handled c) true) c
  | Client (ORead (PPublish y)) => if pub_tok i y && negb (pb_dup y) then option_map (fun c => Cur (cu_msg c) true (cu_handled c) (cu_cut c)) c else c
  | Client (OHandle (PPublish y)) => if pub_tok i y then option_map (fun c => Cur (cu_msg c) (cu_read c) true (cu_cut c)) c else c
  | _ => c
  end.
Definition cur_of (i : N) (l : list moment) : option cur := fold_left (cur_step i) l None.
Lemma cur_snoc i l m : cur_of i (l ++ [m]) = cur_step i (cur_of i l) m.
Proof. unfold cur_of. now rewrite fold_left_app. Qed.

Notation entry := (publish * bool)%type.
Record base (C : option cur) (O : list entry) (inb ac me : bool) : Prop := {
  b_out : forall e, In e O -> exists c, C = Some c /\ cu_msg c = fst e /\ pb_qos (fst e) <> AtMostOnce /\
    (snd e = true -> pb_qos (fst e) = ExactlyOnce /\ (cu_cut c = false -> cu_read c = true));
  b_one : (length O <= 1)%nat;
  b_mem : ac = true -> me = true -> inb = true -> exists e, In e O /\ pb_qos (fst e) = ExactlyOnce }.
Definition done (C : option cur) : Prop := forall c, C = Some c -> pb_qos (cu_msg c) = ExactlyOnce -> cu_read c = true -> cu_handled c = true.
Definition ackok (C : option cur) (O : list entry) (inb ac me : bool) (k : packet) : Prop :=
  (inb = true -> O <> []) /\
  match k with
  | PPubAck _ => exists c, C = Some c /\ cu_handled c = true
  | PPubRec _ => exists c, C = Some c /\ (cu_cut c = false -> cu_read c = true)
  | PPubComp _ => ac = true -> me = false
  | _ => False
  end.
Inductive vow (C : option cur) (O : list entry) (inb ac me : bool) : list packet -> list packet -> list item -> list entry -> Prop :=
| vo_none : done C -> vow C O inb ac me [] [] [] []
| vo_pub y c : done C -> (inb = true -> O <> []) -> C = Some c -> copy_of (cu_msg c) y ->
    (pb_dup y = false -> cu_read c = false /\ cu_handled c = false /\ (ac = true -> pb_qos y = ExactlyOnce -> me = false)) ->
    (pb_dup y = true -> cu_cut c = true) -> vow C O inb ac me [PPublish y] [] [] []
| vo_rel b : done C -> (inb = true -> O <> []) -> vow C O inb ac me [PPubRel b] [] [] []
| vo_hand y k c : (inb = true -> O <> []) -> C = Some c -> copy_of (cu_msg c) y ->
    match k with
    | PPubAck _ => pb_qos y = AtLeastOnce
    | PPubRec _ => pb_qos y = ExactlyOnce /\ cu_read c = true /\ cu_handled c = false
    | _ => False
    end -> vow C O inb ac me [] [] [IHandle (PPublish y); IReply k] []
| vo_todo k : done C -> ackok C O inb ac me k -> vow C O inb ac me [] [] [IReply k] []
| vo_up k : done C -> ackok C O inb ac me k -> vow C O inb ac me [] [k] [] []
| vo_again e c : done C -> In e O -> C = Some c -> cu_cut c = true -> vow C O inb ac me [] [] [] [e].

(* a connection on which the broker has not yet accepted anything *)
Definition fresh (w : source) : Prop := so_in w = false /\ (ln_live (so_line w) = true \/ exists cn, In (PConnect cn) (ln_up (so_line w))).
Record kept (i : N) (q : nstate) (w : source) : Prop := {
  kp_base : base (cur_of i (so_log w)) (filter (numbered i) (so_out w)) (so_in w) (act q) (mem i (n_in q));
  kp_vow : vow (cur_of i (so_log w)) (filter (numbered i) (so_out w)) (so_in w) (act q) (mem i (n_in q))
    (filter (tokd i) (ln_down (so_line w))) (filter (toku i) (ln_up (so_line w))) (filter (about i) (n_todo q)) (filter (numbered i) (so_again w));
  kp_fresh : fresh w -> filter (numbered i) (so_out w) <> [] -> exists c, cur_of i (so_log w) = Some c /\ cu_cut c = true }.
Definition any_tok (p : packet) : bool := match p with PPubAck _ | PPubRec _ | PPubComp _ => true | _ => false end.
Record link (q : nstate) (w : source) : Prop := {
  l_used : n_open q = ln_used (so_line w);
  l_loop : n_phase q = FLoop -> n_open q = true;
  l_fresh : fresh w ->
    act q = false /\ ln_down (so_line w) = [] /\ Forall (fun p => any_tok p = false) (ln_up (so_line w)) /\ (n_todo q = [] \/ n_todo q = [INoConnect]);
  l_early : n_phase q = FOpening \/ n_phase q = FAnswer -> n_open q = false /\ n_todo q = [];
  l_resend : forall p, In (IResend p) (n_todo q) -> any_tok p = false;
  l_head : forall p, ~ In (IHandle p) (tl (n_todo q)) }.

(* ---- the broker ---- *)
Lemma vow_less C O inb ac me D U T A inb' ac' : vow C O inb ac me D U T A -> (inb' = true -> inb = true) -> (ac' = true -> ac = true) -> vow C O inb' ac' me D U T A.
Proof.
  assert (forall k, (inb' = true -> inb = true) -> (ac' = true -> ac = true) -> ackok C O inb ac me k -> ackok C O inb' ac' me k) as K.
  { intros k H1 H2 [A1 A2]. split; [auto|]. destruct k; auto. }
  intros H H1 H2. destruct H as [X|y c X1 X2 X3 X4 X5 X6|b X1 X2|y k c X1 X2 X3 X4|k X1 X2|k X1 X2|e c X1 X2 X3 X4].
  - now apply vo_none.
  - apply (vo_pub _ _ _ _ _ y c); auto. intros X. destruct (X5 X) as (Y1 & Y2 & Y3). auto.
  - now apply vo_rel; auto.
  - apply (vo_hand _ _ _ _ _ y k c); auto.
  - apply vo_todo; auto.
  - apply vo_up; auto.
  - eapply vo_again; eauto.
Qed.
Lemma base_less C O inb ac me inb' ac' : base C O inb ac me -> (inb' = true -> inb = true) -> (ac' = true -> ac = true) -> base C O inb' ac' me.
Proof. intros [A B D] H1 H2. constructor; auto. Qed.
Lemma tok_any i p : toku i p = true -> any_tok p = true. Proof. destruct p; auto; discriminate. Qed.
Lemma no_toks i l : Forall (fun p => any_tok p = false) l -> filter (toku i) l = [].
Proof. induction 1 as [|p l H HL IH]; [reflexivity|]. cbn [filter]. destruct (toku i p) eqn:E; [apply tok_any in E; congruence|exact IH]. Qed.
Lemma split_one {A} f (o1 o2 : list A) e : (length (filter f (o1 ++ e :: o2)) <= 1)%nat -> f e = true -> filter f (o1 ++ o2) = [] /\ filter f (o1 ++ e :: o2) = [e].
Proof.
  rewrite !filter_app. cbn [filter]. intros H E. rewrite E in *. rewrite app_length in H. cbn [length] in H. destruct (filter f o1); [|cbn [length] in H; lia]. destruct (filter f o2); [|cbn [length] in H; lia]. split; reflexivity.
Qed.
Lemma filter_mid {A} f (o1 o2 : list A) e : f e = false -> filter f (o1 ++ e :: o2) = filter f (o1 ++ o2).
Proof. intros H. rewrite !filter_app. cbn [filter]. now rewrite H. Qed.
Lemma numbered_same i x b b' : numbered i (x, b) = numbered i (x, b'). Proof. reflexivity. Qed.
Lemma numbered_id i x b : numbered i (x, b) = true <-> pb_pkid x = Some i.
Proof. unfold numbered. cbn [fst]. destruct (pb_pkid x) as [j|]; [|split; discriminate]. rewrite N.eqb_eq. split; congruence. Qed.
Lemma toku_neq i j k : i <> j -> match k with PPubAck a | PPubRec a | PPubComp a => ak_id a = j | _ => True end -> toku i k = false.
Proof. intros H E. destruct k; auto; cbn; apply N.eqb_neq; congruence. Qed.

Lemma no_entry i out : existsb (numbered i) out = false -> filter (numbered i) out = [].
Proof. induction out as [|e out IH]; [reflexivity|]. cbn. destruct (numbered i e); [discriminate|]. exact IH. Qed.

(* the log *)
Definition fair_step (l : list moment) (m : moment) : Prop :=
  match m with
  | Client (OHandle (PPublish y)) => forall i, pub_tok i y = true -> exists c, cur_of i l = Some c /\ copy_of (cu_msg c) y /\ (pb_qos y = ExactlyOnce -> cu_handled c = false)
  | Start x => pb_dup x = false
  | Finish x => exists i c, pb_pkid x = Some i /\ cur_of i l = Some c /\ cu_msg c = x /\ (pb_qos x = AtLeastOnce -> cu_handled c = true) /\
      (pb_qos x = ExactlyOnce -> (cu_read c = true -> cu_handled c = true) /\ (cu_cut c = false -> cu_read c = true)) /\ pb_qos x <> AtMostOnce
  | _ => True
  end.
Inductive fair_log : list moment -> Prop :=
| fl_nil : fair_log []
| fl_snoc l m : fair_log l -> fair_step l m -> fair_log (l ++ [m]).

Lemma in_filter_nil {A} f (l : list A) x : filter f l = [] -> In x l -> f x = true -> False.
Proof. intros E H1 H2. assert (In x (filter f l)) as X by (apply filter_In; auto). rewrite E in X. contradiction. Qed.
Lemma link_broker q w w' : link q w -> source_step w w' -> link q w'.
Proof.
  intros [A B C D E F0] H. destruct H; scbn; constructor; scbn; auto.
  all: intros [F1 F2]; scbn; try discriminate F1; try (destruct F2 as [F2|(cn0 & [])]; discriminate F2).
  - destruct (C (conj F1 (match F2 with or_introl X => or_introl X | or_intror (ex_intro _ cn X) => or_intror (ex_intro _ cn (or_intror X)) end))) as (X1 & X2 & X3 & X4). scbn. inversion X3; subst. auto.
Qed.
Lemma cur_start i l x : pb_pkid x <> Some i -> cur_of i (l ++ [Start x]) = cur_of i l.
Proof. intros H. rewrite cur_snoc. cbn [cur_step]. destruct (numbered i (x, false)) eqn:E; [apply numbered_id in E; contradiction|reflexivity]. Qed.
Lemma cur_finish i l x : cur_of i (l ++ [Finish x]) = cur_of i l.
Proof. now rewrite cur_snoc. Qed.
Lemma tail_tok {A} f (p : A) l : filter f (l ++ [p]) = filter f l ++ (if f p then [p] else []).
Proof. rewrite filter_app. cbn [filter]. now destruct (f p). Qed.

Ltac nils := repeat match goal with E : [] = filter _ _ |- _ => try rewrite <- E; clear E end.
Lemma kept_broker q w w' : link q w -> (forall i, kept i q w) -> source_step w w' -> forall i, kept i q w'.
Proof.
  intros HL HK H i. pose proof (HK i) as K. destruct K as [KB KV KF]. destruct H; scbn.
  - (* accept *)
    destruct (l_fresh _ _ HL) as (X1 & X2 & X3 & X4). { split; [reflexivity|]. right. exists cn. now left. }
    scbn. subst d. inversion X3 as [|? ? _ X5]; subst. constructor; scbn.
    + destruct (ca_session_present a); [|constructor; try (intros e []); auto; intros X; congruence].
      destruct KB as [B1 B2 B3]. constructor; auto. intros X. congruence.
    + rewrite (no_toks i u X5). cbn [app filter tokd]. assert (filter (about i) (n_todo q) = []) as ET by (destruct X4 as [-> | ->]; reflexivity). rewrite ET in *.
      cbn [filter toku] in KV. rewrite (no_toks i u X5) in KV. assert (done (cur_of i l)) as HD by (inversion KV; assumption).
      destruct (ca_session_present a); [|now apply vo_none].
      destruct (filter (numbered i) out) as [|e [|e2 r]] eqn:EO; [now apply vo_none| |pose proof (b_one _ _ _ _ _ KB) as X; cbn [length] in X; lia].
      destruct KF as (c & F1 & F2); [split; [reflexivity|]; right; exists cn; now left|discriminate|]. eapply vo_again; eauto. now left.
    + intros [X _]. discriminate X.
  - (* refuse *)
    constructor; scbn; auto.
    + rewrite tail_tok. cbn [tokd]. rewrite app_nil_r. cbn [filter toku] in *. inversion KV; subst; econstructor; eauto.
    + intros [_ [X|[cn0 []]]]. discriminate X.
  - (* start *)
    destruct (N.eq_dec i0 i) as [->|NE].
    + pose proof (no_entry _ _ H2) as EO. rewrite EO in *.
      assert (act q = true -> mem i (n_in q) = true -> False) as ME. { intros X Y. destruct (b_mem _ _ _ _ _ KB X Y eq_refl) as (e & [] & _). }
      assert (filter (numbered i) (out ++ [(x, false)]) = [(x, false)]) as EO'. { rewrite tail_tok, EO. rewrite (proj2 (numbered_id i x false) H1). reflexivity. }
      assert (cur_of i (l ++ [Start x]) = Some (Cur x false false false)) as EC. { rewrite cur_snoc. cbn [cur_step]. now rewrite (proj2 (numbered_id i x false) H1). }
      assert (tokd i (PPublish x) = true) as ET. { cbn [tokd]. unfold pub_tok. rewrite H1, N.eqb_refl. destruct (pb_qos x); [contradiction|reflexivity|reflexivity]. }
      constructor; scbn; rewrite ?EO', ?EC.
      * constructor.
        -- intros e [<-|[]]. exists (Cur x false false false). cbn. repeat apply conj; auto. discriminate.
        -- cbn. lia.
        -- intros X Y. elim (ME X Y).
      * rewrite tail_tok, ET. assert (done (Some (Cur x false false false))) as HD. { intros c E. injection E as <-. discriminate. }
        inversion KV; subst; try (match goal with X : true = true -> [] <> [] |- _ => elim (X eq_refl eq_refl) end); try (match goal with X : ackok _ [] true _ _ _ |- _ => destruct X as [X _]; elim (X eq_refl eq_refl) end); try contradiction.
        cbn [app]. eapply vo_pub; [exact HD|discriminate|reflexivity|now left| |cbn [pb_dup]; congruence].
        intros _. repeat apply conj; auto. intros X _. destruct (mem i (n_in q)); [elim (ME X eq_refl)|reflexivity].
      * intros [X _]. discriminate X.
    + assert (pb_pkid x <> Some i) as NP by congruence.
      assert (filter (numbered i) (out ++ [(x, false)]) = filter (numbered i) out) as EO'. { rewrite tail_tok. destruct (numbered i (x, false)) eqn:E; [apply numbered_id in E; congruence|apply app_nil_r]. }
      assert (tokd i (PPublish x) = false) as ET. { cbn [tokd]. unfold pub_tok. rewrite H1. destruct (pb_qos x); auto; now apply N.eqb_neq. }
      constructor; scbn; rewrite ?EO', ?(cur_start i l x NP), ?tail_tok, ?ET, ?app_nil_r; auto.
  - (* resend *)
    destruct (numbered i e) eqn:EN.
    + rewrite filter_app in KV. cbn [filter] in KV. rewrite EN in KV.
      inversion KV as [X1 X2 X3 X4 X5| | | | | |e0 c X1 X2 X3 X4 X5 X6 X7 X8]; subst; try (match goal with X : [] = filter _ a1 ++ _ |- _ => symmetry in X; apply app_eq_nil in X as [_ X]; discriminate X end).
      assert (filter (numbered i) a1 = [] /\ e0 = e /\ filter (numbered i) a2 = []) as (Y1 & -> & Y3). { destruct (filter (numbered i) a1) as [|z r]; [cbn [app] in X8; now injection X8 as -> <-|]. injection X8 as _ X8. symmetry in X8. apply app_eq_nil in X8 as [_ X8]. discriminate X8. }
      destruct (b_out _ _ _ _ _ KB e X2) as (c' & E1 & E2 & E3 & E4). assert (c' = c) as -> by congruence.
      assert (filter (numbered i) out <> []) as NO by (intros Z; rewrite Z in X2; contradiction).
      constructor; scbn; auto. rewrite (filter_app (numbered i) a1 a2), Y1, Y3. cbn [app]. rewrite tail_tok, <- X5, <- X6, <- X7. cbn [app].
      unfold again_with in H. destruct e as [x b]. cbn [fst snd] in *. apply numbered_id in EN. destruct b.
      * destruct H as (b & -> & Eb). cbn [tokd]. assert (ak_id b = i) as -> by congruence. rewrite N.eqb_refl. apply vo_rel; auto.
      * subst p. cbn [tokd]. assert (pub_tok i (repeated x) = true) as ->. { unfold pub_tok, repeated. cbn. rewrite EN, N.eqb_refl. destruct (pb_qos x); [now elim E3|reflexivity|reflexivity]. }
        eapply vo_pub; eauto; [rewrite E2; now right|]. cbn. discriminate.
    + rewrite filter_mid in KV by exact EN. constructor; scbn; auto. rewrite tail_tok. assert (tokd i p = false) as ->; [|now rewrite app_nil_r].
      unfold again_with in H. destruct e as [x b]. cbn [fst snd] in *. destruct b.
      * destruct H as (b & -> & Eb). cbn [tokd]. unfold numbered in EN. cbn [fst] in EN. now rewrite Eb in EN.
      * subst p. cbn [tokd]. unfold pub_tok, repeated. cbn. unfold numbered in EN. cbn [fst] in EN. destruct (pb_pkid x); destruct (pb_qos x); auto.
  - (* puback *)
    destruct (N.eq_dec (ak_id a) i) as [E|NE].
    + assert (numbered i (x, false) = true) as EN by (apply numbered_id; congruence). destruct (split_one _ _ _ _ (b_one _ _ _ _ _ KB) EN) as [Y1 Y2].
      cbn [filter toku] in KV. rewrite (proj2 (N.eqb_eq _ _) E) in KV. rewrite Y2 in *.
      inversion KV as [| | | | |k X1 X2 X3 X4 X5 X6|]; subst.
      constructor; scbn; rewrite ?Y1, ?cur_finish.
      * constructor; [intros e []|cbn; lia|]. intros X Y Z. destruct (b_mem _ _ _ _ _ KB X Y Z) as (e & [<-|[]] & Q). cbn [fst] in Q. congruence.
      * nils. apply vo_none. assumption.
      * intros [X _]. discriminate X.
    + assert (numbered i (x, false) = false) as EN. { destruct (numbered i (x, false)) eqn:Z; [apply numbered_id in Z; congruence|reflexivity]. }
      cbn [filter toku] in KV. rewrite (proj2 (N.eqb_neq _ _) NE) in KV. rewrite filter_mid in KV, KB, KF by exact EN.
      constructor; scbn; rewrite ?cur_finish; auto. all: intros [X _]; discriminate X.
  - (* pubrec *)
    destruct (N.eq_dec (ak_id a) i) as [E|NE].
    + assert (numbered i (x, false) = true) as EN by (apply numbered_id; congruence). destruct (split_one _ _ _ _ (b_one _ _ _ _ _ KB) EN) as [Y1 Y2].
      assert (filter (numbered i) (o1 ++ (x, true) :: o2) = [(x, true)]) as Y3.
      { rewrite filter_app in *. cbn [filter] in *. rewrite (numbered_same i x true false), EN. apply app_eq_nil in Y1 as [-> ->]. reflexivity. }
      cbn [filter toku] in KV. rewrite (proj2 (N.eqb_eq _ _) E) in KV. rewrite Y2 in *.
      inversion KV as [| | | | |k X1 X2 X3 X4 X5 X6|]; subst. destruct X2 as [_ (c & X2 & X7)].
      constructor; scbn; rewrite ?Y3.
      * destruct KB as [B1 B2 B3]. destruct (B1 _ (or_introl eq_refl)) as (c' & Z1 & Z2 & Z3 & Z4). cbn [fst snd] in *. assert (c' = c) as -> by congruence. constructor.
        -- intros e [<-|[]]. exists c. cbn [fst snd]. auto.
        -- cbn. lia.
        -- intros X Y Z. exists (x, true). split; [now left|exact H].
      * rewrite tail_tok. nils. cbn [app tokd]. rewrite H1, N.eqb_refl. apply vo_rel; [assumption|discriminate].
      * intros [X _]. discriminate X.
    + assert (forall b, numbered i (x, b) = false) as EN. { intros b'. destruct (numbered i (x, b')) eqn:Z; [apply numbered_id in Z; congruence|reflexivity]. }
      cbn [filter toku] in KV. rewrite (proj2 (N.eqb_neq _ _) NE) in KV. rewrite filter_mid in KV, KB, KF by apply EN.
      assert (tokd i (PPubRel b) = false) as ET by (cbn [tokd]; rewrite H1; now apply N.eqb_neq).
      constructor; scbn; rewrite ?filter_mid by apply EN; rewrite ?tail_tok, ?ET, ?app_nil_r; auto. all: intros [X _]; discriminate X.
  - (* pubcomp *)
    destruct (N.eq_dec (ak_id a) i) as [E|NE].
    + assert (numbered i (x, true) = true) as EN by (apply numbered_id; congruence). destruct (split_one _ _ _ _ (b_one _ _ _ _ _ KB) EN) as [Y1 Y2].
      cbn [filter toku] in KV. rewrite (proj2 (N.eqb_eq _ _) E) in KV. rewrite Y2 in *.
      inversion KV as [| | | | |k X1 X2 X3 X4 X5 X6|]; subst. destruct X2 as [_ X2].
      constructor; scbn; rewrite ?Y1, ?cur_finish.
      * constructor; [intros e []|cbn; lia|]. intros X Y Z. rewrite (X2 X) in Y. discriminate Y.
      * nils. apply vo_none. assumption.
      * intros [X _]. discriminate X.
    + assert (numbered i (x, true) = false) as EN. { destruct (numbered i (x, true)) eqn:Z; [apply numbered_id in Z; congruence|reflexivity]. }
      cbn [filter toku] in KV. rewrite (proj2 (N.eqb_neq _ _) NE) in KV. rewrite filter_mid in KV, KB, KF by exact EN.
      constructor; scbn; rewrite ?cur_finish; auto. all: intros [X _]; discriminate X.
  - (* ignore *)
    constructor; scbn; auto.
    + cbn [filter] in KV. destruct (toku i p); [|exact KV]. inversion KV; subst. nils. apply vo_none. assumption.
    + intros [F1 F2]. apply KF. split; [exact F1|]. scbn. destruct F2 as [F2|[cn F2]]; [now left|right; exists cn; now right].
  - (* send *)
    assert (tokd i p = false) as ET. { destruct p; try reflexivity; try discriminate H. cbn in *. unfold pub_tok. destruct (pb_qos p); [reflexivity|discriminate H|discriminate H]. }
    constructor; scbn; rewrite ?tail_tok, ?ET, ?app_nil_r; auto.
  - (* cut *)
    constructor; scbn.
    + eapply base_less; [exact KB|discriminate|auto].
    + apply (vow_less _ _ _ _ _ _ _ _ _ false (act q)) in KV; [|discriminate|auto]. cbn [filter]. inversion KV; subst; econstructor; eauto.
    + intros [_ [X|[cn0 []]]]. discriminate X.
  - (* forget *)
    constructor; scbn.
    + constructor; [intros e []|cbn; lia|discriminate].
    + cbn [filter]. assert (forall k, ackok (cur_of i l) (filter (numbered i) out) false (act q) (mem i (n_in q)) k -> ackok (cur_of i l) [] false (act q) (mem i (n_in q)) k) as KK. { intros k [_ X]. split; [discriminate|exact X]. }
      revert KV. generalize (filter (tokd i) d) (filter (toku i) u) (filter (about i) (n_todo q)) (filter (numbered i) ag). intros D U T A KV.
      destruct KV as [X|y c X1 X2 X3 X4 X5 X6|b X1 X2|y k c X1 X2 X3 X4|k X1 X2|k X1 X2|e c X1 X2 X3 X4]; [apply vo_none; assumption|eapply vo_pub; eauto; discriminate|apply vo_rel; auto; discriminate|eapply vo_hand; eauto; discriminate|apply vo_todo; auto|apply vo_up; auto|apply vo_none; assumption].
    + intros _ X. now elim X.
Qed.

Lemma finish_fair q w w' : (forall i, kept i q w) -> source_step w w' -> fair_log (so_log w) -> fair_log (so_log w').
Proof.
  intros HK H HF. destruct H; scbn; auto.
  - constructor; [exact HF|assumption].
  - constructor; [exact HF|]. cbn [fair_step]. destruct (HK (ak_id a)) as [KB KV _]. scbn.
    assert (numbered (ak_id a) (x, false) = true) as EN by now apply numbered_id. destruct (split_one _ _ _ _ (b_one _ _ _ _ _ KB) EN) as [_ Y2]. rewrite Y2 in *.
    cbn [filter toku] in KV. rewrite N.eqb_refl in KV. inversion KV as [| | | | |k X1 X2 X3 X4 X5 X6|]; subst. destruct X2 as [_ (c & X2 & X7)].
    destruct (b_out _ _ _ _ _ KB _ (or_introl eq_refl)) as (c' & Z1 & Z2 & Z3 & Z4). cbn [fst snd] in *. assert (c' = c) as -> by congruence.
    exists (ak_id a), c. repeat apply conj; auto. intros X. congruence.
  - constructor; [exact HF|]. cbn [fair_step]. destruct (HK (ak_id a)) as [KB KV _]. scbn.
    assert (numbered (ak_id a) (x, true) = true) as EN by now apply numbered_id. destruct (split_one _ _ _ _ (b_one _ _ _ _ _ KB) EN) as [_ Y2]. rewrite Y2 in *.
    cbn [filter toku] in KV. rewrite N.eqb_refl in KV. inversion KV as [| | | | |k X1 X2 X3 X4 X5 X6|]; subst.
    destruct (b_out _ _ _ _ _ KB _ (or_introl eq_refl)) as (c & Z1 & Z2 & Z3 & Z4). cbn [fst snd] in *. destruct (Z4 eq_refl) as [Z5 Z6].
    exists (ak_id a), c. repeat apply conj; auto; [intros X; congruence|]. intros _. split; [|exact Z6]. intros X. apply (X1 c Z1); [congruence|exact X].
Qed.
