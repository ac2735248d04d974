(* C73: what the client does to the messages of the broker. *)
From Coq Require Import Permutation.
From Verif Require Import Base VarInt Prims Props Codes Packets BaseFacts Options Session Client System SpecSession SpecNet SpecPolite SpecSource SessionFacts SystemFacts AckFacts IdFacts Cases NetFacts NetMore OutFacts WorldFacts PoliteFacts SourceFacts.

Lemma kept_same i q q' w w' : kept i q w -> cur_of i (so_log w') = cur_of i (so_log w) -> so_out w' = so_out w -> so_in w' = so_in w -> so_again w' = so_again w ->
  (act q' = true -> act q = true) -> mem i (n_in q') = mem i (n_in q) ->
  filter (tokd i) (ln_down (so_line w')) = filter (tokd i) (ln_down (so_line w)) -> filter (toku i) (ln_up (so_line w')) = filter (toku i) (ln_up (so_line w)) ->
  filter (about i) (n_todo q') = filter (about i) (n_todo q) -> (fresh w' -> fresh w) -> kept i q' w'.
Proof.
  intros [KB KV KF] E1 E2 E3 E4 E5 E6 E7 E8 E9 E10. constructor; rewrite ?E1, ?E2, ?E3, ?E4, ?E6, ?E7, ?E8, ?E9.
  - eapply base_less; [exact KB|auto|exact E5].
  - eapply vow_less; [exact KV|auto|exact E5].
  - auto.
Qed.
Lemma arrive_tok i b p u : toku i p = false -> filter (toku i) (arrive b p u) = filter (toku i) u.
Proof. intros H. destruct b; [|reflexivity]. cbn [arrive]. rewrite tail_tok, H. apply app_nil_r. Qed.
Lemma arrive_fresh v b p u d us n h out ag l d' us' h' out' ag' l' v' : (b = true -> v = true) -> (v' = true -> v = true) ->
  fresh (Source (Line us' (arrive b p u) d' v') n h' out' ag' l') -> fresh (Source (Line us u d v) n h out ag l).
Proof.
  intros H1 H2 [F1 F2]. split; [exact F1|]. scbn. destruct F2 as [F2|[cn F2]]; [now left; auto|]. destruct b; [left; auto|right; eauto].
Qed.
Lemma about_spoil i l : filter (about i) (spoil l) = filter (about i) l.
Proof. induction l as [|x l IH]; [reflexivity|]. unfold spoil in *. cbn [map]. destruct x; cbn [filter about]; try exact IH; destruct (_ : bool); now rewrite ?IH. Qed.
Lemma open_spoil l : existsb is_open (spoil l) = false.
Proof. induction l as [|x l IH]; [reflexivity|]. unfold spoil in *. cbn [map existsb]. destruct x; exact IH. Qed.
Lemma shape_tok i p : request_shape p -> toku i p = false. Proof. now destruct p. Qed.
Lemma shape_any p : request_shape p -> any_tok p = false. Proof. now destruct p. Qed.
Lemma request_about i rmax p : filter (about i) (on_request rmax p) = [].
Proof. destruct p; try reflexivity. cbn [on_request]. destruct (pb_pkid p); [|reflexivity]. now destruct (_ <? _). Qed.
Lemma request_open rmax p : existsb is_open (on_request rmax p) = false.
Proof. destruct p; try reflexivity. cbn [on_request]. destruct (pb_pkid p); [|reflexivity]. now destruct (_ <? _). Qed.

(* what is still to be done *)
Lemma read_shape rmax g inn p : existsb is_open (on_read rmax g inn p) = false /\ (forall x, ~ In (IResend x) (on_read rmax g inn p)) /\ (forall x, ~ In (IHandle x) (tl (on_read rmax g inn p))).
Proof.
  unfold on_read, on_ack, deliver, reply, refuse. destruct p;
    repeat match goal with |- context [if ?b then _ else _] => destruct b | |- context [match pb_qos ?x with _ => _ end] => destruct (pb_qos x) | |- context [match pb_pkid ?x with _ => _ end] => destruct (pb_pkid x) end;
    cbn [In app tl existsb is_open orb]; repeat apply conj; try reflexivity; intros x0; intuition discriminate.
Qed.
Lemma request_shape_items rmax p : (forall x, ~ In (IResend x) (on_request rmax p)) /\ (forall x, ~ In (IHandle x) (tl (on_request rmax p))).
Proof. destruct p; cbn [on_request]; repeat match goal with |- context [if ?b then _ else _] => destruct b | |- context [match pb_pkid ?x with _ => _ end] => destruct (pb_pkid x) end; cbn [In tl]; split; intros x0; intuition discriminate. Qed.
Lemma answer_shape clean g p inn inn' its : on_answer clean g p inn inn' its ->
  (forall x, In (IResend x) its -> any_tok x = false) /\ (forall x, ~ In (IHandle x) (tl its)) /\ (forall i, filter (about i) its = []) /\ (existsb is_open its = true -> inn' = []).
Proof.
  destruct 1 as [inn E1|inn a E1 E2|inn a rel E1 E2 E3|inn a j E1 E2 E3]; cbn [tl In existsb is_open orb]; repeat apply conj; auto; try (intros x [X|[]]; discriminate X); try discriminate.
  - subst p. unfold deliver, resend_items. intros x X. apply in_app_iff in X as [[X|[X|[]]]|X]; try discriminate X. apply in_app_iff in X as [X|[X|[]]]; [|discriminate X].
    apply in_map_iff in X as (k & E & X). injection E as ->. apply in_app_iff in X as [X|X].
    + destruct g as [op se re lo cl ex er]. cbn [ledger_step] in X. rewrite E2 in X. destruct (_ && _); cbn [lg_expect] in X; [|contradiction].
      apply in_map_iff in X as (k & <- & X). apply filter_In in X as [_ X]. now destruct k.
    + apply in_map_iff in X as (k & <- & _). reflexivity.
  - subst p. cbn [deliver app tl]. intros x [X|X]; [discriminate X|]. apply in_app_iff in X as [X|[X|[]]]; [|discriminate X]. apply in_map_iff in X as (k & E & _). discriminate E.
  - subst p. intros i. unfold deliver. rewrite !filter_app. cbn [filter about app]. rewrite app_nil_r. unfold resend_items. induction (lg_expect _ ++ _) as [|k r IH]; [reflexivity|]. exact IH.
Qed.

Lemma tl_in {A} (x : A) l : In x (tl l) -> In x l. Proof. destruct l; [intros []|now right]. Qed.
Lemma spoil_in it l : In it (spoil l) -> it = INoConnect \/ In it l.
Proof. unfold spoil. intros H. apply in_map_iff in H as (x & E & H). destruct x; subst; auto. Qed.
Lemma tl_spoil l : tl (spoil l) = spoil (tl l). Proof. now destruct l. Qed.

Ltac inout HO := let X := fresh "X" in inversion HO as [X|X|X|X|X|X|X|X]; subst.
Lemma link_out c q o q' w w' : link q w -> side (cleans c) (n_led q) o -> nstep c q o q' -> sees o w w' -> link q' w'.
Proof.
  intros HL HD HN (HO & S1 & S2 & S3 & S4). destruct w as [ln n h out ag l], w' as [ln' n' h' out' ag' l']. scbn. subst.
  destruct HL as [A B C D E F]. destruct q as [op ph td qi g]. scbn.
  destruct HN as [HB|b f its inn HB HC].
  - assert (ln' = ln /\ n' = n) as [-> ->] by (destruct o; try discriminate HB; inversion HO; subst; try contradiction; tauto).
    constructor; scbn; auto.
  - scbn. destruct HC; inversion HO; subst; try contradiction; scbn; subst; destruct S4 as [-> ->]; constructor; scbn; auto; try discriminate; cbn [tl] in *.
    all: try (solve [intros [X|X]; discriminate X]).
    all: try (solve [intros ? []]).
    all: try (solve [intros ? [X|[]]; discriminate X]).
    all: try (solve [intros [X|X]; subst; destruct (D ltac:(auto)) as [_ Y]; discriminate Y]).
    all: try (solve [intros p0 X; apply (F p0); now apply tl_in]).
    all: try (solve [intros p0 X; apply E; now right]).
    all: try (intros X; match type of C with (fresh ?W -> _) => assert (fresh W) as Y by
      (first [exact X|refine (arrive_fresh _ _ _ _ _ _ _ _ _ _ _ _ _ _ _ _ _ _ _ _ X); auto; intros Z; now apply andb_prop in Z]) end;
      destruct (C Y) as (Y1 & Y2 & Y3 & Y4); try discriminate Y2; try (exfalso; destruct Y4 as [Y4|Y4]; discriminate Y4); try (exfalso; rewrite (B eq_refl) in Y1; discriminate Y1)).
    + intros p0 X. apply E. destruct (cf_rt c); [now right|]. apply spoil_in in X as [X|X]; [discriminate X|now right].
    + intros p0 X. apply (F p0). destruct (cf_rt c); [now apply tl_in|]. rewrite tl_spoil in X. apply spoil_in in X as [X|X]; [discriminate X|now apply tl_in].
    + unfold act in *. scbn. cbn in *. rewrite orb_false_r in Y1 |- *. auto.
    + repeat apply conj; auto. destruct v; [|exact Y3]. apply Forall_app. split; [exact Y3|]. repeat constructor.
    + repeat apply conj; auto. destruct (v && arrives); [|exact Y3]. apply Forall_app. split; [exact Y3|]. repeat constructor.
    + apply (answer_shape _ _ _ _ _ _ H).
    + apply (answer_shape _ _ _ _ _ _ H).
    + intros p0 X. elim (proj1 (proj2 (read_shape (receive_max (cf_opts c)) g inn p)) p0 X).
    + apply read_shape.
    + intros p0 X. elim (proj1 (request_shape_items (receive_max (cf_opts c)) p) p0 X).
    + apply request_shape_items.
Qed.

Lemma cur_quiet i l o : match o with OConnect | ORead (PPublish _) | OHandle (PPublish _) => False | _ => True end -> cur_of i (l ++ [Client o]) = cur_of i l.
Proof. intros H. rewrite cur_snoc. destruct o; try contradiction; try reflexivity; destruct p; try contradiction; reflexivity. Qed.
Lemma cur_other i l y b : pub_tok i y = false -> cur_of i (l ++ [Client (if b : bool then OHandle (PPublish y) else ORead (PPublish y))]) = cur_of i l.
Proof. intros H. rewrite cur_snoc. destruct b; cbn [cur_step]; now rewrite H. Qed.
Lemma pub_tok_id i y : pub_tok i y = true -> pb_pkid y = Some i /\ pb_qos y <> AtMostOnce.
Proof. unfold pub_tok. destruct (pb_qos y); try discriminate; destruct (pb_pkid y) as [j|]; try discriminate; intros H; apply N.eqb_eq in H; subst; split; congruence. Qed.
Lemma read_other rmax g inn p i : tokd i p = false -> filter (about i) (on_read rmax g inn p) = [] /\ mem i (in_after inn p) = mem i inn.
Proof.
  intros H. destruct p; cbn [tokd] in H; try (split; [|reflexivity]); try reflexivity; cbn [on_read in_after].
  - unfold pub_tok in H. destruct (pb_qos p) eqn:EQ; [split; [|reflexivity]; cbn; unfold pub_tok; now rewrite EQ| |]; destruct (pb_pkid p) as [j|] eqn:EI; try (split; reflexivity).
    + split; [|reflexivity]. cbn. unfold pub_tok. rewrite EQ, EI, H. reflexivity.
    + split.
      * destruct (_ || _); cbn; unfold pub_tok; rewrite ?EQ, ?EI, ?H; reflexivity.
      * unfold mem. cbn [existsb]. rewrite N.eqb_sym, H. reflexivity.
  - destruct (off_table _ _); [reflexivity|]. unfold on_ack. destruct (awaited _ _); [|reflexivity]. now destruct (lg_clients g).
  - destruct (off_table _ _); [reflexivity|]. destruct (awaited _ _); [|reflexivity]. now destruct (rec_accepts _).
  - split; [cbn; now rewrite H|]. unfold mem. induction inn as [|j inn IH]; [reflexivity|]. cbn [filter existsb]. destruct (N.eqb_spec (ak_id a) j) as [<-|NE]; cbn [negb].
    + rewrite IH. rewrite N.eqb_sym in H. now rewrite H.
    + cbn [existsb]. now rewrite IH.
  - unfold on_ack. destruct (awaited _ _); [|reflexivity]. now destruct (lg_clients g).
  - unfold on_ack. destruct (awaited _ _); [|reflexivity]. now destruct (lg_clients g).
  - unfold on_ack. destruct (awaited _ _); [|reflexivity]. now destruct (lg_clients g).
Qed.
Lemma mem_released i inn : mem i (filter (fun j => negb (i =? j)) inn) = false.
Proof. unfold mem. induction inn as [|j inn IH]; [reflexivity|]. cbn [filter]. destruct (N.eqb_spec i j); cbn [negb]; [exact IH|]. cbn [existsb]. apply N.eqb_neq in n. now rewrite n. Qed.

Lemma kept_read i us u p d v n h out ag l f inn g g' rmax : kept i (NState true FLoop [] inn g) (Source (Line us u (p :: d) v) n h out ag l) ->
  ~ fresh (Source (Line us u d v) n h out ag l) ->
  kept i (NState true f (on_read rmax g inn p) (in_after inn p) g') (Source (Line us u d v) n h out ag (l ++ [Client (ORead p)])).
Proof.
  intros HK HNF. destruct (tokd i p) eqn:ET.
  - destruct HK as [KB KV KF]. scbn. cbn [filter] in KV. rewrite ET in KV. unfold act in KV, KB. scbn. cbn [orb existsb filter] in *.
    inversion KV as [|y c X1 X2 X3 X4 X5 X6 X7 X8|b X1 X2 X3 X4| | | |]; subst.
    + cbn [tokd] in ET. destruct (pub_tok_id _ _ ET) as [EI EQ].
      assert (cur_of i (l ++ [Client (ORead (PPublish y))]) = Some (if pb_dup y then c else Cur (cu_msg c) true (cu_handled c) (cu_cut c))) as EC.
      { rewrite cur_snoc. cbn [cur_step]. rewrite ET, X3. now destruct (pb_dup y). }
      set (c' := if pb_dup y then c else Cur (cu_msg c) true (cu_handled c) (cu_cut c)) in *.
      assert (cu_msg c' = cu_msg c /\ cu_handled c' = cu_handled c /\ cu_cut c' = cu_cut c /\ (cu_read c = true -> cu_read c' = true)) as (C1 & C2 & C3 & C4) by (subst c'; now destruct (pb_dup y)).
      constructor; scbn; rewrite ?EC.
      * destruct KB as [B1 B2 B3]. constructor; [|exact B2|].
        -- intros e He. destruct (B1 e He) as (c0 & Y1 & Y2 & Y3 & Y4). assert (c0 = c) as -> by congruence. exists c'. repeat apply conj; auto; [congruence|].
           intros Z. destruct (Y4 Z) as [Y5 Y6]. split; [exact Y5|]. rewrite C3. auto.
        -- intros _ ME IN. specialize (X2 IN). destruct (filter (numbered i) out) as [|e r] eqn:EO; [now elim X2|]. exists e. split; [now left|].
           destruct (B1 e (or_introl eq_refl)) as (c0 & Y1 & Y2 & Y3 & Y4). assert (c0 = c) as -> by congruence.
           assert (pb_qos y = pb_qos (fst e)) as EQ'. { rewrite <- Y2. destruct X4 as [-> | ->]; reflexivity. }
           destruct (pb_qos y) eqn:Q; [now elim EQ| |congruence]. cbn [in_after] in ME. rewrite Q in ME.
           destruct (B3 eq_refl ME IN) as (e0 & [<-|Z] & Z2); [congruence|]. cbn [length] in B2. destruct r; [contradiction|cbn [length] in B2; lia].
      * nils. cbn [on_read]. rewrite EI. destruct (pb_qos y) eqn:Q; [now elim EQ| |].
        -- cbn [deliver reply app filter about]. rewrite ET. cbn [toku ak_id okay]. rewrite N.eqb_refl. eapply vo_hand; [exact X2|reflexivity| |exact Q]. now rewrite C1.
        -- destruct (pb_dup y) eqn:DU.
           ++ rewrite orb_true_r. cbn [reply filter about toku ak_id okay]. rewrite N.eqb_refl. apply vo_todo; [subst c'; now rewrite <- X3|]. split; [exact X2|]. exists c'. split; [reflexivity|].
              intros Z. subst c'. rewrite (X6 eq_refl) in Z. discriminate Z.
           ++ destruct (X5 eq_refl) as (Y1 & Y2 & Y3). rewrite (Y3 eq_refl eq_refl). cbn [orb deliver reply app filter about]. rewrite ET. cbn [toku ak_id okay]. rewrite N.eqb_refl.
              eapply vo_hand; [exact X2|reflexivity|now rewrite C1|]. subst c'. cbn. auto.
      * intros X. elim HNF. exact X.
    + cbn [tokd] in ET. apply N.eqb_eq in ET. subst i. constructor; scbn; rewrite ?(cur_quiet _ _ (ORead (PPubRel b)) I).
      * destruct KB as [B1 B2 B3]. constructor; auto. cbn [in_after]. rewrite mem_released. discriminate.
      * nils. cbn [on_read deliver reply app filter about toku ak_id okay]. rewrite N.eqb_refl. apply vo_todo; [exact X1|]. split; [exact X2|]. intros _. cbn [in_after]. apply mem_released.
      * intros X. elim HNF. exact X.
  - destruct (read_other rmax g inn p i ET) as [R1 R2]. eapply kept_same; [exact HK| | | | | | | | | |]; scbn; try reflexivity; auto.
    + destruct p; try (now apply cur_quiet). cbn [tokd] in ET. exact (cur_other i l p false ET).
    + cbn [filter]. now rewrite ET.
Qed.

Lemma vow_done C O inb ac me D U T A : vow C O inb ac me D U T A -> (forall p, ~ In (IHandle p) T) -> done C.
Proof. intros H HT. destruct H; auto. exfalso. apply (HT (PPublish y)). now left. Qed.
Lemma vow_drop C O inb ac me D U T A : vow C O inb ac me D U T A -> done C -> vow C O inb ac me D U [] A.
Proof. intros H HT. destruct H; try (econstructor; eauto; fail). Qed.
Lemma vow_down C O inb ac me (f : packet -> bool) p d U A : vow C O inb ac me (filter f (p :: d)) U [] A -> vow C O inb ac me (filter f d) U [] A.
Proof.
  cbn [filter]. destruct (f p); [|auto]. intros H. inversion H; subst; nils; apply vo_none; assumption.
Qed.
Lemma vow_reset C O inb ac ac' me D U T A : vow C O inb ac me D U T A -> vow C O inb ac' false D U T A.
Proof.
  assert (forall k, ackok C O inb ac me k -> ackok C O inb ac' false k) as K. { intros k [A1 A2]. split; [exact A1|]. destruct k; auto. }
  intros H. destruct H as [X|y c X1 X2 X3 X4 X5 X6|b X1 X2|y k c X1 X2 X3 X4|k X1 X2|k X1 X2|e c X1 X2 X3 X4].
  - now apply vo_none.
  - apply (vo_pub _ _ _ _ _ y c); auto. intros X. destruct (X5 X) as (Y1 & Y2 & Y3). auto.
  - now apply vo_rel; auto.
  - apply (vo_hand _ _ _ _ _ y k c); auto.
  - apply vo_todo; auto.
  - apply vo_up; auto.
  - eapply vo_again; eauto.
Qed.
Lemma act_in b f its inn g : act (NState b f its inn g) = b || existsb is_open its. Proof. reflexivity. Qed.
Lemma kept_out c q o q' w w' i : link q w -> side (cleans c) (n_led q) o -> nstep c q o q' -> sees o w w' -> kept i q w -> kept i q' w'.
Proof.
  intros HL HD HN (HO & S1 & S2 & S3 & S4) HK. destruct w as [ln n h out ag l], w' as [ln' n' h' out' ag' l']. scbn. subst.
  pose proof HL as [A B C D E F]. destruct q as [op ph td qi g]. scbn.
  destruct HN as [HB|b f its inn HB HC].
  - assert (ln' = ln /\ n' = n /\ ag' = ag) as (-> & -> & ->) by (destruct o; try discriminate HB; inversion HO; subst; try contradiction; tauto).
    eapply kept_same; [exact HK| | | | | | | | | |]; scbn; auto. apply cur_quiet. destruct o; try discriminate HB; exact I.
  - scbn. destruct HC; inversion HO; subst; try contradiction; scbn; subst; destruct S4 as [-> ->].
    all: try (solve [eapply kept_same; [exact HK| | | | | | | | | |]; scbn; auto; try (now apply cur_quiet); rewrite ?act_in; cbn [existsb is_open orb]; try (rewrite ?orb_false_r; auto; discriminate)]).
    all: try (solve [eapply kept_same; [exact HK| | | | | | | | | |]; scbn; auto; try (now apply cur_quiet); rewrite ?act_in; cbn [existsb is_open orb]; try (rewrite ?orb_false_r; auto; discriminate); try (apply arrive_tok; first [reflexivity|apply shape_tok; apply HD]);
      try (rewrite ?request_open, ?orb_false_r; auto; discriminate); try apply request_about; intros X; refine (arrive_fresh _ _ _ _ _ _ _ _ _ _ _ _ _ _ _ _ _ _ _ _ X); auto; intros Z; now apply andb_prop in Z]).
    + (* the handler is called *)
      destruct (about i (IHandle p)) eqn:EA.
      * destruct HK as [KB KV KF]. scbn. cbn [filter] in KV. rewrite EA in KV. rewrite act_in in *. cbn [existsb is_open orb] in *.
        inversion KV as [| | |y k c0 X1 X2 X3 X4 X5 X6 X7 X8| | |]; subst. cbn [about] in EA. destruct (pub_tok_id _ _ EA) as [EI EQ].
        assert (cur_of i (l ++ [Client (OHandle (PPublish y))]) = Some (Cur (cu_msg c0) (cu_read c0) true (cu_cut c0))) as EC.
        { rewrite cur_snoc. cbn [cur_step]. rewrite EA, X2. reflexivity. }
        constructor; scbn; rewrite ?EC, ?act_in.
        -- destruct KB as [B1 B2 B3]. constructor; auto. intros e He. destruct (B1 e He) as (c1 & Y1 & Y2 & Y3 & Y4). assert (c1 = c0) as -> by congruence.
           eexists. split; [reflexivity|]. cbn. auto.
        -- nils. match goal with Z : [IReply k] = filter _ _ |- _ => rewrite <- Z end. apply vo_todo; [intros c1 Z _ _; injection Z as <-; reflexivity|]. split; [exact X1|]. destruct k; try contradiction.
           ++ eexists. split; reflexivity.
           ++ eexists. split; [reflexivity|]. cbn. tauto.
        -- intros X Y. destruct (KF X Y) as (c1 & Z1 & Z2). assert (c1 = c0) as -> by congruence. eexists. split; [reflexivity|]. exact Z2.
      * eapply kept_same; [exact HK| | | | | | | | | |]; scbn; auto; [|cbn [filter]; now rewrite EA].
        destruct p; try (now apply cur_quiet). exact (cur_other i l p true EA).
    + (* a reply is written *)
      destruct (toku i p) eqn:ET.
      * destruct HK as [KB KV KF]. scbn. cbn [filter about] in KV. rewrite ET in KV. rewrite act_in in *. cbn [existsb is_open orb] in *.
        inversion KV as [| | | |k X1 X2 X3 X4 X5 X6| |]; subst. constructor; scbn; rewrite ?(cur_quiet _ _ (OWrite FromReply p) I), ?act_in; auto.
        -- destruct v; cbn [arrive]; [rewrite tail_tok, ET; nils; now apply vo_up|nils; now apply vo_none].
        -- intros X. apply KF. refine (arrive_fresh _ _ _ _ _ _ _ _ _ _ _ _ _ _ _ _ _ _ _ _ X); auto.
      * eapply kept_same; [exact HK| | | | | | | | | |]; scbn; auto; try (now apply cur_quiet); [now apply arrive_tok|cbn [filter about]; now rewrite ET|].
        intros X. refine (arrive_fresh _ _ _ _ _ _ _ _ _ _ _ _ _ _ _ _ _ _ _ _ X); auto.
    + (* or not *)
      destruct HK as [KB KV KF]. scbn. rewrite act_in in *. cbn [existsb is_open orb filter about] in *.
      assert (done (cur_of i l)) as HDn. { eapply vow_done; [exact KV|]. intros p0 X. destruct (toku i p); [destruct X as [X|X]; [discriminate X|]|]; apply filter_In in X as [X _]; apply (F p0 X). }
      constructor; scbn; rewrite ?(cur_quiet _ _ (OWriteFail FromReply p) I), ?act_in; auto; cbn [existsb is_open orb filter about].
      * eapply base_less; [exact KB|auto|]. rewrite orb_false_r. intros ->. reflexivity.
      * apply (vow_less _ _ _ _ _ _ _ _ _ n us) in KV; [|auto|intros ->; reflexivity]. rewrite orb_false_r. destruct (toku i p) eqn:ET.
        -- inversion KV as [| | | |k X1 X2 X3 X4 X5 X6| |]; subst. destruct (v && arrives); cbn [arrive]; [rewrite tail_tok, ET; nils; now apply vo_up|nils; now apply vo_none].
        -- rewrite arrive_tok by exact ET. eapply vow_drop; eassumption.
      * intros X. apply KF. refine (arrive_fresh _ _ _ _ _ _ _ _ _ _ _ _ _ _ _ _ _ _ _ _ X); auto; intros Z; now apply andb_prop in Z.
    + eapply kept_same; [exact HK| | | | | | | | | |]; scbn; auto; try (now apply cur_quiet); [apply arrive_tok|].
      * destruct (toku i p) eqn:ET; [|reflexivity]. apply tok_any in ET. rewrite (E p) in ET by now left. discriminate ET.
      * intros X. refine (arrive_fresh _ _ _ _ _ _ _ _ _ _ _ _ _ _ _ _ _ _ _ _ X); auto.
    + eapply kept_same; [exact HK| | | | | | | | | |]; scbn; auto; try (now apply cur_quiet).
      * rewrite !act_in. cbn [existsb is_open orb]. destruct (cf_rt c); [auto|]. rewrite open_spoil, orb_false_r. intros ->. reflexivity.
      * apply arrive_tok. destruct (toku i p) eqn:ET; [|reflexivity]. apply tok_any in ET. rewrite (E p) in ET by now left. discriminate ET.
      * cbn [filter about]. destruct (cf_rt c); [reflexivity|apply about_spoil].
      * intros X. refine (arrive_fresh _ _ _ _ _ _ _ _ _ _ _ _ _ _ _ _ _ _ _ _ X); auto; intros Z; now apply andb_prop in Z.
    + eapply kept_same; [exact HK| | | | | | | | | |]; scbn; auto; try (now apply cur_quiet). rewrite !act_in. cbn. intros _. apply orb_true_r.
    + eapply kept_same; [exact HK| | | | | | | | | |]; scbn; auto; try (now apply cur_quiet). rewrite !act_in. cbn. intros _. apply orb_true_r.
    + (* a new connection *)
      destruct HK as [KB KV KF]. scbn. cbn [filter] in *.
      assert (cur_of i (l ++ [Client OConnect]) = option_map (fun c => Cur (cu_msg c) (cu_read c) (cu_handled c) true) (cur_of i l)) as EC by (rewrite cur_snoc; reflexivity).
      constructor; scbn; rewrite ?EC; cbn [filter].
      * destruct KB as [B1 B2 B3]. constructor; auto; [|discriminate]. intros e He. destruct (B1 e He) as (c1 & Y1 & Y2 & Y3 & Y4). rewrite Y1. eexists. split; [reflexivity|]. cbn.
        repeat apply conj; auto. intros Z. split; [now apply Y4|discriminate].
      * apply vo_none. assert (done (cur_of i l)) as HDn by (eapply vow_done; [exact KV|intros p0 []]). intros c1 Z. destruct (cur_of i l) as [c2|]; [|discriminate Z]. injection Z as <-. cbn. now apply HDn.
      * intros _ NE. destruct (filter (numbered i) out) as [|e r] eqn:EO; [now elim NE|]. destruct (b_out _ _ _ _ _ KB e) as (c1 & Y1 & _); [now left|]. rewrite Y1. eexists. split; reflexivity.
    + (* the answer *)
      destruct (answer_shape _ _ _ _ _ _ H) as (_ & _ & AS & AO).
      assert (inn' = [] \/ inn' = inn /\ existsb is_open its = false) as HI. { destruct H; auto. }
      destruct HK as [KB KV KF]. scbn. rewrite act_in in *. cbn [existsb filter] in *.
      constructor; scbn; rewrite ?(cur_quiet _ _ (OAnswer p) I), ?act_in, ?AS.
      * destruct HI as [-> | [-> ->]]; [|exact KB]. destruct KB as [B1 B2 B3]. constructor; auto. discriminate.
      * apply vow_down in KV. destruct HI as [-> | [-> ->]]; [|exact KV]. exact (vow_reset _ _ _ _ _ _ _ _ _ _ KV).
      * intros X. destruct (C X) as (_ & X2 & _). discriminate X2.
    + (* a packet is read *)
      destruct us; [|discriminate (B eq_refl)]. apply (kept_read i _ _ _ _ _ _ _ _ _ _ FLoop inn g); [exact HK|]. intros X. destruct (C X) as (X1 & _). discriminate X1.
Qed.
