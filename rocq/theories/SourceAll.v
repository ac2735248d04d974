(* C73: the client and the broker together. *)
From Coq Require Import Permutation.
From Verif Require Import Base VarInt Prims Props Codes Packets BaseFacts Options Session Client System SpecSession SpecNet SpecPolite SpecSource SessionFacts SystemFacts AckFacts IdFacts Cases NetFacts NetMore OutFacts WorldFacts WorldMore WorldAll PoliteFacts SourceFacts SourceMore.

Lemma sees_fair c q o q' w w' : (forall i, kept i q w) -> nstep c q o q' -> sees o w w' -> fair_log (so_log w) -> fair_log (so_log w').
Proof.
  intros HK HN (_ & -> & _) HF. constructor; [exact HF|]. destruct o; try exact I. destruct p as [| |y| | | | | | | | | | | |]; try exact I.
  intros i ET. destruct HN as [HB|b f its inn HB HC]; [discriminate HB|]. destruct (HK i) as [_ KV _]. inversion HC; subst.
  match goal with X : _ = n_todo q |- _ => rewrite <- X in KV end. cbn [filter about] in KV. rewrite ET in KV. inversion KV as [| | |y' k c0 X1 X2 X3 X4 X5 X6 X7 X8| | |]; subst.
  exists c0. repeat apply conj; auto. intros Q. destruct k; try contradiction; [congruence|tauto].
Qed.
Record whole (c : config) (q : nstate) (w : source) : Prop := { wh_link : link q w; wh_kept : forall i, kept i q w; wh_fair : fair_log (so_log w) }.
Lemma whole_out c q o q' w w' : whole c q w -> side (cleans c) (n_led q) o -> nstep c q o q' -> sees o w w' -> whole c q' w'.
Proof.
  intros [A B C] HD HN HO. constructor.
  - eapply link_out; eassumption.
  - intros i. eapply kept_out; eauto.
  - eapply sees_fair; eassumption.
Qed.
Lemma whole_outs c l q w w' q' l0 : nrun c l0 q -> everywhere (side_at c) (l0 ++ l) -> nfrom c q l q' -> sees_all l w w' -> whole c q w -> whole c q' w'.
Proof.
  intros HN HE HF. revert w l0 HN HE. induction HF as [q|q o q1 l q' HS HF IH]; intros w l0 HN HE HO HA; inversion HO as [|? ? ? w1 ? HO1 HO2]; subst; [exact HA|].
  apply (IH w1 (l0 ++ [o])); [eapply nrun_snoc; eassumption|now rewrite <- app_assoc|exact HO2|]. eapply whole_out; [exact HA| |exact HS|exact HO1].
  rewrite (nrun_led _ _ _ HN). exact (HE l0 o l eq_refl).
Qed.
Lemma whole_init c : whole c nstate0 source0.
Proof.
  constructor.
  - constructor; cbn; auto; try discriminate; try contradiction.
  - intros i. constructor; cbn.
    + constructor; [intros e []|cbn; lia|discriminate].
    + apply vo_none. intros c0 X. discriminate X.
    + intros _ X. now elim X.
  - constructor.
Qed.
Lemma sourced_reachable c s w : sourced c s w -> reachable c s.
Proof. induction 1; [exists []; reflexivity|eapply reachable_step; eassumption|assumption]. Qed.
Lemma sourced_whole c s w : config_ok c -> sourced c s w -> forall q, nrun c (trace s) q -> whole c q w.
Proof.
  intros HC. induction 1 as [|s w e s' l w' HJ IH HS HT HO|s w w' HJ IH HB]; intros q HQ.
  - inversion HQ; subst; [apply whole_init|]. destruct l; discriminate.
  - rewrite HT in HQ. apply nrun_from, nfrom_app in HQ as (q1 & H1 & H2). apply nrun_from in H1.
    apply (whole_outs c l q1 w w' q (trace s) H1); auto. rewrite <- HT.
    apply side_everywhere; [exact HC|]. eapply reachable_step; [eapply sourced_reachable; exact HJ|exact HS].
  - destruct (IH q HQ) as [A B C]. constructor; [eapply link_broker; eassumption|eapply kept_broker; eassumption|eapply finish_fair; eassumption].
Qed.
Lemma sourced_fair c s w : config_ok c -> sourced c s w -> fair_log (so_log w).
Proof.
  intros HC HJ. destruct (conforms c s HC (sourced_reachable _ _ _ HJ)) as (q & HQ). exact (wh_fair _ _ _ (sourced_whole c s w HC HJ q (k_run _ _ _ HQ))).
Qed.
(* what the client does is what the log says *)
Definition of_client (l : list moment) : list out := flat_map (fun m => match m with Client o => [o] | _ => [] end) l.
Lemma of_client_app l l' : of_client (l ++ l') = of_client l ++ of_client l'. Proof. apply flat_map_app. Qed.
Lemma sees_client l w w' : sees_all l w w' -> of_client (so_log w') = of_client (so_log w) ++ l.
Proof.
  induction 1 as [w|o l w w1 w2 (_ & H & _) HL IH]; [now rewrite app_nil_r|]. rewrite IH, H, of_client_app, <- app_assoc. reflexivity.
Qed.
Lemma sourced_log c s w : sourced c s w -> of_client (so_log w) = trace s.
Proof.
  induction 1 as [|s w e s' l w' HJ IH HS HT HO|s w w' HJ IH HB]; [reflexivity| |].
  - rewrite HT, <- IH. now apply sees_client.
  - rewrite <- IH. destruct HB; scbn; auto; rewrite of_client_app; cbn; apply app_nil_r.
Qed.

(* ---- what has been seen since the message was sent ------------------------------------------- *)
Definition any_handled (i : N) (m : list moment) : Prop := exists y, In (Client (OHandle (PPublish y))) m /\ pub_tok i y = true.
Definition any_read (i : N) (m : list moment) : Prop := exists y, In (Client (ORead (PPublish y))) m /\ pub_tok i y = true /\ pb_dup y = false.
Record tells (i : N) (x : publish) (m : list moment) (c : cur) : Prop := {
  te_msg : cu_msg c = x;
  te_handled : cu_handled c = true <-> any_handled i m;
  te_read : cu_read c = true <-> any_read i m;
  te_cut : cu_cut c = true <-> In (Client OConnect) m }.
Lemma in_snoc {A} (x y : A) l : In x (l ++ [y]) <-> In x l \/ y = x.
Proof. rewrite in_app_iff. cbn. tauto. Qed.
Lemma since_tells i l x m : since i l x m -> exists c, cur_of i l = Some c /\ tells i x m c.
Proof.
  intros (l0 & -> & EX & HF). induction m as [|o m IH] using rev_ind.
  - exists (Cur x false false false). split.
    + rewrite cur_snoc. cbn [cur_step]. now rewrite (proj2 (numbered_id i x false) EX).
    + constructor; cbn; auto; split; try discriminate; try (intros (y & [] & _)); intros [].
  - apply Forall_app in HF as [HF1 HF2]. inversion HF2 as [|? ? HN _]; subst. destruct (IH HF1) as (c & E & [T1 T2 T3 T4]).
    replace (l0 ++ Start x :: m ++ [o]) with ((l0 ++ Start x :: m) ++ [o]) by now rewrite <- app_assoc. rewrite cur_snoc, E.
    assert (forall c', cu_msg c' = x -> (cu_handled c' = true <-> cu_handled c = true \/ any_handled i [o]) -> (cu_read c' = true <-> cu_read c = true \/ any_read i [o]) ->
      (cu_cut c' = true <-> cu_cut c = true \/ o = Client OConnect) -> tells i x (m ++ [o]) c') as HT.
    { intros c' Y1 Y2 Y3 Y4. constructor; [exact Y1| | |].
      - rewrite Y2, T2. unfold any_handled. split.
        + intros [(y & Z1 & Z2)|(y & [Z1|[]] & Z2)]; exists y; rewrite in_snoc; auto.
        + intros (y & Z1 & Z2). apply in_snoc in Z1 as [Z1|Z1]; [left|right]; exists y; cbn; auto.
      - rewrite Y3, T3. unfold any_read. split.
        + intros [(y & Z1 & Z2)|(y & [Z1|[]] & Z2)]; exists y; rewrite in_snoc; auto.
        + intros (y & Z1 & Z2). apply in_snoc in Z1 as [Z1|Z1]; [left|right]; exists y; cbn; auto.
      - rewrite Y4, T4, in_snoc. tauto. }
    assert ((forall y, o = Client (OHandle (PPublish y)) -> pub_tok i y = false) -> (forall y, o = Client (ORead (PPublish y)) -> pub_tok i y && negb (pb_dup y) = false) -> o <> Client OConnect ->
      tells i x (m ++ [o]) c) as HS.
    { intros Z1 Z2 Z3. apply HT; auto; split; auto.
      - intros [Z|(y & [Z|[]] & W)]; [exact Z|]. rewrite (Z1 y Z) in W. discriminate W.
      - intros [Z|(y & [Z|[]] & W & W2)]; [exact Z|]. specialize (Z2 y Z). rewrite W, W2 in Z2. discriminate Z2.
      - intros [Z|Z]; [exact Z|contradiction]. }
    destruct o as [o|z|z]; cbn [cur_step].
    + destruct o; try (exists c; split; [reflexivity|]; apply HS; intros; discriminate).
      * eexists. split; [reflexivity|]. apply HT; cbn; auto; try tauto; (split; [auto|]); intros [Z|(y & [Z|[]] & W)]; auto; discriminate Z.
      * destruct p as [| |y| | | | | | | | | | | |]; try (exists c; split; [reflexivity|]; apply HS; intros; discriminate).
        destruct (pub_tok i y && negb (pb_dup y)) eqn:EB; [|exists c; split; [reflexivity|]; apply HS; try discriminate; intros y0 Z; injection Z as <-; exact EB].
        apply andb_prop in EB as [EB1 EB2]. apply negb_true_iff in EB2. eexists. split; [reflexivity|]. apply HT; cbn; auto.
        -- split; [auto|]. intros [Z|(y0 & [Z|[]] & W)]; [exact Z|discriminate Z].
        -- split; [|auto]. intros _. right. exists y. cbn. auto.
        -- split; [auto|]. intros [Z|Z]; [exact Z|discriminate Z].
      * destruct p as [| |y| | | | | | | | | | | |]; try (exists c; split; [reflexivity|]; apply HS; intros; discriminate).
        destruct (pub_tok i y) eqn:EB; [|exists c; split; [reflexivity|]; apply HS; try discriminate; intros y0 Z; injection Z as <-; exact EB].
        eexists. split; [reflexivity|]. apply HT; cbn; auto.
        -- split; [|auto]. intros _. right. exists y. cbn. auto.
        -- split; [auto|]. intros [Z|(y0 & [Z|[]] & W)]; [exact Z|discriminate Z].
        -- split; [auto|]. intros [Z|Z]; [exact Z|discriminate Z].
    + cbn [not_start] in HN. destruct (numbered i (z, false)) eqn:EN; [apply numbered_id in EN; contradiction|]. exists c. split; [reflexivity|]. apply HS; intros; discriminate.
    + exists c. split; [reflexivity|]. apply HS; intros; discriminate.
Qed.
Lemma cur_since i l c : cur_of i l = Some c -> exists m, since i l (cu_msg c) m /\ tells i (cu_msg c) m c.
Proof.
  assert (cur_of i l <> None -> exists x m, since i l x m) as H.
  { induction l as [|o l IH] using rev_ind; [intros X; now elim X|]. rewrite cur_snoc. intros X.
    destruct (match o with Start x => numbered i (x, false) | _ => false end) eqn:E.
    - destruct o as [|x|]; try discriminate E. exists x, []. exists l. repeat apply conj; [reflexivity|now apply numbered_id in E|constructor].
    - destruct IH as (x & m & l0 & -> & E1 & E2). { intros Z. apply X. rewrite Z. destruct o as [o|x|x]; cbn [cur_step]; [|now rewrite E|reflexivity]. destruct o; try reflexivity; destruct p; try reflexivity; match goal with |- context [if ?b then _ else _] => destruct b end; reflexivity. }
      exists x, (m ++ [o]), l0. rewrite <- app_assoc. repeat apply conj; auto. apply Forall_app. split; [exact E2|]. constructor; [|constructor]. destruct o as [|y|]; cbn; auto. intros Z. apply (numbered_id i y false) in Z. congruence. }
  intros E. destruct H as (x & m & S); [congruence|]. destruct (since_tells _ _ _ _ S) as (c' & E' & T). assert (c' = c) as -> by congruence. exists m. rewrite (te_msg _ _ _ _ T). auto.
Qed.
Lemma fair_at l : fair_log l -> forall l1 m l2, l = l1 ++ m :: l2 -> fair_step l1 m.
Proof.
  induction 1 as [|l m0 HF IH HS]; intros l1 m l2 E; [destruct l1; discriminate|].
  destruct l2 as [|m2 l2] using rev_ind; [apply app_inj_tail in E as [-> ->]; exact HS|]. clear IHl2. rewrite app_comm_cons, app_assoc in E. apply app_inj_tail in E as [E _]. now apply (IH l1 m l2).
Qed.
Lemma since_start i l x m : fair_log l -> since i l x m -> pb_dup x = false.
Proof. intros HF (l0 & E & _). exact (fair_at l HF l0 (Start x) m E). Qed.
Lemma since_copy i l x m y : fair_log l -> since i l x m -> In (Client (OHandle (PPublish y))) m -> pub_tok i y = true -> copy_of x y.
Proof.
  intros HF (l0 & E & EX & HS) HI HT. apply in_split in HI as (m1 & m2 & ->). assert (since i (l0 ++ Start x :: m1) x m1) as S. { exists l0. repeat apply conj; auto. apply Forall_app in HS. tauto. }
  assert (l = (l0 ++ Start x :: m1) ++ Client (OHandle (PPublish y)) :: m2) as E' by (rewrite E, <- app_assoc; reflexivity). pose proof (fair_at l HF _ _ _ E') as X. cbn [fair_step] in X. destruct (X i HT) as (c & Y1 & Y2 & _).
  destruct (since_tells _ _ _ _ S) as (c' & Y3 & Y4). assert (c' = c) as -> by congruence. now rewrite (te_msg _ _ _ _ Y4) in Y2.
Qed.

Lemma tok_of i y : pb_qos y <> AtMostOnce -> pb_pkid y = Some i -> pub_tok i y = true.
Proof. intros H E. unfold pub_tok. rewrite E, N.eqb_refl. destruct (pb_qos y); [now elim H|reflexivity|reflexivity]. Qed.
Lemma handed_meant c s w l1 l2 y i : config_ok c -> sourced c s w -> so_log w = l1 ++ Client (OHandle (PPublish y)) :: l2 -> pb_qos y <> AtMostOnce -> pb_pkid y = Some i ->
  exists x m, since i l1 x m /\ copy_of x y /\
    (pb_qos y = ExactlyOnce -> forall y', In (Client (OHandle (PPublish y'))) m -> pb_pkid y' = Some i -> pb_qos y' = AtMostOnce).
Proof.
  intros HC HJ E HQ HI. pose proof (fair_at _ (sourced_fair _ _ _ HC HJ) _ _ _ E) as X. cbn [fair_step] in X. destruct (X i (tok_of _ _ HQ HI)) as (c0 & Y1 & Y2 & Y3).
  destruct (cur_since _ _ _ Y1) as (m & S & T). exists (cu_msg c0), m. repeat apply conj; auto. intros Q y' I1 I2.
  destruct (pb_qos y') eqn:Q'; [reflexivity| |]; exfalso; specialize (Y3 Q); assert (cu_handled c0 = true) as Z by (apply (te_handled _ _ _ _ T); exists y'; split; [exact I1|apply tok_of; congruence]); congruence.
Qed.
Lemma fair_prefix l l' : fair_log (l ++ l') -> fair_log l.
Proof.
  induction l' as [|m l' IH] using rev_ind; [now rewrite app_nil_r|]. rewrite app_assoc. intros H. inversion H as [E|l0 m0 H1 H2 E]; [destruct (l ++ l'); discriminate|]. apply app_inj_tail in E as [-> _]. auto.
Qed.
Lemma finish_acknowledged c s w l1 l2 x : config_ok c -> sourced c s w -> so_log w = l1 ++ Finish x :: l2 -> pb_qos x = AtLeastOnce ->
  exists i m y, since i l1 x m /\ copy_of x y /\ In (Client (OHandle (PPublish y))) m.
Proof.
  intros HC HJ E Q. pose proof (sourced_fair _ _ _ HC HJ) as HF. pose proof (fair_at _ HF _ _ _ E) as X. cbn [fair_step] in X. destruct X as (i & c0 & Y1 & Y2 & Y3 & Y4 & _).
  destruct (cur_since _ _ _ Y2) as (m & S & T). specialize (Y4 Q). destruct (proj1 (te_handled _ _ _ _ T) Y4) as (y & I1 & I2). rewrite Y3 in *. exists i, m, y. repeat apply conj; auto.
  apply (since_copy i l1 x m y); auto. rewrite E in HF. now apply fair_prefix in HF.
Qed.
Lemma finish_received c s w l1 l2 x : config_ok c -> sourced c s w -> so_log w = l1 ++ Finish x :: l2 -> pb_qos x = ExactlyOnce ->
  exists i m, since i l1 x m /\ (In (Client (ORead (PPublish x))) m \/ ~ In (Client OConnect) m -> exists y, copy_of x y /\ In (Client (OHandle (PPublish y))) m).
Proof.
  intros HC HJ E Q. pose proof (sourced_fair _ _ _ HC HJ) as HF. pose proof (fair_at _ HF _ _ _ E) as X. cbn [fair_step] in X. destruct X as (i & c0 & Y1 & Y2 & Y3 & _ & Y5 & _).
  destruct (Y5 Q) as [Y6 Y7]. destruct (cur_since _ _ _ Y2) as (m & S & T). rewrite Y3 in *. assert (fair_log l1) as HF1 by (rewrite E in HF; now apply fair_prefix in HF).
  exists i, m. split; [exact S|]. intros H. assert (cu_read c0 = true) as R.
  { destruct H as [H|H]; [|apply Y7; destruct (cu_cut c0) eqn:EC; [elim H; now apply (te_cut _ _ _ _ T)|reflexivity]].
    apply (te_read _ _ _ _ T). exists x. repeat apply conj; [exact H|apply tok_of; congruence|exact (since_start _ _ _ _ HF1 S)]. }
  apply Y6 in R. destruct (proj1 (te_handled _ _ _ _ T) R) as (y & I1 & I2). exists y. split; [|exact I1]. now apply (since_copy i l1 x m y).
Qed.
