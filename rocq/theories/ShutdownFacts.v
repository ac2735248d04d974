(* Dropping the network *)
From Coq Require Import Permutation.
From Verif Require Import Base VarInt Prims Props Codes Packets Options Session Client System SpecSession Shutdown SpecShutdown BaseFacts SessionFacts SystemFacts AckFacts IdFacts Cases EndFacts.

Lemma exec_then c es1 : forall s es2 s1, exec c es1 s = Some s1 -> exec c (es1 ++ es2) s = exec c es2 s1.
Proof.
  induction es1 as [|e es1 IH]; intros s es2 s1 H; cbn [exec app] in *; [now injection H as ->|].
  destruct (step c e s); [now apply IH|discriminate].
Qed.
Lemma pick_perm {A} : forall i (l : list A) x r, pick i l = Some (x, r) -> Permutation l (x :: r) /\ length l = S (length r).
Proof.
  induction i as [|i IH]; intros [|a l] x r H; try discriminate; cbn [pick] in H.
  - injection H as <- <-. now split.
  - destruct (pick i l) as [[y r']|] eqn:E; [|discriminate]. injection H as <- <-. apply IH in E as [P L]. split; [|cbn; now rewrite L].
    rewrite P. apply perm_swap.
Qed.
Lemma pick_some {A} : forall i (l : list A), (i < length l)%nat -> exists x r, pick i l = Some (x, r).
Proof.
  induction i as [|i IH]; intros [|a l] H; cbn in H; try lia; cbn [pick]; [eauto|].
  destruct (IH l) as (x & r & E); [lia|]. rewrite E. eauto.
Qed.
Lemma pick_none {A} : forall i (l : list A), pick i l = None -> (length l <= i)%nat.
Proof.
  intros i l H. destruct (Nat.lt_ge_cases i (length l)) as [L|]; [|assumption]. destruct (pick_some i l L) as (x & r & E). congruence.
Qed.
Lemma begin_call_some c k s p r : pl_open (st_pool (y_state s)) = true -> client_call (max_packet (cf_opts c)) k (st_pool (y_state s)) = Some (p, r) ->
  exists s', begin_call c k s = Some s' /\ pl_open (st_pool (y_state s')) = true /\
    match r with inl _ => y_wait s' = y_wait s | inr pkt => y_wait s' = y_wait s ++ [pkt] end.
Proof.
  intros HO H. unfold begin_call. rewrite HO, H.
  assert (pl_open p = true).
  { unfold client_call in H. destruct (needs_id k); [destruct (pl_ids _); [discriminate|]|]; destruct (validate _ _); injection H as <- <-; exact HO. }
  destruct r as [[pkt e]|pkt]; eexists; (split; [reflexivity|]); now split.
Qed.

(* ---- a step of the network leaves the calls alone ---- *)
Lemma tokio_keeps x ps oks : ~ In ODropClients (tokio_writes x ps oks).
Proof. intros H. pose proof (tokio_attempts x ps oks) as F. rewrite Forall_forall in F. apply F in H. destruct H as (p & [H|H]); discriminate H. Qed.
Lemma smol_keeps x ps ok : ~ In ODropClients (smol_writes x ps ok).
Proof. intros H. pose proof (smol_attempts x ps ok) as F. rewrite Forall_forall in F. apply F in H. destruct H as (p & [H|H]); discriminate H. Qed.
Lemma network_quiet c e s l st w ch n q t : by_network e = true -> tcase c s e l st w ch n q t -> w = y_wait s /\ ~ In ODropClients l.
Proof.
  intros HB H. destruct H; try discriminate HB; (split; [reflexivity|]); try (intros HI; cbn in HI; intuition discriminate).
  all: rewrite ?in_app_iff; try (intros [HI|[HI|[]]]; [|discriminate HI]); try intros HI.
  all: try (now apply tokio_keeps in HI); now apply smol_keeps in HI.
Qed.
Lemma clients_after clean l : forall g, lg_clients (fold_left (ledger_step clean) l g) = lg_clients g && negb (existsb (fun o => match o with ODropClients => true | _ => false end) l).
Proof.
  induction l as [|o l IH]; intros g; cbn [fold_left existsb]; [now rewrite andb_true_r|]. rewrite IH, clients_step.
  destruct o; cbn [orb negb]; rewrite ?andb_false_r; reflexivity.
Qed.
Lemma clients_here c s : config_ok c -> reachable c s -> pl_open (st_pool (y_state s)) = negb (existsb (fun o => match o with ODropClients => true | _ => false end) (trace s)).
Proof.
  intros HC HR. pose proof (inv_reachable _ _ HC HR) as [I _]. rewrite (i_open _ _ _ _ _ I). unfold ledger_at, ledger_of. now rewrite clients_after.
Qed.
Lemma network_leaves c e s s' : config_ok c -> reachable c s -> by_network e = true -> step c e s = Some s' ->
  y_wait s' = y_wait s /\ pl_open (st_pool (y_state s')) = pl_open (st_pool (y_state s)).
Proof.
  intros HC HR HB HS. assert (HR' : reachable c s').
  { destruct HR as (es & E). exists (es ++ [e]). rewrite (exec_then _ _ _ _ _ E). cbn [exec]. now rewrite HS. }
  destruct (step_cases _ _ _ _ (reachable_buf _ _ HR) HS) as (l & st & w & ch & n & q & t & HT & ES). destruct (network_quiet _ _ _ _ _ _ _ _ _ _ HB HT) as [-> HN].
  split; [now rewrite ES|]. rewrite !(clients_here c) by assumption.
  assert (ET : trace s' = trace s ++ l). { rewrite ES. unfold trace, next. cbn [y_log]. rewrite map_app, map_map. cbn [snd]. now rewrite map_id. }
  rewrite ET, existsb_app. replace (existsb _ l) with false; [now rewrite orb_false_r|]. symmetry. apply not_true_is_false. intros HX.
  apply existsb_exists in HX as (o & HI & HO). now destruct o.
Qed.

(* ---- the invariant ---- *)
Definition linv (g : lsys) : Prop :=
  length (l_send g) = length (y_wait (l_sys g)) /\
  (unreturned g <> [] -> pl_open (st_pool (y_state (l_sys g))) = true) /\
  Permutation (unreturned g ++ map fst (l_ends g)) (call_numbers g) /\
  (l_ids g = true -> l_req g = true).

Lemma numbers_next n : map N.of_nat (seq 0 (N.to_nat (n + 1))) = map N.of_nat (seq 0 (N.to_nat n)) ++ [n].
Proof. replace (N.to_nat (n + 1)) with (N.to_nat n + 1)%nat by lia. rewrite seq_app, map_app. cbn [seq map]. do 2 f_equal. lia. Qed.
Ltac lsimp := cbn [l_sys l_ids l_req l_next l_need l_send l_ends] in *.
Definition lreach (c : config) (g : lsys) : Prop := exists xs, lexec c xs (linit c) = Some g.

(* ---- every step is a step of the system or none ---- *)
Lemma lstep_sim c x g g' : lstep c x g = Some g' ->
  exists es, exec c es (l_sys g) = Some (l_sys g') /\ (l_ids g = false -> Forall not_network es /\ l_ids g' = false /\ (l_req g = false -> l_req g' = false)).
Proof.
  intros H. destruct x; cbn [lstep] in H.
  - destruct (by_network e && l_ids g && l_req g) eqn:E.
    + destruct (step c e (l_sys g)) eqn:ES; [|discriminate]. injection H as <-. exists [e]. cbn [exec]. rewrite ES. split; [reflexivity|]. intros HI. rewrite HI, andb_false_r in E. discriminate.
    + destruct e; try discriminate. injection H as <-. exists [ETick d]. split; [reflexivity|]. lsimp. intros HI. split; [repeat constructor|auto].
  - destruct (l_ids g); [|discriminate]. injection H as <-. exists []. split; [reflexivity|discriminate].
  - destruct (l_req g && negb (l_ids g)) eqn:E; [|discriminate]. injection H as <-. exists []. split; [reflexivity|]. lsimp. auto.
  - destruct (pl_open _); [|discriminate]. injection H as <-. exists []. split; [reflexivity|]. lsimp. auto.
  - destruct (pick i (l_need g)) as [[[n k] rest]|]; [|discriminate]. destruct (client_call _ _ _) as [[p' r]|].
    + destruct (begin_call c k (l_sys g)) eqn:EB; [|discriminate]. exists [ECall k]. cbn [exec step]. rewrite EB. destruct r as [[pk e]|pk]; injection H as <-; lsimp; (split; [reflexivity|]); intros HI; (split; [repeat constructor|auto]).
    + destruct (l_ids g) eqn:EI; [discriminate|]. injection H as <-. exists []. lsimp. split; [reflexivity|auto].
  - destruct (pick i (l_send g)) as [[n rest]|]; [|discriminate]. destruct (l_req g) eqn:EQ.
    + destruct (send_call i (l_sys g)) eqn:EB; [|discriminate]. injection H as <-. exists [ESend i]. cbn [exec step]. rewrite EB. lsimp. split; [reflexivity|]. intros HI. split; [repeat constructor|auto].
    + destruct (give_up i (l_sys g)) eqn:EB; [|discriminate]. injection H as <-. exists [EGiveUp i]. cbn [exec step]. rewrite EB. lsimp. split; [reflexivity|]. intros HI. split; [repeat constructor|auto].
  - destruct (pick i (l_need g)) as [[[n k] rest]|]; [|discriminate]. injection H as <-. exists []. lsimp. split; [reflexivity|auto].
  - destruct (pick i (l_send g)) as [[n rest]|]; [|discriminate]. destruct (give_up i (l_sys g)) eqn:EB; [|discriminate]. injection H as <-. exists [EGiveUp i]. cbn [exec step]. rewrite EB. lsimp. split; [reflexivity|]. intros HI. split; [repeat constructor|auto].
  - destruct (l_need g); [|discriminate]. destruct (drop_clients (l_sys g)) eqn:EB; [|discriminate]. injection H as <-. exists [EDropClients]. cbn [exec step]. rewrite EB. lsimp. split; [reflexivity|]. intros HI. split; [repeat constructor|auto].
Qed.
Lemma lexec_sim c : forall xs g g', lexec c xs g = Some g' ->
  exists es, exec c es (l_sys g) = Some (l_sys g') /\ (l_ids g = false -> Forall not_network es /\ l_ids g' = false /\ (l_req g = false -> l_req g' = false)).
Proof.
  induction xs as [|x xs IH]; intros g g' H; cbn [lexec] in H.
  - injection H as <-. exists []. split; [reflexivity|auto].
  - destruct (lstep c x g) as [g1|] eqn:E1; [|discriminate]. destruct (lstep_sim _ _ _ _ E1) as (es1 & H1 & F1). destruct (IH _ _ H) as (es2 & H2 & F2).
    exists (es1 ++ es2). split; [now rewrite (exec_then _ _ _ _ _ H1)|]. intros HI. destruct (F1 HI) as (A & B & C). destruct (F2 B) as (D & E & F).
    split; [apply Forall_app; now split|]. split; [assumption|auto].
Qed.
Lemma lexec_app c xs1 : forall g xs2 g1, lexec c xs1 g = Some g1 -> lexec c (xs1 ++ xs2) g = lexec c xs2 g1.
Proof.
  induction xs1 as [|e es1 IH]; intros s es2 s1 H; cbn [lexec app] in *; [now injection H as ->|].
  destruct (lstep c e s); [now apply IH|discriminate].
Qed.
Lemma lreach_reach c g : lreach c g -> reachable c (l_sys g).
Proof. intros (xs & H). destruct (lexec_sim _ _ _ _ H) as (es & E & _). exists es. exact E. Qed.
Lemma client_event c e s s' : not_network e -> step c e s = Some s' -> exists l, trace s' = trace s ++ l /\ Forall client_log l.
Proof.
  intros HN H. destruct e; try contradiction; cbn [step] in H.
  - injection H as <-. exists []. unfold trace. cbn [set_now y_log]. now rewrite app_nil_r.
  - unfold begin_call in H. destruct (pl_open _); [|discriminate]. destruct (client_call _ _ _) as [[p' [[pkt e]|pkt]]|]; [| |discriminate]; injection H as <-;
      [exists [OBegin pkt; ORefuse pkt e]|exists [OBegin pkt]]; unfold trace; cbn [log set_wait set_state y_log]; rewrite map_app; (split; [reflexivity|repeat constructor]).
  - unfold send_call in H. destruct (pick _ _) as [[p r]|]; [|discriminate]. destruct (_ <? _); [|discriminate]. injection H as <-. exists [OAccept p].
    unfold trace; cbn [log set_chan set_wait set_state y_log]; rewrite map_app; (split; [reflexivity|repeat constructor]).
  - unfold give_up in H. destruct (pick _ _) as [[p r]|]; [|discriminate]. injection H as <-. exists [OGiveUp p].
    unfold trace; cbn [log set_chan set_wait set_state y_log]; rewrite map_app; (split; [reflexivity|repeat constructor]).
  - unfold drop_clients in H. destruct (y_wait s); [|discriminate]. injection H as <-. exists [ODropClients].
    unfold trace; cbn [log set_chan set_wait set_state y_log]; rewrite map_app; (split; [reflexivity|repeat constructor]).
Qed.
Lemma client_events c : forall es s s', Forall not_network es -> exec c es s = Some s' -> exists l, trace s' = trace s ++ l /\ Forall client_log l.
Proof.
  induction es as [|e es IH]; intros s s' HF H; cbn [exec] in H.
  - injection H as <-. exists []. now rewrite app_nil_r.
  - inversion HF; subst. destruct (step c e s) as [s1|] eqn:E; [|discriminate]. destruct (client_event _ _ _ _ H2 E) as (l1 & T1 & F1). destruct (IH _ _ H3 H) as (l2 & T2 & F2).
    exists (l1 ++ l2). rewrite T2, T1, app_assoc. split; [reflexivity|apply Forall_app; now split].
Qed.
Lemma shutdown_refines c xs g ys g' : lexec c xs (linit c) = Some g -> lexec c ys g = Some g' ->
  reachable c (l_sys g) /\ (l_ids g = false -> exists l, trace (l_sys g') = trace (l_sys g) ++ l /\ Forall client_log l).
Proof.
  intros H H'. split; [apply lreach_reach; now exists xs|]. intros HI. destruct (lexec_sim _ _ _ _ H') as (es & E & F). eapply client_events; [apply F, HI|exact E].
Qed.

(* ---- the invariant holds ---- *)
Lemma give_up_wait i s s' : give_up i s = Some s' -> length (y_wait s) = S (length (y_wait s')) /\ y_state s' = y_state s.
Proof.
  unfold give_up. destruct (pick i (y_wait s)) as [[p r]|] eqn:E; [|discriminate]. intros H. injection H as <-. apply pick_perm in E as [_ E]. split; [exact E|reflexivity].
Qed.
Lemma send_call_wait i s s' : send_call i s = Some s' -> length (y_wait s) = S (length (y_wait s')) /\ y_state s' = y_state s.
Proof.
  unfold send_call. destruct (pick i (y_wait s)) as [[p r]|] eqn:E; [|discriminate]. destruct (_ <? _); [|discriminate]. intros H. injection H as <-. apply pick_perm in E as [_ E]. split; [exact E|reflexivity].
Qed.
Lemma perm_send (a r e s : list N) n : Permutation s (n :: r) -> Permutation ((a ++ r) ++ e ++ [n]) ((a ++ s) ++ e).
Proof. intros ->. rewrite app_assoc. rewrite <- Permutation_cons_append. change (n :: (a ++ r) ++ e) with ((n :: a ++ r) ++ e). apply Permutation_app_tail. apply Permutation_middle. Qed.
Lemma linv_step c x g g' : config_ok c -> reachable c (l_sys g) -> linv g -> lstep c x g = Some g' -> linv g'.
Proof.
  intros HC HR (I1 & I2 & I3 & I4) H. unfold linv, unreturned, call_numbers in *. destruct x; cbn [lstep] in H.
  - destruct (by_network e && l_ids g && l_req g) eqn:E.
    + destruct (step c e (l_sys g)) eqn:ES; [|discriminate]. injection H as <-. apply andb_true_iff in E as [E _]. apply andb_true_iff in E as [E _].
      destruct (network_leaves _ _ _ _ HC HR E ES) as [W P]. lsimp. rewrite W, P. auto.
    + destruct e; try discriminate. injection H as <-. auto.
  - destruct (l_ids g) eqn:EI; [|discriminate]. injection H as <-. lsimp. repeat split; auto; discriminate.
  - destruct (l_req g && negb (l_ids g)) eqn:E; [|discriminate]. apply andb_true_iff in E as [_ E]. injection H as <-. lsimp. repeat split; auto. intros HI. rewrite HI in E. discriminate.
  - destruct (pl_open _) eqn:EO; [|discriminate]. injection H as <-. lsimp. repeat split; auto. rewrite numbers_next, map_app. cbn [map fst].
    rewrite <- I3. rewrite <- !app_assoc. apply Permutation_app_head. cbn [app]. rewrite app_assoc. apply Permutation_cons_append.
  - destruct (pick i (l_need g)) as [[[n k] rest]|] eqn:EP; [|discriminate]. apply pick_perm in EP as [EP _].
    assert (HO : pl_open (st_pool (y_state (l_sys g))) = true).
    { apply I2. intros E. apply app_eq_nil in E as [E _]. apply map_eq_nil in E. rewrite E in EP. now apply Permutation_nil_cons in EP. }
    rewrite EP in I3. cbn [map fst] in I3. destruct (client_call _ _ _) as [[p' r]|] eqn:EC.
    + destruct (begin_call_some _ _ _ _ _ HO EC) as (s' & EB & HO' & W). rewrite EB in H. destruct r as [[pk e]|pk]; injection H as <-; lsimp; rewrite W; repeat split; auto.
      * rewrite <- I3. rewrite map_app. cbn [map fst]. cbn [app]. rewrite app_assoc. rewrite <- Permutation_cons_append. reflexivity.
      * rewrite !app_length. cbn [length]. lia.
      * rewrite <- I3. rewrite <- !app_assoc. cbn [app]. rewrite <- Permutation_middle. now rewrite <- Permutation_middle.
    + destruct (l_ids g) eqn:EI; [discriminate|]. injection H as <-. lsimp. repeat split; auto.
      rewrite <- I3. rewrite map_app. cbn [map fst]. cbn [app]. rewrite app_assoc. rewrite <- Permutation_cons_append. reflexivity.
  - destruct (pick i (l_send g)) as [[n rest]|] eqn:EP; [|discriminate]. apply pick_perm in EP as [EP EL].
    assert (HO : pl_open (st_pool (y_state (l_sys g))) = true).
    { apply I2. intros E. apply app_eq_nil in E as [_ E]. rewrite E in EP. now apply Permutation_nil_cons in EP. }
    assert (I3' : forall r, Permutation ((map fst (l_need g) ++ rest) ++ map fst (l_ends g ++ [(n, r)])) (map N.of_nat (seq 0 (N.to_nat (l_next g))))).
    { intros r. rewrite <- I3. rewrite map_app. cbn [map fst]. now apply perm_send. }
    destruct (l_req g).
    + destruct (send_call i (l_sys g)) eqn:EB; [|discriminate]. injection H as <-. lsimp. apply send_call_wait in EB as [EB ->]. repeat split; auto. lia.
    + destruct (give_up i (l_sys g)) eqn:EB; [|discriminate]. injection H as <-. lsimp. apply give_up_wait in EB as [EB ->]. repeat split; auto. lia.
  - destruct (pick i (l_need g)) as [[[n k] rest]|] eqn:EP; [|discriminate]. apply pick_perm in EP as [EP _].
    assert (HO : pl_open (st_pool (y_state (l_sys g))) = true).
    { apply I2. intros E. apply app_eq_nil in E as [E _]. apply map_eq_nil in E. rewrite E in EP. now apply Permutation_nil_cons in EP. }
    injection H as <-. lsimp. repeat split; auto. rewrite EP in I3. cbn [map fst] in I3.
    rewrite <- I3. rewrite map_app. cbn [map fst]. cbn [app]. rewrite app_assoc. rewrite <- Permutation_cons_append. reflexivity.
  - destruct (pick i (l_send g)) as [[n rest]|] eqn:EP; [|discriminate]. apply pick_perm in EP as [EP EL].
    assert (HO : pl_open (st_pool (y_state (l_sys g))) = true).
    { apply I2. intros E. apply app_eq_nil in E as [_ E]. rewrite E in EP. now apply Permutation_nil_cons in EP. }
    destruct (give_up i (l_sys g)) eqn:EB; [|discriminate]. injection H as <-. lsimp. apply give_up_wait in EB as [EB ->]. repeat split; auto; [lia|].
    rewrite <- I3. rewrite map_app. cbn [map fst]. now apply perm_send.
  - destruct (l_need g) eqn:EN; [|discriminate]. unfold drop_clients in H. destruct (y_wait (l_sys g)) eqn:EW; [|discriminate]. injection H as <-. cbn [length] in I1. apply length_zero_iff_nil in I1.
    lsimp. rewrite I1 in *. repeat split; auto; try (intros X; now destruct X). cbn [log set_state y_wait]. now rewrite EW.
Qed.
Lemma linv_init c : linv (linit c).
Proof. repeat split; auto. Qed.
Lemma linv_exec c : config_ok c -> forall xs g g', lreach c g -> linv g -> lexec c xs g = Some g' -> linv g'.
Proof.
  intros HC. induction xs as [|x xs IH]; intros g g' HR HI H; cbn [lexec] in H; [now injection H as <-|].
  destruct (lstep c x g) as [g1|] eqn:E; [|discriminate]. apply (IH g1); [|now apply (linv_step c x g); [|apply lreach_reach| |]|assumption].
  destruct HR as (ys & HY). exists (ys ++ [x]). rewrite (lexec_app _ _ _ _ _ HY). cbn [lexec]. now rewrite E.
Qed.
Lemma linv_reach c g : config_ok c -> lreach c g -> linv g.
Proof. intros HC (xs & H). apply (linv_exec c HC xs (linit c)); [exists []; reflexivity|apply linv_init|assumption]. Qed.

(* ---- what is claimed ---- *)
Lemma never_blocks c g : config_ok c -> lreach c g -> gone g ->
  (forall i, (i < length (l_need g))%nat -> exists g', lstep c (LBegin i) g = Some g') /\ (forall i, (i < length (l_send g))%nat -> exists g', lstep c (LSend i) g = Some g').
Proof.
  intros HC HR [GI GR]. destruct (linv_reach _ _ HC HR) as (I1 & I2 & _). split; intros i HL; cbn [lstep].
  - destruct (pick_some _ _ HL) as ([n k] & r & EP). rewrite EP. rewrite GI. destruct (client_call _ _ _) as [[p' x]|] eqn:EC; [|eauto].
    assert (HO : pl_open (st_pool (y_state (l_sys g))) = true).
    { apply I2. unfold unreturned. intros E. apply app_eq_nil in E as [E _]. apply map_eq_nil in E. rewrite E in HL. cbn in HL. lia. }
    destruct (begin_call_some _ _ _ _ _ HO EC) as (s' & -> & _). destruct x as [[? ?]|?]; eauto.
  - destruct (pick_some _ _ HL) as (n & r & EP). rewrite EP, GR. unfold give_up. rewrite I1 in HL. destruct (pick_some _ _ HL) as (q & r' & ->). eauto.
Qed.
Lemma goes_shorter c x g g' : goes_on x -> lstep c x g = Some g' -> (2 * length (l_need g') + length (l_send g') < 2 * length (l_need g) + length (l_send g))%nat.
Proof.
  intros HG H. destruct x; try contradiction; cbn [lstep] in H.
  - destruct (pick i (l_need g)) as [[[n k] rest]|] eqn:EP; [|discriminate]. apply pick_perm in EP as [_ EP]. destruct (client_call _ _ _) as [[p' r]|].
    + destruct (begin_call c k (l_sys g)); [|discriminate]. destruct r as [[? ?]|?]; injection H as <-; lsimp; rewrite ?app_length; cbn [length]; lia.
    + destruct (l_ids g); [discriminate|]. injection H as <-. lsimp. lia.
  - destruct (pick i (l_send g)) as [[n rest]|] eqn:EP; [|discriminate]. apply pick_perm in EP as [_ EP]. destruct (l_req g).
    + destruct (send_call i (l_sys g)); [|discriminate]. injection H as <-. lsimp. lia.
    + destruct (give_up i (l_sys g)); [|discriminate]. injection H as <-. lsimp. lia.
Qed.
Lemma goes_bounded c : forall ys g g', Forall goes_on ys -> lexec c ys g = Some g' -> (length ys <= 2 * length (l_need g) + length (l_send g))%nat.
Proof.
  induction ys as [|y ys IH]; intros g g' HF H; cbn [lexec length] in *; [lia|]. inversion HF; subst. destruct (lstep c y g) as [g1|] eqn:E; [|discriminate].
  pose proof (goes_shorter _ _ _ _ H2 E). specialize (IH _ _ H3 H). lia.
Qed.
Lemma no_ok_step c x g g' : l_req g = false -> lstep c x g = Some g' -> exists new, l_ends g' = l_ends g ++ new /\ Forall (fun e => snd e <> CrOk) new.
Proof.
  intros HQ H. destruct x; cbn [lstep] in H; rewrite ?HQ in H.
  - rewrite andb_false_r in H. destruct e; try discriminate. injection H as <-. exists []. now rewrite app_nil_r.
  - destruct (l_ids g); [|discriminate]. injection H as <-. exists []. now rewrite app_nil_r.
  - discriminate.
  - destruct (pl_open _); [|discriminate]. injection H as <-. exists []. now rewrite app_nil_r.
  - destruct (pick i (l_need g)) as [[[n k] rest]|]; [|discriminate]. destruct (client_call _ _ _) as [[p' r]|].
    + destruct (begin_call c k (l_sys g)); [|discriminate]. destruct r as [[? e]|?]; injection H as <-; lsimp.
      * exists [(n, CrInvalid e)]. split; [reflexivity|]. repeat constructor. discriminate.
      * exists []. now rewrite app_nil_r.
    + destruct (l_ids g); [discriminate|]. injection H as <-. lsimp. eexists. split; [reflexivity|]. repeat constructor. discriminate.
  - destruct (pick i (l_send g)) as [[n rest]|]; [|discriminate]. destruct (give_up i (l_sys g)); [|discriminate]. injection H as <-. lsimp. eexists. split; [reflexivity|]. repeat constructor. discriminate.
  - destruct (pick i (l_need g)) as [[[n k] rest]|]; [|discriminate]. injection H as <-. lsimp. eexists. split; [reflexivity|]. repeat constructor. discriminate.
  - destruct (pick i (l_send g)) as [[n rest]|]; [|discriminate]. destruct (give_up i (l_sys g)); [|discriminate]. injection H as <-. lsimp. eexists. split; [reflexivity|]. repeat constructor. discriminate.
  - destruct (l_need g); [|discriminate]. destruct (drop_clients _); [|discriminate]. injection H as <-. exists []. now rewrite app_nil_r.
Qed.
Lemma no_ok c : forall ys g g', gone g -> lexec c ys g = Some g' -> gone g' /\ exists new, l_ends g' = l_ends g ++ new /\ Forall (fun e => snd e <> CrOk) new.
Proof.
  induction ys as [|y ys IH]; intros g g' HG H; cbn [lexec] in H.
  - injection H as <-. split; [assumption|]. exists []. now rewrite app_nil_r.
  - destruct (lstep c y g) as [g1|] eqn:E; [|discriminate]. destruct (lstep_sim _ _ _ _ E) as (es & _ & F). destruct HG as [G1 G2]. destruct (F G1) as (_ & A & B).
    destruct (no_ok_step _ _ _ _ G2 E) as (n1 & E1 & F1). destruct (IH _ _ (conj A (B G2)) H) as (HG' & n2 & E2 & F2). split; [assumption|].
    exists (n1 ++ n2). rewrite E2, E1, app_assoc. split; [reflexivity|apply Forall_app; now split].
Qed.
Lemma shutdown_returns c xs g ys g' : config_ok c -> lexec c xs (linit c) = Some g -> gone g -> Forall goes_on ys -> lexec c ys g = Some g' ->
  (length ys <= 2 * length (l_need g) + length (l_send g))%nat /\
  (all_wait c g' -> unreturned g' = [] /\ Permutation (map fst (l_ends g')) (call_numbers g')).
Proof.
  intros HC H HG HF H'. split; [eapply goes_bounded; eauto|]. intros HA.
  assert (HR : lreach c g') by (exists (xs ++ ys); now rewrite (lexec_app _ _ _ _ _ H)).
  destruct (no_ok _ _ _ _ HG H') as [HG' _]. destruct (never_blocks _ _ HC HR HG') as [NB NS].
  assert (l_need g' = []) as E1. { destruct (l_need g') eqn:E; [reflexivity|]. destruct (NB 0%nat) as (g2 & E2); [cbn; lia|]. rewrite (HA (LBegin 0) I) in E2. discriminate. }
  assert (l_send g' = []) as E2. { destruct (l_send g') eqn:E; [reflexivity|]. destruct (NS 0%nat) as (g2 & E2); [cbn; lia|]. rewrite (HA (LSend 0) I) in E2. discriminate. }
  destruct (linv_reach _ _ HC HR) as (_ & _ & P & _). unfold unreturned in *. rewrite E1, E2 in *. split; [reflexivity|exact P].
Qed.
Lemma returned_once c g : config_ok c -> lreach c g -> NoDup (map fst (l_ends g)).
Proof.
  intros HC HR. destruct (linv_reach _ _ HC HR) as (_ & _ & P & _). assert (ND : NoDup (call_numbers g)).
  { unfold call_numbers. apply FinFun.Injective_map_NoDup; [intros x y; lia|apply seq_NoDup]. }
  apply Permutation_sym in P. apply (Permutation_NoDup P) in ND. revert ND. generalize (unreturned g). induction l as [|a l IH]; intros HN; [exact HN|]. inversion HN; subst. now apply IH.
Qed.
(* ---- which calls fail validation ---- *)
Definition of_call (c : config) (ks : list call) (g : lsys) : Prop :=
  l_next g = len ks /\ (forall n k, In (n, k) (l_need g) -> nth_error ks (N.to_nat n) = Some k) /\
  (forall n e, In (n, CrInvalid e) (l_ends g) -> exists k id, nth_error ks (N.to_nat n) = Some k /\ validate (max_packet (cf_opts c)) (build k id) = Some e).
Lemma of_call_step c x g g' ks : of_call c ks g -> lstep c x g = Some g' -> of_call c (ks ++ calls_of [x]) g'.
Proof.
  intros (A & B & C) H. destruct x; cbn [lstep calls_of flat_map app] in *; rewrite ?app_nil_r.
  - destruct (by_network e && l_ids g && l_req g).
    + destruct (step _ _ _); [|discriminate]. injection H as <-. now repeat split.
    + destruct e; try discriminate. injection H as <-. now repeat split.
  - destruct (l_ids g); [|discriminate]. injection H as <-. now repeat split.
  - destruct (_ && _); [|discriminate]. injection H as <-. now repeat split.
  - destruct (pl_open _); [|discriminate]. injection H as <-. unfold of_call. lsimp. rewrite len_app. change (len [k]) with 1. split; [lia|]. split.
    + intros n k0. rewrite in_app_iff. intros [HI|[HI|[]]].
      * rewrite nth_error_app1; [now apply B|]. apply nth_error_Some. rewrite (B _ _ HI). discriminate.
      * injection HI as <- <-. rewrite nth_error_app2 by (unfold len in A; lia). replace (_ - _)%nat with 0%nat by (unfold len in A; lia). reflexivity.
    + intros n e HI. destruct (C _ _ HI) as (k0 & id & E & V). exists k0, id. split; [|assumption]. rewrite nth_error_app1; [assumption|]. apply nth_error_Some. congruence.
  - destruct (pick i (l_need g)) as [[[n k] rest]|] eqn:EP; [|discriminate]. apply pick_perm in EP as [EP _].
    assert (B' : forall n k, In (n, k) rest -> nth_error ks (N.to_nat n) = Some k) by (intros n0 k0 HI; apply B; rewrite EP; now right).
    assert (B0 : nth_error ks (N.to_nat n) = Some k) by (apply B; rewrite EP; now left).
    destruct (client_call _ _ _) as [[p' r]|] eqn:EC.
    + destruct (begin_call c k (l_sys g)); [|discriminate]. destruct r as [[pk e]|?]; injection H as <-; unfold of_call; lsimp; (split; [assumption|split; [assumption|]]); [|assumption].
      intros n0 e0. rewrite in_app_iff. intros [HI|[HI|[]]]; [now apply C|]. injection HI as <- <-. exists k.
      unfold client_call in EC. destruct (needs_id k).
      * destruct (pl_ids _) as [|id ids]; [discriminate|]. exists id. split; [assumption|]. destruct (validate _ (build k id)); [now injection EC as _ _ <-|discriminate].
      * exists 0. split; [assumption|]. destruct (validate _ (build k 0)); [now injection EC as _ _ <-|discriminate].
    + destruct (l_ids g); [discriminate|]. injection H as <-. unfold of_call. lsimp. split; [assumption|split; [assumption|]]. intros n0 e0. rewrite in_app_iff. intros [HI|[HI|[]]]; [now apply C|discriminate].
  - destruct (pick i (l_send g)) as [[n rest]|]; [|discriminate]. destruct (l_req g).
    + destruct (send_call i (l_sys g)); [|discriminate]. injection H as <-. unfold of_call. lsimp. split; [assumption|split; [assumption|]]. intros n0 e0. rewrite in_app_iff. intros [HI|[HI|[]]]; [now apply C|discriminate].
    + destruct (give_up i (l_sys g)); [|discriminate]. injection H as <-. unfold of_call. lsimp. split; [assumption|split; [assumption|]]. intros n0 e0. rewrite in_app_iff. intros [HI|[HI|[]]]; [now apply C|discriminate].
  - destruct (pick i (l_need g)) as [[[n k] rest]|] eqn:EP; [|discriminate]. apply pick_perm in EP as [EP _]. injection H as <-. unfold of_call. lsimp. split; [assumption|]. split.
    + intros n0 k0 HI. apply B. rewrite EP. now right.
    + intros n0 e0. rewrite in_app_iff. intros [HI|[HI|[]]]; [now apply C|discriminate].
  - destruct (pick i (l_send g)) as [[n rest]|]; [|discriminate]. destruct (give_up i (l_sys g)); [|discriminate]. injection H as <-. unfold of_call. lsimp. split; [assumption|split; [assumption|]]. intros n0 e0. rewrite in_app_iff. intros [HI|[HI|[]]]; [now apply C|discriminate].
  - destruct (l_need g); [|discriminate]. destruct (drop_clients _); [|discriminate]. injection H as <-. now repeat split.
Qed.
Lemma of_call_exec c : forall xs ks g g', of_call c ks g -> lexec c xs g = Some g' -> of_call c (ks ++ calls_of xs) g'.
Proof.
  induction xs as [|x xs IH]; intros ks g g' HO H; cbn [lexec] in H.
  - injection H as <-. cbn. now rewrite app_nil_r.
  - destruct (lstep c x g) as [g1|] eqn:E; [|discriminate]. pose proof (IH _ _ _ (of_call_step _ _ _ _ _ HO E) H) as X. rewrite <- app_assoc in X.
    replace (calls_of (x :: xs)) with (calls_of [x] ++ calls_of xs); [exact X|]. unfold calls_of. cbn [flat_map]. now rewrite app_nil_r.
Qed.
Lemma shutdown_invalid c xs g n e : lexec c xs (linit c) = Some g -> In (n, CrInvalid e) (l_ends g) ->
  exists k id, nth_error (calls_of xs) (N.to_nat n) = Some k /\ validate (max_packet (cf_opts c)) (build k id) = Some e.
Proof.
  intros H HI. destruct (of_call_exec c xs [] (linit c) g) as (_ & _ & C); [|assumption|now apply C]. split; [reflexivity|]. split; intros ? ? [].
Qed.
