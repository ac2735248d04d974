(* Proof of C60. *)
From Coq Require Import Permutation.
From Verif Require Import Base VarInt Prims Props Codes Packets BaseFacts SpecCodec SpecOptions Options Session Client System SpecSession SpecNet SpecTrace SpecOut SpecEnd.
From Verif Require Import SessionFacts SystemFacts AckFacts IdFacts Cases NetFacts NetMore TraceFacts LoopMore OutFacts OutMore Wire WireFacts.


Lemma net_all m : forallb (fun o => negb (by_client o)) m = true -> net_of m = m.
Proof. induction m as [|o m IH]; [reflexivity|]. cbn [forallb]. intros H. apply andb_prop in H as [A B]. unfold net_of in *. cbn [filter]. now rewrite A, (IH B). Qed.
Lemma net_none m : forallb by_client m = true -> net_of m = [].
Proof. induction m as [|o m IH]; [reflexivity|]. cbn [forallb]. intros H. apply andb_prop in H as [A B]. unfold net_of in *. cbn [filter]. now rewrite A, (IH B). Qed.
Lemma ends_app l m : forallb (fun o => negb (by_client o)) m = true -> ends (l ++ m) m.
Proof. intros H. exists (net_of l). now rewrite net_app, (net_all _ H). Qed.
Lemma ends_more l e m : ends l e -> forallb (fun o => negb (by_client o)) m = true -> ends (l ++ m) (e ++ m).
Proof. intros [t E] H. exists t. now rewrite net_app, E, (net_all _ H), app_assoc. Qed.
Lemma ends_client l e m : ends l e -> forallb by_client m = true -> ends (l ++ m) e.
Proof. intros [t E] H. exists t. now rewrite net_app, E, (net_none _ H), app_nil_r. Qed.

(* where the system is, in the words of the specification *)
Lemma at_select c s t : config_ok c -> reachable c s -> y_pc s = PSelect t -> looping c (trace s).
Proof. intros HC HR EP. destruct (conforms c s HC HR) as [q HQ]. exists q. pose proof (k_todo _ _ _ HQ) as HT. rewrite EP in HT. split; [apply (k_run _ _ _ HQ)|exact HT]. Qed.
Lemma at_idle c s : config_ok c -> reachable c s -> y_pc s = PIdle -> nt_connected (y_net s) = false -> unconnected c (trace s).
Proof.
  intros HC HR EP EN. destruct (conforms c s HC HR) as [q HQ]. exists q. pose proof (k_todo _ _ _ HQ) as HT. rewrite EP in HT. destruct HT as [H1 H2].
  split; [apply (k_run _ _ _ HQ)|]. split; [exact H1|]. split; [exact H2|]. now rewrite (k_open _ _ _ HQ).
Qed.
Lemma clients_step clean g o : lg_clients (ledger_step clean g o) = match o with ODropClients => false | _ => lg_clients g end.
Proof.
  destruct g as [op se re lo cl ex er]. destruct o; try reflexivity; cbn [ledger_step].
  - now destruct (is_some _).
  - destruct p; try reflexivity. destruct (ca_rc c); try reflexivity. now destruct (_ && _).
  - now destruct p.
  - now destruct o.
  - now destruct o.
Qed.
Lemma dropped clean l : lg_clients (ledger_of clean l) = false -> In ODropClients l.
Proof.
  induction l as [|o l IH] using rev_ind; [discriminate|]. rewrite ledger_of_snoc, clients_step. intros H. apply in_or_app.
  destruct o; try (left; exact (IH H)). right. now left.
Qed.

(* the newest observations contain the one in question, or they come later *)
Lemma newest {A} (l m l1 : list A) x l2 : l ++ m = l1 ++ x :: l2 -> (exists l3, l = l1 ++ x :: l3) \/ exists m1 m2, m = m1 ++ x :: m2 /\ l1 = l ++ m1.
Proof.
  revert l1. induction l as [|a l IH]; intros l1 H; [right; exists l1, l2; auto|]. destruct l1 as [|b l1]; cbn in H; injection H as -> H.
  - left. now exists l.
  - destruct (IH _ H) as [(l3 & ->)|(m1 & m2 & -> & ->)]; [left; now exists l3|right; eauto].
Qed.
Lemma in_one {A} (a x : A) m1 m2 : [a] = m1 ++ x :: m2 -> m1 = [] /\ x = a.
Proof. destruct m1 as [|b [|]]; intros H; [|discriminate H|discriminate H]. injection H as -> _. auto. Qed.
Lemma last_one {A} (P : A -> Prop) l a x m1 m2 : Forall P l -> ~ P x -> l ++ [a] = m1 ++ x :: m2 -> m1 = l /\ x = a.
Proof.
  intros HF HN H. destruct (newest _ _ _ _ _ H) as [(l3 & ->)|(k1 & k2 & E & ->)].
  - apply Forall_app in HF as [_ HF]. now elim HN; inversion HF.
  - apply in_one in E as [-> ->]. now rewrite app_nil_r.
Qed.
Definition no_end (o : out) : Prop := match o with ORunEnd _ | OConnectEnd _ => False | _ => True end.
Lemma tokio_no_end o ps oks : Forall no_end (tokio_writes o ps oks).
Proof. revert oks. induction ps as [|p ps IH]; intros oks; cbn [tokio_writes]; [constructor|]. destruct oks as [|b oks]; destruct (write_result _ _ _); constructor; auto; exact I. Qed.
Lemma smol_no_end o ps ok : Forall no_end (smol_writes o ps ok).
Proof. unfold smol_writes. apply Forall_forall. intros x Hx. apply in_map_iff in Hx as (p & <- & _). now destruct (smol_write_all _ _). Qed.

Lemma write_kind rt p ok e : write_result rt p ok = Some e -> e = Io \/ exists x, e = SerializationError x /\ ser_err rt p = Some x.
Proof. unfold write_result. destruct (ser_err rt p); [intros [= <-]; eauto|]. destruct ok; [discriminate|]. intros [= <-]. auto. Qed.
Lemma smol_kind ps ok e : smol_write_all ps ok = Some e -> (exists x p, e = SerializationError x /\ In p ps /\ ser_err Smol p = Some x) \/ e = Io.
Proof.
  unfold smol_write_all. destruct (find _ ps) as [q|] eqn:E.
  - destruct (ser_err Smol q) as [x|] eqn:EQ; [|discriminate]. intros [= <-]. left. exists x, q. apply find_some in E as [E _]. auto.
  - destruct ok; [discriminate|]. intros [= <-]. auto.
Qed.
Lemma smol_failed o ps ok e : smol_write_all ps ok = Some e -> smol_writes o ps ok = map (OWriteFail o) ps.
Proof. unfold smol_writes. now intros ->. Qed.
Definition ended (c : config) (l : list out) : Prop :=
  (forall l1 r l2, l = l1 ++ ORunEnd r :: l2 -> run_cause c l1 r) /\
  (forall l1 e l2, l = l1 ++ OConnectEnd (Some e) :: l2 -> connect_cause c l1 e).
Lemma ended_more c l m : ended c l -> (forall m1 r m2, m = m1 ++ ORunEnd r :: m2 -> run_cause c (l ++ m1) r) -> (forall m1 e m2, m = m1 ++ OConnectEnd (Some e) :: m2 -> connect_cause c (l ++ m1) e) ->
  ended c (l ++ m).
Proof.
  intros [H1 H2] HA HB. split.
  - intros l1 r l2 E. destruct (newest _ _ _ _ _ E) as [(l3 & ->)|(m1 & m2 & -> & ->)]; [now apply (H1 l1 r l3)|now apply (HA m1 r m2)].
  - intros l1 e l2 E. destruct (newest _ _ _ _ _ E) as [(l3 & ->)|(m1 & m2 & -> & ->)]; [now apply (H2 l1 e l3)|now apply (HB m1 e m2)].
Qed.
Lemma ended_quiet c l m : ended c l -> Forall no_end m -> ended c (l ++ m).
Proof.
  intros HE HF. apply ended_more; [exact HE| |]; intros m1 x m2 ->; apply Forall_app in HF as [_ HF]; now inversion HF.
Qed.
Lemma ended_run c l m r : ended c l -> Forall no_end m -> run_cause c (l ++ m) r -> ended c (l ++ m ++ [ORunEnd r]).
Proof.
  intros HE HF HR. apply ended_more; [exact HE| |]; intros m1 x m2 E; apply (last_one no_end) in E as [-> E]; auto; [now injection E as ->|discriminate E].
Qed.
Lemma ended_connect c l m x : ended c l -> Forall no_end m -> (forall e, x = Some e -> connect_cause c (l ++ m) e) -> ended c (l ++ m ++ [OConnectEnd x]).
Proof.
  intros HE HF HR. apply ended_more; [exact HE| |]; intros m1 y m2 E; apply (last_one no_end) in E as [-> E]; auto; [discriminate E|]. injection E as <-. now apply HR.
Qed.
Lemma ended_run1 c l r : ended c l -> run_cause c l r -> ended c (l ++ [ORunEnd r]).
Proof. intros HE HR. apply (ended_run c l [] r); [exact HE|constructor|now rewrite app_nil_r]. Qed.
Lemma ended_run2 c l o r : ended c l -> no_end o -> run_cause c (l ++ [o]) r -> ended c (l ++ [o; ORunEnd r]).
Proof. intros HE HO HR. apply (ended_run c l [o] r); [exact HE|now constructor|exact HR]. Qed.
Lemma ended_connect1 c l x : ended c l -> (forall e, x = Some e -> connect_cause c l e) -> ended c (l ++ [OConnectEnd x]).
Proof. intros HE HR. apply (ended_connect c l [] x); [exact HE|constructor|now rewrite app_nil_r]. Qed.
Lemma ended_connect2 c l o x : ended c l -> no_end o -> (forall e, x = Some e -> connect_cause c (l ++ [o]) e) -> ended c (l ++ [o; OConnectEnd x]).
Proof. intros HE HO HR. apply (ended_connect c l [o] x); [exact HE|now constructor|exact HR]. Qed.

Lemma write_cause c l o p ok e : write_result (cf_rt c) p ok = Some e -> run_cause c (l ++ [OWriteFail o p]) (inr e).
Proof.
  intros H. assert (ends (l ++ [OWriteFail o p]) [OWriteFail o p]) by now apply ends_app. apply write_kind in H as [->|(x & -> & HX)]; cbn; [right; eauto|]. split; [eauto|].
  exists o, p. split; [apply in_or_app; right; now left|exact HX].
Qed.
Lemma read_refused c s p e q : config_ok c -> reachable c s -> looping c (trace s) -> nrun c (trace s ++ [ORead p; ORunEnd (inr (HandlerErr e))]) q ->
  run_cause c (trace s ++ [ORead p]) (inr (HandlerErr e)).
Proof.
  intros HC HR HL HN. cbn [run_cause]. exists (trace s), p. split; [reflexivity|]. split; [exact HL|].
  apply nrun_split in HN as (q0 & q1 & H0 & H1 & H2). inversion H2 as [|? ? q2 ? ? HS _]; subst.
  pose proof (read_step _ _ _ _ H1) as HT. rewrite (nrun_led _ _ _ H0), (nrun_in _ _ _ H0) in HT. fold (cleans c). rewrite <- HT.
  assert (n_todo q1 <> [] /\ n_todo q1 <> [IFail]) as [HX HY].
  { rewrite HT. destruct p; cbn [on_read]; unfold on_ack; repeat match goal with |- context [match ?x with _ => _ end] => destruct x end; split; discriminate. }
  inversion HS as [HB|b f its inn HB HA]; subst; [discriminate HB|]. inversion HA; congruence.
Qed.

Definition tail_of (q : pc) (l : list out) : Prop :=
  match q with
  | PHandle AfterDisconnect => exists d, ends l [ORead (PDisconnect d); OHandle (PDisconnect d)]
  | PConnRead => exists x, ends l [OWrite FromConnect (PConnect x)]
  | PConnResend _ => ends l [OHandled]
  | _ => True
  end.
Lemma tail_client q l m : tail_of q l -> forallb by_client m = true -> tail_of q (l ++ m).
Proof.
  intros H HM. destruct q as [| | | | | |[]| | | | | |]; cbn in *; try exact I.
  - destruct H as [x H]. exists x. now apply ends_client.
  - now apply ends_client.
  - destruct H as [x H]. exists x. now apply ends_client.
Qed.
Definition attempts (x : origin) (o : out) : Prop := exists p, attempt x p o.
Lemma tokio_attempts x ps oks : Forall (attempts x) (tokio_writes x ps oks).
Proof. revert oks. induction ps as [|p ps IH]; intros oks; cbn [tokio_writes]; [constructor|]. unfold attempts, attempt. destruct oks as [|b oks]; destruct (write_result _ _ _); constructor; eauto. Qed.
Lemma smol_attempts x ps ok : Forall (attempts x) (smol_writes x ps ok).
Proof. unfold smol_writes. apply Forall_forall. intros o Ho. apply in_map_iff in Ho as (p & <- & _). exists p. unfold attempt. destruct (smol_write_all _ _); auto. Qed.
Lemma last_attempt x l m : Forall (attempts x) m -> m = [] \/ exists p o, attempt x p o /\ ends (l ++ m) [o].
Proof.
  intros H. destruct m as [|a m] using rev_ind; [auto|]. right. apply Forall_app in H as [_ H]. apply Forall_inv in H as [p H]. exists p, a. split; [exact H|].
  rewrite app_assoc. apply ends_app. destruct H; subst a; reflexivity.
Qed.
Lemma resend_io c l m : ends l [OHandled] -> Forall (attempts FromResend) m -> connect_cause c (l ++ m) Io.
Proof.
  intros HL H. destruct (last_attempt _ l _ H) as [->|(p & o & H1 & H2)]; cbn.
  - exists OHandled. rewrite app_nil_r. auto.
  - exists o. split; [exact H2|]. destruct H1; subst o; exact I.
Qed.
Lemma last_fail x l ps ok e : smol_write_all ps ok = Some e -> ps <> [] -> exists p, ends (l ++ smol_writes x ps ok) [OWriteFail x p].
Proof.
  intros H HN. rewrite (smol_failed _ _ _ _ H). destruct (exists_last HN) as (m0 & p & ->). exists p. rewrite map_app, app_assoc. now apply ends_app.
Qed.
Lemma group_fails c x l ps ok e : smol_write_all ps ok = Some e -> cf_rt c = Smol -> (exists y p, e = SerializationError y /\ In p ps /\ ser_err Smol p = Some y) ->
  run_cause c (l ++ smol_writes x ps ok) (inr e) /\ connect_cause c (l ++ smol_writes x ps ok) e.
Proof.
  intros H ER (y & p & -> & HI & HY). enough (not_written (cf_rt c) (l ++ smol_writes x ps ok) y) by auto. rewrite ER. split.
  - destruct (last_fail x l _ _ _ H) as [q Hq]; [now intros ->|eauto].
  - exists x, p. split; [|exact HY]. apply in_or_app. right. rewrite (smol_failed _ _ _ _ H). now apply in_map.
Qed.
Ltac quiet HN := apply ended_quiet; [exact HN|repeat apply Forall_cons; try apply Forall_nil; exact I].
Lemma why_ends c : config_ok c -> forall es s, Forall real es -> exec c es (init c) = Some s -> tail_of (y_pc s) (trace s) /\ ended c (trace s).
Proof.
  intros HC es. induction es as [|e es IH] using rev_ind; intros s HF H.
  - cbn in H. injection H as <-. split; [exact I|]. split; intros [|] ? ? X; discriminate X.
  - rewrite exec_app in H. destruct (exec c es (init c)) as [t|] eqn:E; [|discriminate]. cbn in H.
    destruct (step c e t) as [t'|] eqn:ES; [|discriminate]. injection H as <-. apply Forall_app in HF as [HF HE]. apply Forall_inv in HE.
    destruct (IH t HF eq_refl) as [HT HN]. assert (reachable c t) as HR by now exists es. pose proof (reachable_step _ _ _ _ HR ES) as HR'.
    destruct (step_cases _ _ _ _ (reachable_buf _ _ HR) ES) as (l & st & w & ch & n & q & k & TC & ->). clear E IH ES HF es.
    rewrite next_trace. cbn [y_pc next].
    inversion TC; subst; clear TC; cbn [real] in HE.
    all: try (split; [apply tail_client; [exact HT|reflexivity]|quiet HN]).
    all: try (split; [exact I|quiet HN]).
    all: match goal with H : y_pc _ = _ |- _ => rewrite H in HT; cbn in HT | _ => idtac end.
    all: try match goal with H : y_pc _ = PReply _ |- _ => pose proof (tokio_pc _ _ _ HR H) as ER end.
    all: try match goal with H : y_pc _ = PFlush _ |- _ => pose proof (smol_pc _ _ _ HR H) as ER end.
    all: try match goal with ER : cf_rt _ = Tokio, H : write_result Tokio _ _ = _ |- _ => rewrite <- ER in H end.
    all: try (split; [exact I|]; match goal with H : write_result _ _ _ = Some _ |- _ => apply ended_run2; [exact HN|exact I|exact (write_cause _ _ _ _ _ _ H)] end).
    + split; [exact I|]. apply ended_run1; [exact HN|]. now apply at_idle.
    + split; [|quiet HN]. eexists. now apply ends_app.
    + split; [exact I|]. apply ended_connect2; [exact HN|exact I|]. intros x [= <-].
      assert (ends (trace t ++ [OWriteFail FromConnect (create_connect (nt_opts (y_net t)))]) [OWriteFail FromConnect (create_connect (nt_opts (y_net t)))]) as HX by now apply ends_app.
      match goal with H : write_result _ _ _ = Some _ |- _ => apply write_kind in H as [->|(z & -> & HZ)] end; cbn; [eauto|]. split; [eauto|].
      eexists _, _. split; [apply in_or_app; right; now left|exact HZ].
    + split; [exact I|]. apply ended_connect1; [exact HN|]. intros x [= <-]. destruct HT as [z HT]. destruct HE as [-> | ->]; cbn; [eexists; split; [exact HT|exact I]|eauto].
    + split; [exact I|]. apply ended_connect2; [exact HN|exact I|]. intros x [= <-].
      assert (ends (trace t ++ [OAnswer p]) [OAnswer p]) as HX by now apply ends_app.
      destruct p; cbn [answer_err] in *; try (match goal with H : Some _ = Some _ |- _ => injection H as <- end; split; [exact HX|discriminate]).
      match goal with H : match ca_rc ?a with _ => _ end = _ |- _ => destruct (ca_rc a) eqn:EA; try discriminate H; injection H as <-; (split; [discriminate|]); exists a; auto end.
    + split; [exact I|]. apply ended_connect2; [exact HN|exact I|]. intros x [= <-]. pose proof (inv_reachable _ _ HC HR) as HI.
      match goal with H : handle_incoming_connack _ _ _ = _ |- _ => pose proof (connack_err _ _ _ _ _ H) as HX; rename H into HK end.
      match goal with H : y_pc t = _ |- _ => pose proof (v_expects _ _ HI) as HV; rename H into HP end.
      split; [|split; [exact HX|]].
      * rewrite HP in HV. pose proof (v_inv _ _ HI) as HJ. rewrite HP in HJ. match goal with H : ca_rc a = RSuccess |- _ => destruct (inv_answer _ _ _ _ _ _ _ HJ H HK) as (_ & _ & HD) end.
        apply in_or_app. left. exact (dropped _ _ HD).
      * exists a. split; [assumption|]. now apply ends_app.
    + split; [|quiet HN]. now apply ends_app.
    + split; [exact I|]. apply ended_connect2; [exact HN|exact I|]. discriminate.
    + split; [exact I|]. apply ended_connect; [exact HN|apply tokio_no_end|]. discriminate.
    + split; [exact I|]. apply ended_connect; [exact HN|apply tokio_no_end|]. intros x [= <-]. apply resend_io; [exact HT|apply tokio_attempts].
    + split; [exact I|]. apply ended_connect; [exact HN|apply smol_no_end|]. discriminate.
    + split; [exact I|]. apply ended_connect; [exact HN|apply smol_no_end|]. intros x [= <-].
      match goal with H : smol_write_all _ _ = Some _ |- _ => destruct (smol_kind _ _ _ H) as [HK| ->]; rename H into HW end; [|apply resend_io; [exact HT|apply smol_attempts]].
      now apply (group_fails c FromResend (trace t) _ _ _ HW).
    + split; [|quiet HN]. destruct p; try discriminate; cbn [loop_packet] in *; match goal with H : Some _ = Some _ |- _ => injection H as <- end; [exact I|]. eexists. now apply ends_app.
    + split; [|quiet HN]. destruct (cf_rt c), reply; exact I.
    + split; [exact I|]. apply ended_run2; [exact HN|exact I|]. destruct (conforms _ _ HC HR') as [q HQ]. pose proof (k_run _ _ _ HQ) as HQ'. rewrite next_trace in HQ'.
      eapply read_refused; [exact HC|exact HR| |exact HQ']. eapply at_select; eassumption.
    + split; [|quiet HN]. destruct (cf_rt c); exact I.
    + split; [exact I|]. apply ended_run1; [exact HN|]. assert (looping c (trace t)) by (eapply at_select; eassumption). destruct HE as [-> | ->]; cbn; auto.
    + split; [exact I|]. apply ended_run1; [exact HN|]. cbn. split; [eapply at_select; eassumption|]. split.
      { pose proof (v_inv _ _ (inv_reachable _ _ HC HR)) as HJ. apply (dropped (cleans c)). fold (ledger_at c t). rewrite <- (i_open _ _ _ _ _ HJ). assumption. }
      destruct (attempted_prefix _ _ HC HR) as (rest & E1 & E2). match goal with H : y_pc t = _, G : y_chan t = _ |- _ => rewrite H, G in E2 end. subst rest. rewrite E1. symmetry. apply app_nil_r.
    + split; [|quiet HN]. destruct (cf_rt c); exact I.
    + split; [exact I|]. destruct HT as [d HT]. apply ended_run2; [exact HN|exact I|]. exists d. exact (ends_more _ _ [OHandled] HT eq_refl).
    + split; [|quiet HN]. destruct (cf_rt c), r; exact I.
    + split; [exact I|]. apply ended_quiet; [exact HN|apply smol_no_end].
    + split; [exact I|]. apply ended_run; [exact HN|apply smol_no_end|].
      match goal with H : smol_write_all ?ps _ = Some _ |- _ => pose proof (smol_kind _ _ _ H) as HK; pose proof (last_fail FromReply (trace t) _ _ _ H) as HL; rename H into HW end.
      destruct HK as [HK| ->]; [now apply (group_fails c FromReply (trace t) _ _ _ HW) in HK|]. destruct ps as [|p0 ps]; [|destruct HL as [p HP]; [discriminate|]; cbn; eauto].
      left. cbn. rewrite app_nil_r. destruct (conforms _ _ HC HR) as [q HQ]. exists q. pose proof (k_todo _ _ _ HQ) as HX. match goal with H : y_pc t = _ |- _ => rewrite H in HX end.
      destruct HX as (X1 & r & _ & X2). split; [apply (k_run _ _ _ HQ)|auto].
    + split; [exact I|]. apply ended_run2; [exact HN|exact I|]. destruct p; try discriminate. eexists. now apply ends_app.
    + split; [exact I|]. exfalso. match goal with H : y_pc t = PRequest _ |- _ => pose proof (pending_request _ _ _ (inv_reachable _ _ HC HR) H) as HJ end.
      match goal with H : handle_outgoing_packet _ _ = _ |- _ => pose proof (inv_request _ _ _ _ _ _ _ HJ H) as HX end. cbn zeta in HX. destruct (bad_request _ _); now destruct HX.
    + split; [exact I|]. apply ended_run2; [exact HN|exact I|]. now apply ends_app.
Qed.

Lemma run_result c es s l1 r l2 : config_ok c -> Forall real es -> exec c es (init c) = Some s -> trace s = l1 ++ ORunEnd r :: l2 -> run_cause c l1 r.
Proof. intros HC HF HX HT. destruct (why_ends c HC es s HF HX) as [_ [H _]]. exact (H _ _ _ HT). Qed.
Lemma connect_result c es s l1 e l2 : config_ok c -> Forall real es -> exec c es (init c) = Some s -> trace s = l1 ++ OConnectEnd (Some e) :: l2 -> connect_cause c l1 e.
Proof. intros HC HF HX HT. destruct (why_ends c HC es s HF HX) as [_ [_ H]]. exact (H _ _ _ HT). Qed.
