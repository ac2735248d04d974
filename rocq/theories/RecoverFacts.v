(* Proofs for C94. *)
From Verif Require Import Base VarInt Prims Props Codes Packets Options Session Client System SpecCodec SpecSession SpecNet SpecTrace SpecOut SpecRecover CodecMore Witness Cases SessionFacts SystemFacts IdFacts IdMore OutFacts OutMore LabelFacts AgreeFacts.
From Verif Require LoopMore.

(* --- the messages in the session can be serialised again --- *)
Lemma okv_pool st st' : st_pub st' = st_pub st -> okv st -> okv st'.
Proof. intros E H. unfold okv. now rewrite E. Qed.
Lemma okv_reach c s : cf_rt c = Smol -> reachable c s -> okv (y_state s).
Proof.
  intros HC HR. pattern s. revert s HR. apply reachable_ind2.
  { unfold okv. cbn. apply Forall_forall. intros x Hx. apply repeat_spec in Hx. now subst. }
  intros s e s' _ IH HS. destruct e; cbn [step] in HS.
  - now injection HS as <-.
  - unfold begin_call in HS. destruct (pl_open _); [|discriminate]. destruct (client_call _ _ _) as [[p' [[q x]|q]]|]; [| |discriminate]; injection HS as <-; exact IH.
  - unfold send_call in HS. destruct (pick _ _) as [[p r]|]; [|discriminate]. destruct (_ <? _); [|discriminate]. injection HS as <-. exact IH.
  - unfold give_up in HS. destruct (pick _ _) as [[p r]|]; [|discriminate]. injection HS as <-. exact IH.
  - unfold drop_clients in HS. destruct (y_wait s); [|discriminate]. injection HS as <-. exact IH.
  - destruct (y_pc s); try discriminate. injection HS as <-. exact IH.
  - destruct (y_pc s); try discriminate. injection HS as <-. unfold start_run. destruct (nt_connected _); exact IH.
  - destruct (y_pc s); try discriminate; injection HS as <-.
    + unfold connect_answer. destruct p; try exact IH. destruct (ca_rc c0) eqn:ER; try exact IH.
      match goal with |- context [handle_incoming_connack ?x ?y ?z] => pose proof (proj1 (connack_fits x y z IH)) as X; destruct (handle_incoming_connack x y z) as [st r] end.
      destruct r; exact X.
    + unfold incoming. destruct p; try exact IH;
      (match goal with |- context [handle_incoming_packet ?x ?z] => pose proof (keepv_incoming x z IH) as X; destruct (handle_incoming_packet x z) as [st r] end;
       destruct r as [[re []]|e|]; try exact X; unfold reply_now; destruct (cf_rt c), re; exact X).
  - destruct (y_pc s); try discriminate. injection HS as <-. destruct (cf_rt c); exact IH.
  - destruct (y_pc s); try discriminate; injection HS as <-; exact IH.
  - destruct (y_pc s); try discriminate. unfold outgoing in HS. destruct (y_chan s); [destruct (pl_open _); [discriminate|]|]; injection HS as <-; exact IH.
  - destruct (y_pc s); try discriminate. unfold timer, tokio_timer, smol_timer in HS.
    destruct (cf_rt c); (destruct (_ <? _); [discriminate|]); destruct (nt_await _); try destruct (nt_perform _); try discriminate; injection HS as <-; exact IH.
  - destruct (y_pc s); try discriminate; injection HS as <-.
    + destruct re; exact IH.
    + unfold handled. destruct a; try exact IH; [destruct (cf_rt c); exact IH|]. unfold reply_now. destruct (cf_rt c), reply; exact IH.
  - destruct (y_pc s); try discriminate; injection HS as <-.
    + destruct (write_result _ _ _); exact IH.
    + unfold reply_written. destruct (write_result _ _ _); exact IH.
    + unfold flushed. destruct (smol_write_all _ _); exact IH.
    + unfold request_written. destruct (write_result _ _ _) eqn:EW; [exact IH|].
      cbn [y_state log]. rewrite HC in EW. apply write_ser in EW.
      assert (okv (fst (handle_outgoing_packet p (y_state s)))) as X.
      { destruct p; try exact IH; try (apply outgoing_fits; [|exact IH]; split; [exact EW|exact I]). }
      destruct (handle_outgoing_packet p (y_state s)) as [st r]. destruct r; try exact X. destruct (type_of p); exact X.
    + unfold ping_written. destruct (write_result _ _ _); exact IH.
    + unfold bye_written. destruct (write_result _ _ _); exact IH.
  - destruct (y_pc s); try discriminate; injection HS as <-. unfold connect_resend. rewrite HC. destruct (smol_write_all _ _); exact IH.
Qed.

(* --- CONNECT --- *)
Lemma connect_ser c o : built c -> (exists b, encodes (create_connect (cf_opts c)) b) -> opts_of c o -> ser_err (cf_rt c) (create_connect o) = None.
Proof.
  intros HB (b & Hb) [k ->]. destruct (connect_lawful c (cf_opts c) HB (opts_same c)) as ([HW _] & N1 & N2). destruct (writers_accept _ b HW N1 Hb) as [A1 A2]. specialize (A2 N2).
  destruct (cf_rt c); unfold ser_err; [transitivity (w_err (awrite_packet (create_connect (cf_opts c)))); [|exact A2]|transitivity (w_err (write_packet (create_connect (cf_opts c)))); [|exact A1]];
  clear; unfold create_connect; cbn [write_packet awrite_packet write_body awrite_body]; unfold write_connect, awrite_connect; rewrite !err_seq; reflexivity.
Qed.

(* --- CONNACK: at the second attempt it is accepted --- *)
Lemma make_all_same l : forall s s' r, make_all_available l s = (s', r) -> st_sub s' = st_sub s /\ st_unsub s' = st_unsub s /\ st_pub s' = st_pub s /\ st_order s' = st_order s /\ st_rel s' = st_rel s.
Proof.
  induction l as [|i l IH]; intros s s' r; cbn [make_all_available]; [intros [= <- _]; auto|]. unfold mbind, make_pkid_available, mark_available.
  destruct (negb _); [intros [= <- _]; auto|]. destruct (_ <=? _); [intros [= <- _]; auto|]. intros H. apply IH in H. exact H.
Qed.
Lemma second_time cl a st st' e : ca_rc a = RSuccess -> handle_incoming_connack cl a st = (st', HErr e) -> exists st'' ps, handle_incoming_connack cl a st' = (st'', HOk (Some ps)).
Proof.
  intros HA. unfold handle_incoming_connack. rewrite HA. unfold mbind, reset, ret. destruct (ca_session_present a && negb cl).
  - destruct (resend (st_pub st) (st_order st)) as [pubs|] eqn:ER; [|discriminate]. destruct (make_all_available _ _) as [t r] eqn:EM. destruct (make_all_same _ _ _ _ EM) as (E1 & E2 & E3 & E4 & _).
    destruct r as [u|x|]; [discriminate| |discriminate]. intros [= <- _]. cbn [st_sub st_unsub st_pub st_order] in *. rewrite E1, E2, E3, E4, ER. cbn. eauto.
  - destruct (make_all_available _ _) as [t r] eqn:EM. destruct (make_all_same _ _ _ _ EM) as (E1 & E2 & _ & E4 & _).
    destruct r as [u|x|]; [discriminate| |discriminate]. intros [= <- _]. cbn [st_sub st_unsub st_pub st_order] in *. rewrite E1, E2, E4. cbn. eauto.
Qed.

(* --- steps --- *)
Definition way (c : config) (a : connack) (s s' : sys) : Prop := exists es, Forall (recovery a) es /\ exec c es s = Some s'.
Lemma way_refl c a s : way c a s s.
Proof. exists []. now split. Qed.
Lemma way_trans c a s t u : way c a s t -> way c a t u -> way c a s u.
Proof. intros (es & F & E) (fs & G & H). exists (es ++ fs). split; [now apply Forall_app|]. now rewrite exec_app, E. Qed.
Lemma way_step c a e s s' : recovery a e -> step c e s = Some s' -> way c a s s'.
Proof. intros H E. exists [e]. split; [now repeat constructor|]. cbn [exec]. now rewrite E. Qed.
Lemma way_reach c a s s' : reachable c s -> way c a s s' -> reachable c s'.
Proof. intros (xs & X) (es & _ & E). exists (xs ++ es). now rewrite exec_app, X. Qed.

Lemma fail_result rt p : exists e, write_result rt p false = Some e.
Proof. unfold write_result. destruct (ser_err rt p); eauto. Qed.
Lemma fail_all ps : exists e, smol_write_all ps false = Some e.
Proof. unfold smol_write_all. destruct (find _ ps) as [p|] eqn:E; [|eauto]. apply find_some in E as [_ E]. destruct (ser_err Smol p); [eauto|discriminate]. Qed.

Lemma stops c a s : y_pc s <> PCrash -> exists s', way c a s s' /\ y_pc s' = PIdle.
Proof.
  intros HN.
  assert (forall t, y_pc t = PIdle -> exists s', way c a t s' /\ y_pc s' = PIdle) as W0 by (intros t E; exists t; split; [apply way_refl|exact E]).
  assert (forall e t t', recovery a e -> step c e t = Some t' -> (exists s', way c a t' s' /\ y_pc s' = PIdle) -> exists s', way c a t s' /\ y_pc s' = PIdle) as W1.
  { intros e t t' HE HS (u & HW & HU). exists u. split; [|exact HU]. eapply way_trans; [eapply way_step; eassumption|exact HW]. }
  assert (forall t k, y_pc t = PSelect k -> exists s', way c a t s' /\ y_pc s' = PIdle) as WS.
  { intros t k E. eapply (W1 (EReadErr Io)); [reflexivity|cbn [step]; rewrite E; reflexivity|]. apply W0. reflexivity. }
  assert (forall t ps, y_pc t = PFlush ps -> exists s', way c a t s' /\ y_pc s' = PIdle) as WF.
  { intros t ps E. eapply (W1 (EWrite false)); [exact I|cbn [step]; rewrite E; reflexivity|]. apply W0. unfold flushed. destruct (fail_all ps) as [e ->]. reflexivity. }
  assert (forall t p, y_pc t = PReply p -> exists s', way c a t s' /\ y_pc s' = PIdle) as WR.
  { intros t p E. eapply (W1 (EWrite false)); [exact I|cbn [step]; rewrite E; reflexivity|]. apply W0. unfold reply_written. destruct (fail_result Tokio p) as [e ->]. reflexivity. }
  assert (forall t ps, y_pc t = PConnResend ps -> exists s', way c a t s' /\ y_pc s' = PIdle) as WC.
  { intros t ps E. eapply (W1 (EWrites [] false)); [exact I|cbn [step]; rewrite E; reflexivity|]. apply W0. unfold connect_resend. destruct (cf_rt c); [reflexivity|]. destruct (fail_all ps) as [e ->]. reflexivity. }
  assert (forall t r, exists s', way c a (reply_now (cf_rt c) r t) s' /\ y_pc s' = PIdle) as WN.
  { intros t r. unfold reply_now. destruct (cf_rt c), r; [eapply WR; reflexivity|eapply WS; reflexivity|eapply WF; reflexivity|eapply WF; reflexivity]. }
  destruct (y_pc s) eqn:E.
  - now apply W0.
  - eapply (W1 (EWrite false)); [exact I|cbn [step]; rewrite E; reflexivity|]. apply W0. destruct (fail_result (cf_rt c) (create_connect (nt_opts (y_net s)))) as [e ->]. reflexivity.
  - eapply (W1 (EReadErr Io)); [reflexivity|cbn [step]; rewrite E; reflexivity|]. apply W0. reflexivity.
  - eapply (W1 EHandled); [exact I|cbn [step]; rewrite E; reflexivity|]. destruct re as [ps|]; [eapply WC; reflexivity|apply W0; reflexivity].
  - eapply WC; exact E.
  - eapply WS; exact E.
  - eapply (W1 EHandled); [exact I|cbn [step]; rewrite E; reflexivity|]. unfold handled. destruct a0; [destruct (cf_rt c); [eapply WS; reflexivity|eapply WF; reflexivity]|apply W0; reflexivity|apply WN].
  - eapply WR; exact E.
  - eapply WF; exact E.
  - eapply (W1 (EWrite false)); [exact I|cbn [step]; rewrite E; reflexivity|]. apply W0. unfold request_written. destruct (fail_result (cf_rt c) p) as [e ->]. reflexivity.
  - eapply (W1 (EWrite false)); [exact I|cbn [step]; rewrite E; reflexivity|]. apply W0. unfold ping_written. destruct (fail_result (cf_rt c) PPingReq) as [e ->]. reflexivity.
  - eapply (W1 (EWrite false)); [exact I|cbn [step]; rewrite E; reflexivity|]. apply W0. unfold bye_written. destruct (fail_result (cf_rt c) bye) as [e ->]. reflexivity.
  - now elim HN.
Qed.

Lemma asks_first c a s : config_ok c -> built c -> (exists b, encodes (create_connect (cf_opts c)) b) -> reachable c s -> y_pc s = PIdle ->
  exists t, way c a s t /\ y_pc t = PConnRead /\ y_state t = y_state s.
Proof.
  intros HC HB HE HR E. pose proof (connect_ser c _ HB HE (proj1 (written_all c s HC HR))) as HS.
  eexists. split; [|split].
  - eapply way_trans; [eapply (way_step c a EConnect); [exact I|cbn [step]; rewrite E; reflexivity]|].
    eapply (way_step c a (EWrite true)); [exact I|]. cbn [step y_pc log set_pc]. unfold write_result. change (y_net (log [OConnect] (set_pc PConnWrite s))) with (y_net s). rewrite HS. reflexivity.
  - reflexivity.
  - reflexivity.
Qed.
Lemma all_fit ps : Forall fits ps -> smol_write_all ps true = None.
Proof.
  intros H. unfold smol_write_all. destruct (find _ ps) as [p|] eqn:E; [|reflexivity]. apply find_some in E as [HI E]. rewrite Forall_forall in H. destruct (H _ HI) as [-> _]. reflexivity.
Qed.
Lemma answered_then c a t : config_ok c -> reachable c t -> y_pc t = PConnRead -> ca_rc a = RSuccess ->
  forall st ps, handle_incoming_connack (op_clean_start (cf_opts c)) a (y_state t) = (st, HOk (Some ps)) -> exists s', way c a t s' /\ at_work s' /\ fresh_start a t s'.
Proof.
  intros HC HR E HA st ps EH.
  pose (t1 := log [OHandle (PConnAck a)] (set_pc (PConnHandle (Some ps)) (set_state st (set_net (apply_connack (cf_rt c) (y_now t) a (y_net t)) (log [OAnswer (PConnAck a)] t))))).
  assert (step c (EPacket (PConnAck a)) t = Some t1) as S1. { cbn [step]. rewrite E. unfold connect_answer. rewrite HA. cbn [y_state log set_net]. rewrite EH. reflexivity. }
  pose (t2 := set_pc (PConnResend ps) (log [OHandled] t1)).
  assert (step c EHandled t1 = Some t2) as S2 by reflexivity.
  assert (exists l1 n, step c (EWrites [] true) t2 = Some (connected (set_net n (log l1 t2)))) as (l1 & n & S3).
  { cbn [step]. change (y_pc t2) with (PConnResend ps). cbv iota. unfold connect_resend. destruct (cf_rt c) eqn:ERT; [eexists _, _; reflexivity|].
    rewrite all_fit; [eexists _, _; reflexivity|].
    pose proof (proj2 (connack_fits (op_clean_start (cf_opts c)) a (y_state t) (okv_reach c t ERT HR)) ps) as X. rewrite EH in X. now apply X. }
  set (t3 := connected (set_net n (log l1 t2))) in *.
  pose (m := match cf_rt c with Tokio => set_await None (y_net t3) | Smol => y_net t3 end).
  assert (step c ERun t3 = Some (again (log [ORun] (set_net m t3)))) as S4 by reflexivity.
  exists (again (log [ORun] (set_net m t3))). split; [|split].
  - eapply way_trans; [exact (way_step c a (EPacket (PConnAck a)) t t1 eq_refl S1)|]. eapply way_trans; [exact (way_step c a EHandled t1 t2 I S2)|]. eapply way_trans; [exact (way_step c a (EWrites [] true) t2 t3 I S3)|].
    exact (way_step c a ERun _ _ I S4).
  - split; [|now eexists]. unfold m. destruct (cf_rt c); reflexivity.
  - exists [], l1.
    assert (trace t1 = (trace t ++ [OAnswer (PConnAck a)]) ++ [OHandle (PConnAck a)]) as T1.
    { unfold t1. rewrite trace_log. f_equal. exact (trace_log [OAnswer (PConnAck a)] t). }
    assert (trace t2 = trace t1 ++ [OHandled]) as T2 by exact (trace_log [OHandled] t1).
    assert (trace t3 = (trace t2 ++ l1) ++ [OConnectEnd None]) as T3.
    { unfold t3, connected, end_connect. rewrite trace_log. f_equal. exact (trace_log l1 t2). }
    transitivity (trace t3 ++ [ORun]); [exact (trace_log [ORun] (set_net m t3))|]. rewrite T3, T2, T1, <- !app_assoc. reflexivity.
Qed.
Lemma fresh_more a s t u : (exists l, trace t = trace s ++ l) -> fresh_start a t u -> fresh_start a s u.
Proof. intros (l & E) (l0 & l1 & H). exists (l ++ l0), l1. now rewrite H, E, <- !app_assoc. Qed.
Lemma way_trace c a s t : way c a s t -> exists l, trace t = trace s ++ l.
Proof. intros (es & _ & E). exact (exec_trace _ _ _ _ E). Qed.
Lemma recovery_keeps c a e s s' : recovery a e -> ca_rc a = RSuccess -> step c e s = Some s' -> y_chan s' = y_chan s /\ y_wait s' = y_wait s /\ y_now s' = y_now s.
Proof.
  intros HE HA HS. destruct e; try contradiction HE; cbn [step] in HS.
  - destruct (y_pc s); try discriminate. injection HS as <-. auto.
  - destruct (y_pc s); try discriminate. injection HS as <-. unfold start_run. destruct (nt_connected _); auto.
  - cbn [recovery] in HE. subst p. destruct (y_pc s); try discriminate; injection HS as <-.
    + unfold connect_answer. rewrite HA. destruct (handle_incoming_connack _ _ _) as [st r]. destruct r; auto.
    + cbn. auto.
  - destruct (y_pc s); try discriminate; injection HS as <-; auto.
  - destruct (y_pc s); try discriminate; injection HS as <-.
    + destruct re; auto.
    + unfold handled. destruct a0; [destruct (cf_rt c); auto|auto|]. unfold reply_now. destruct (cf_rt c), reply; auto.
  - destruct (y_pc s); try discriminate; injection HS as <-.
    + destruct (write_result _ _ _); auto.
    + unfold reply_written. destruct (write_result _ _ _); auto.
    + unfold flushed. destruct (smol_write_all _ _); auto.
    + unfold request_written. destruct (write_result _ _ _); [auto|]. destruct (handle_outgoing_packet _ _) as [st r]. destruct r; auto. destruct (type_of p); auto.
    + unfold ping_written. destruct (write_result _ _ _); auto.
    + unfold bye_written. destruct (write_result _ _ _); auto.
  - destruct (y_pc s); try discriminate; injection HS as <-. unfold connect_resend. destruct (cf_rt c); [destruct ok; auto|]. destruct (smol_write_all _ _); auto.
Qed.
Lemma way_keeps c a s s' : ca_rc a = RSuccess -> way c a s s' -> y_chan s' = y_chan s /\ y_wait s' = y_wait s /\ y_now s' = y_now s.
Proof.
  intros HA (es & F & E). revert s E. induction F as [|e es HE F IH]; intros s; cbn [exec]; [intros [= <-]; auto|].
  destruct (step c e s) as [t|] eqn:ES; [|discriminate]. intros E. destruct (recovery_keeps _ _ _ _ _ HE HA ES) as (K1 & K2 & K3), (IH _ E) as (J1 & J2 & J3). rewrite <- K1, <- K2, <- K3. auto.
Qed.

Lemma recovers c s a : config_ok c -> built c -> (exists b, encodes (create_connect (cf_opts c)) b) -> reachable c s -> y_pc s <> PCrash -> ca_rc a = RSuccess ->
  exists es s', Forall (recovery a) es /\ exec c es s = Some s' /\ at_work s' /\ fresh_start a s s' /\ y_chan s' = y_chan s /\ y_wait s' = y_wait s /\ y_now s' = y_now s.
Proof.
  intros HC HB HE HR HN HA. destruct (stops c a s HN) as (t & W1 & E1). pose proof (way_reach _ _ _ _ HR W1) as R1.
  destruct (asks_first c a t HC HB HE R1 E1) as (u & W2 & E2 & _). pose proof (way_reach _ _ _ _ R1 W2) as R2.
  assert (exists s', way c a u s' /\ at_work s' /\ fresh_start a u s') as (s' & W3 & HW & HF).
  { pose proof (connack_never_panics c u a HC R2 E2) as HP. destruct (handle_incoming_connack (op_clean_start (cf_opts c)) a (y_state u)) as [st r] eqn:EH.
    destruct r as [[ps|]|e|].
    - exact (answered_then c a u HC R2 E2 HA _ _ EH).
    - exfalso. unfold handle_incoming_connack in EH. rewrite HA in EH. unfold mbind, ret in EH. destruct (reset _ _) as [x [[ids re]|e|]]; try discriminate. destruct (make_all_available _ _) as [y [z|e|]]; discriminate.
    - pose (v := end_connect (Some (HandlerErr e)) (set_state st (set_net (apply_connack (cf_rt c) (y_now u) a (y_net u)) (log [OAnswer (PConnAck a)] u)))).
      assert (step c (EPacket (PConnAck a)) u = Some v) as S1. { cbn [step]. rewrite E2. unfold connect_answer. rewrite HA. cbn [y_state log set_net]. rewrite EH. reflexivity. }
      pose proof (way_step c a (EPacket (PConnAck a)) _ _ eq_refl S1) as W3. pose proof (way_reach _ _ _ _ R2 W3) as R3.
      destruct (asks_first c a v HC HB HE R3 eq_refl) as (w & W4 & E4 & E5). pose proof (way_reach _ _ _ _ R3 W4) as R4.
      destruct (second_time _ _ _ _ _ HA EH) as (st2 & ps & EH2).
      assert (handle_incoming_connack (op_clean_start (cf_opts c)) a (y_state w) = (st2, HOk (Some ps))) as EH3 by (rewrite E5; exact EH2).
      destruct (answered_then c a w HC R4 E4 HA _ _ EH3) as (s' & W5 & X & Y).
      pose proof (way_trans _ _ _ _ _ W3 W4) as W6. exists s'. split; [exact (way_trans _ _ _ _ _ W6 W5)|]. split; [exact X|]. exact (fresh_more _ _ _ _ (way_trace _ _ _ _ W6) Y).
    - now elim HP. }
  pose proof (way_trans _ _ _ _ _ W1 W2) as W12. pose proof (way_trans _ _ _ _ _ W12 W3) as W. destruct (way_keeps _ _ _ _ HA W) as (K1 & K2 & K3).
  destruct W as (es & F & X). exists es, s'. repeat (split; [first [exact F|exact X|exact HW|exact (fresh_more _ _ _ _ (way_trace _ _ _ _ W12) HF)|assumption]|]). exact K3.
Qed.

(* --- a client can be connected exactly if its CONNECT has an encoding --- *)
Lemma connect_err c o : opts_of c o -> w_err (write_packet (create_connect o)) = w_err (write_packet (create_connect (cf_opts c))) /\ w_err (awrite_packet (create_connect o)) = w_err (awrite_packet (create_connect (cf_opts c))).
Proof.
  intros [k ->]. split; unfold create_connect; cbn [write_packet awrite_packet write_body awrite_body]; unfold write_connect, awrite_connect; rewrite !err_seq; reflexivity.
Qed.
Lemma connectable c : config_ok c -> built c -> ((exists s, reachable c s /\ In (OConnectEnd None) (trace s)) <-> exists b, encodes (create_connect (cf_opts c)) b).
Proof.
  intros HC HB. split.
  - intros (s & HR & HI). apply in_split in HI as (l1 & l2 & E). destruct (LoopMore.opened c s l1 l2 HC HR E) as (l0 & x & m0 & a & m & E1 & E2 & _).
    assert (In (OWrite FromConnect (PConnect x)) (trace s)) as HW.
    { assert (In (OWrite FromConnect (PConnect x)) m0) as HJ by (assert (In (OWrite FromConnect (PConnect x)) (net_of m0)) as X by (rewrite E2; now left); apply filter_In in X; exact (proj1 X)).
      rewrite E, E1. apply in_or_app. left. apply in_or_app. right. right. apply in_or_app. now left. }
    pose proof (proj2 (written_all c s HC HR)) as HF. rewrite Forall_forall in HF. destruct (HF _ HW) as [HS HO]. destruct (HO eq_refl) as (o & HO1 & HO2). rewrite HO2 in HS. destruct (connect_err c o HO1) as [X1 X2].
    destruct (connect_lawful c (cf_opts c) HB (opts_same c)) as ([HWF _] & N1 & N2). destruct (writes_encodings _ HWF N1) as [A1 A2].
    unfold ser_err in HS. destruct (cf_rt c); [exists (w_bytes (awrite_packet (create_connect (cf_opts c)))); apply (A2 N2); now rewrite <- X2|exists (w_bytes (write_packet (create_connect (cf_opts c)))); apply A1; now rewrite <- X1].
  - intros HE. destruct (recovers c (init c) (ConnAck false RSuccess no_props) HC HB HE) as (es & s & _ & X & _ & (l0 & l1 & Y) & _); [exists []; reflexivity|discriminate|reflexivity|].
    exists s. split; [exists es; exact X|]. rewrite Y. apply in_or_app. right. apply in_or_app. right. right. right. right. apply in_or_app. right. now left.
Qed.
