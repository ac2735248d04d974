(* Concrete timed executions for P_Time.v. *)
From Verif Require Import Base VarInt Prims Props Codes Packets Options Session Client System SpecSession SpecNet SpecTrace SpecTime Scenario IdMore LoopCases.

(* a check that an execution is punctual, with handlers and writes that take no time *)
Definition tick_ok (c : config) (s : sys) (d : N) : bool :=
  match y_pc s with
  | PSelect since =>
    match cf_rt c with
    | Tokio => (y_now s + d <=? tokio_deadline (y_net s)) || (negb (is_some (nt_await (y_net s))) && negb (nt_perform (y_net s)))
    | Smol => y_now s + d <=? smol_deadline since (y_net s)
    end
  | PHandle _ | PReply _ | PFlush _ | PRequest _ | PPing | PBye => false
  | _ => true
  end.
Fixpoint pcheck (c : config) (es : list event) (s : sys) : bool :=
  match es with
  | [] => true
  | e :: es' =>
    match e with ETick d => tick_ok c s d | _ => true end &&
    match step c e s with Some s' => pcheck c es' s' | None => false end
  end.
Lemma tick_sound c s d : tick_ok c s d = true -> selecting s = true -> forall d', d' < d -> step c ETimer (set_now (y_now s + d') s) = None.
Proof.
  unfold tick_ok, selecting. intros H HS d' HD. cbn [step set_now y_pc]. destruct (y_pc s); try discriminate HS. unfold timer, tokio_timer, smol_timer. cbn [set_now y_net y_now].
  destruct (cf_rt c).
  - destruct (N.ltb_spec (y_now s + d') (tokio_deadline (y_net s))); [reflexivity|]. apply orb_true_iff in H as [H|H]; [lia|]. apply andb_true_iff in H as [H1 H2].
    destruct (nt_await (y_net s)); [discriminate H1|]. destruct (nt_perform (y_net s)); [discriminate H2|reflexivity].
  - destruct (N.ltb_spec (y_now s + d') (smol_deadline since (y_net s))); [reflexivity|]. lia.
Qed.
Lemma pcheck_sound c es s e : pcheck c es s = true -> punctual c 0 s e -> exists s' e', exec c es s = Some s' /\ punctual c 0 s' e'.
Proof.
  revert s e. induction es as [|x es IH]; intros s e H HP; [exists s, e; split; [reflexivity|exact HP]|].
  cbn [pcheck exec] in *. apply andb_true_iff in H as [H1 H2]. destruct (step c x s) as [s1|] eqn:ES; [|discriminate H2].
  assert (exists e1, punctual c 0 s1 e1) as [e1 HP1].
  { destruct (is_tick x) eqn:ET.
    - destruct x; try discriminate ET. cbn in ES. injection ES as <-. exists e. apply pu_tick; [exact HP| |].
      + intros HS. now apply tick_sound.
      + unfold busy. unfold tick_ok in H1. destruct (y_pc s); try discriminate H1; intros X; discriminate X.
    - destruct (by_clients x) eqn:EB; [exists e; eapply pu_client; eassumption|].
      exists (y_now s1). eapply pu_net; try eassumption. intros _ X. congruence. }
  exact (IH s1 e1 H2 HP1).
Qed.
Lemma punctual_run c es : pcheck c es (init c) = true -> exists e, punctual c 0 (run_to c es) e.
Proof. intros H. destruct (pcheck_sound c es (init c) 0 H (pu_init c 0)) as (s & e & E & HP). unfold run_to. rewrite E. eauto. Qed.
Ltac punct := apply punctual_run; vm_compute; reflexivity.

Definition secs (n : N) : event := ETick (from_secs n).
Definition tc_keep (n : N) : packet :=
  PConnAck (ConnAck false RSuccess (Props None None None None None None None None (Some n) None None None None None None None None None None None None None [] None None None None [])).
Definition tc_open (a : packet) : list event := [EConnect; EWrite true; EPacket a; EHandled; EWrites [] true; ERun].
Definition tc_cfg (rt : runtime) : config := sc rt 10 10 true.

(* the timer is needed: nothing for a minute *)
Lemma tight_case : forall rt, exists s e, config_ok (tc_cfg rt) /\ expressible (tc_cfg rt) /\ punctual (tc_cfg rt) 0 s e /\ short_keep (trace s) /\
  ck_zero (now_clock (tc_cfg rt) s) = false /\ ck_run (now_clock (tc_cfg rt) s) = Some (from_secs 5) /\
  ck_write (now_clock (tc_cfg rt) s) = from_secs 64 /\ y_now s = from_secs 124 /\
  ck_promise (now_clock (tc_cfg rt) s) = from_secs 60 /\ ck_own (now_clock (tc_cfg rt) s) = from_secs 60.
Proof.
  intros rt. set (es := [secs 1; EConnect; EWrite true; secs 3; EPacket (sc_connack false); EHandled; EWrites [] true; secs 1; ERun; secs 59; ETimer; EWrite true; EPacket PPingResp; EHandled] ++
    (match rt with Smol => [EWrite true] | Tokio => [] end) ++ [secs 60]).
  assert (exists e, punctual (tc_cfg rt) 0 (run_to (tc_cfg rt) es) e) as [e HP] by (destruct rt; punct).
  exists (run_to (tc_cfg rt) es), e. split; [destruct rt; cfg|]. split; [exists 60; split; [lia|destruct rt; reflexivity]|]. split; [exact HP|].
  split; [|destruct rt; repeat apply conj; calc].
  intros a k H E. assert (In (OAnswer (PConnAck a)) [OAnswer (sc_connack false)]) as HI.
  { replace [OAnswer (sc_connack false)] with (filter is_answer (trace (run_to (tc_cfg rt) es))) by (destruct rt; calc). apply filter_In. split; [exact H|reflexivity]. }
  destruct HI as [X|[]]. injection X as <-. discriminate E.
Qed.
(* a connection without keep-alive, then one with *)
Lemma never_again : forall rt, exists s e, config_ok (tc_cfg rt) /\ expressible (tc_cfg rt) /\ punctual (tc_cfg rt) 0 s e /\
  ck_run (now_clock (tc_cfg rt) s) = Some 0 /\ ck_write (now_clock (tc_cfg rt) s) = 0 /\
  ck_promise (now_clock (tc_cfg rt) s) = from_secs 10 /\ ck_own (now_clock (tc_cfg rt) s) = from_secs 10 /\ y_now s = from_secs 3000.
Proof.
  intros rt. set (es := tc_open (tc_keep 0) ++ [EReadErr Io] ++ tc_open (tc_keep 10) ++ [secs 3000]).
  assert (exists e, punctual (tc_cfg rt) 0 (run_to (tc_cfg rt) es) e) as [e HP] by (destruct rt; punct).
  exists (run_to (tc_cfg rt) es), e. split; [destruct rt; cfg|]. split; [exists 60; split; [lia|destruct rt; reflexivity]|]. split; [exact HP|].
  destruct rt; repeat apply conj; calc.
Qed.
(* an interval of 65546 s becomes 10 s in CONNECT *)
Definition tc_long (rt : runtime) : config := Config rt (set_keep_alive_interval (from_secs 65546) (sc_opts 10 10 true)).
Lemma too_long : forall rt, exists s e, config_ok (tc_long rt) /\ punctual (tc_long rt) 0 s e /\
  ck_zero (now_clock (tc_long rt) s) = false /\ ck_run (now_clock (tc_long rt) s) = Some 0 /\ ck_write (now_clock (tc_long rt) s) = 0 /\
  ck_promise (now_clock (tc_long rt) s) = from_secs 10 /\ y_now s = from_secs 65546.
Proof.
  intros rt. set (es := tc_open (sc_connack false) ++ [secs 65546]).
  assert (exists e, punctual (tc_long rt) 0 (run_to (tc_long rt) es) e) as [e HP] by (destruct rt; punct).
  exists (run_to (tc_long rt) es), e. split; [destruct rt; cfg|]. split; [exact HP|]. destruct rt; repeat apply conj; calc.
Qed.
(* a handler that does not return for a long time *)
Lemma slow_handler : forall rt d, exists s e, config_ok (tc_cfg rt) /\ punctual (tc_cfg rt) d s e /\
  ck_zero (now_clock (tc_cfg rt) s) = false /\ ck_run (now_clock (tc_cfg rt) s) = Some 0 /\ ck_write (now_clock (tc_cfg rt) s) = 0 /\
  ck_promise (now_clock (tc_cfg rt) s) = from_secs 60 /\ y_now s = d.
Proof.
  intros rt d. set (es := tc_open (sc_connack false) ++ [EPacket (PPublish (lc_pub false AtMostOnce None))]).
  set (s := run_to (tc_cfg rt) es).
  assert (punctual (tc_cfg rt) d s 0) as HP.
  { assert (forall s e x s', punctual (tc_cfg rt) d s e -> by_clients x = false -> is_tick x = false -> step (tc_cfg rt) x s = Some s' ->
      is_some (step (tc_cfg rt) ETimer s) = false -> punctual (tc_cfg rt) d s' (y_now s')) as HN.
    { intros s0 e x s' H1 H2 H3 H4 H5. eapply pu_net; eauto. intros _ _ _. now destruct (step (tc_cfg rt) ETimer s0). }
    pose proof (pu_init (tc_cfg rt) d) as H0.
    assert (forall es0 x, punctual (tc_cfg rt) d (run_to (tc_cfg rt) es0) 0 -> by_clients x = false -> is_tick x = false ->
       step (tc_cfg rt) x (run_to (tc_cfg rt) es0) = Some (run_to (tc_cfg rt) (es0 ++ [x])) -> is_some (step (tc_cfg rt) ETimer (run_to (tc_cfg rt) es0)) = false ->
       y_now (run_to (tc_cfg rt) (es0 ++ [x])) = 0 -> punctual (tc_cfg rt) d (run_to (tc_cfg rt) (es0 ++ [x])) 0) as HS.
    { intros es0 x H1 H2 H3 H4 H5 H6. pose proof (HN _ _ _ _ H1 H2 H3 H4 H5) as Q. rewrite H6 in Q. exact Q. }
    assert (punctual (tc_cfg rt) d (run_to (tc_cfg rt) []) 0) as P0 by exact H0.
    assert (punctual (tc_cfg rt) d (run_to (tc_cfg rt) [EConnect]) 0) as P1 by (apply (HS []); [exact P0|reflexivity|reflexivity|destruct rt; calc..]).
    assert (punctual (tc_cfg rt) d (run_to (tc_cfg rt) [EConnect; EWrite true]) 0) as P2 by (apply (HS [EConnect]); [exact P1|reflexivity|reflexivity|destruct rt; calc..]).
    assert (punctual (tc_cfg rt) d (run_to (tc_cfg rt) [EConnect; EWrite true; EPacket (sc_connack false)]) 0) as P3 by (apply (HS [EConnect; EWrite true]); [exact P2|reflexivity|reflexivity|destruct rt; calc..]).
    assert (punctual (tc_cfg rt) d (run_to (tc_cfg rt) [EConnect; EWrite true; EPacket (sc_connack false); EHandled]) 0) as P4 by (apply (HS [EConnect; EWrite true; EPacket (sc_connack false)]); [exact P3|reflexivity|reflexivity|destruct rt; calc..]).
    assert (punctual (tc_cfg rt) d (run_to (tc_cfg rt) [EConnect; EWrite true; EPacket (sc_connack false); EHandled; EWrites [] true]) 0) as P5 by (apply (HS [EConnect; EWrite true; EPacket (sc_connack false); EHandled]); [exact P4|reflexivity|reflexivity|destruct rt; calc..]).
    assert (punctual (tc_cfg rt) d (run_to (tc_cfg rt) (tc_open (sc_connack false))) 0) as P6 by (apply (HS [EConnect; EWrite true; EPacket (sc_connack false); EHandled; EWrites [] true]); [exact P5|reflexivity|reflexivity|destruct rt; calc..]).
    exact (HS (tc_open (sc_connack false)) (EPacket (PPublish (lc_pub false AtMostOnce None))) P6 eq_refl eq_refl ltac:(destruct rt; calc) ltac:(destruct rt; calc) ltac:(destruct rt; calc)). }
  exists (set_now (y_now s + d) s), 0. split; [destruct rt; cfg|]. split.
  - apply pu_tick; [exact HP|..].
    + intros X. assert (selecting s = false) as Y by (destruct rt; calc). congruence.
    + intros _. assert (y_now s = 0) as -> by (destruct rt; calc). lia.
  - change (now_clock (tc_cfg rt) (set_now (y_now s + d) s)) with (now_clock (tc_cfg rt) s). cbn [set_now y_now].
    assert (y_now s = 0) as -> by (destruct rt; calc). rewrite N.add_0_l. destruct rt; repeat apply conj; calc.
Qed.
(* smol: something arrives every 50 seconds *)
Definition tc_news : list event := [secs 50; EPacket (PPublish (lc_pub false AtMostOnce None)); EHandled; EWrite true].
Lemma news_suffices : exists s e, config_ok (tc_cfg Smol) /\ punctual (tc_cfg Smol) 0 s e /\
  ck_zero (now_clock (tc_cfg Smol) s) = false /\ ck_run (now_clock (tc_cfg Smol) s) = Some 0 /\ ck_write (now_clock (tc_cfg Smol) s) = 0 /\
  ck_promise (now_clock (tc_cfg Smol) s) = from_secs 60 /\ y_now s = from_secs 500.
Proof.
  set (es := tc_open (sc_connack false) ++ concat (repeat tc_news 10)).
  assert (exists e, punctual (tc_cfg Smol) 0 (run_to (tc_cfg Smol) es) e) as [e HP] by punct.
  exists (run_to (tc_cfg Smol) es), e. split; [cfg|]. split; [exact HP|]. repeat apply conj; calc.
Qed.
(* smol: the broker's interval of one connection is used in the next *)
Lemma old_interval : exists s e, config_ok (tc_cfg Smol) /\ punctual (tc_cfg Smol) 0 s e /\
  ck_zero (now_clock (tc_cfg Smol) s) = false /\ ck_run (now_clock (tc_cfg Smol) s) = Some 0 /\ ck_write (now_clock (tc_cfg Smol) s) = 0 /\ ck_read (now_clock (tc_cfg Smol) s) = 0 /\
  ck_promise (now_clock (tc_cfg Smol) s) = from_secs 60 /\ y_now s = from_secs 600.
Proof.
  set (es := tc_open (tc_keep 600) ++ [EReadErr Io] ++ tc_open (sc_connack false) ++ [secs 600]).
  assert (exists e, punctual (tc_cfg Smol) 0 (run_to (tc_cfg Smol) es) e) as [e HP] by punct.
  exists (run_to (tc_cfg Smol) es), e. split; [cfg|]. split; [exact HP|]. repeat apply conj; calc.
Qed.
(* smol: no keep-alive, an hour of silence *)
Lemma hour : exists s l1, config_ok (tc_cfg Smol) /\ reachable (tc_cfg Smol) s /\
  y_log s = l1 ++ [(from_secs 3600, OWrite FromTimer (PDisconnect (Disconnect RKeepAliveTimeout no_props))); (from_secs 3600, ORunEnd (inl KeepAliveTimeout))] /\
  ck_own (clock_of (op_keep_alive (cf_opts (tc_cfg Smol))) l1) = 0 /\ ck_promise (clock_of (op_keep_alive (cf_opts (tc_cfg Smol))) l1) = 0.
Proof.
  set (es := tc_open (tc_keep 0) ++ [secs 3600; ETimer; EWrite true]). set (s := run_to (tc_cfg Smol) es).
  exists s, (rev (skipn 2 (rev (y_log s)))). split; [cfg|]. split; [reach|]. repeat apply conj; calc.
Qed.
(* an unanswered PINGREQ *)
Lemma dead_case : forall rt, exists s e, config_ok (tc_cfg rt) /\ punctual (tc_cfg rt) 0 s e /\ selecting s = true /\
  ck_ping (now_clock (tc_cfg rt) s) = Some (from_secs 60) /\ ck_own (now_clock (tc_cfg rt) s) = from_secs 60 /\ y_now s = from_secs 120.
Proof.
  intros rt. set (es := tc_open (sc_connack false) ++ [secs 60; ETimer; EWrite true; secs 60]).
  assert (exists e, punctual (tc_cfg rt) 0 (run_to (tc_cfg rt) es) e) as [e HP] by (destruct rt; punct).
  exists (run_to (tc_cfg rt) es), e. split; [destruct rt; cfg|]. split; [exact HP|]. destruct rt; repeat apply conj; calc.
Qed.
Lemma bye_case : forall rt, exists s l1 l2, config_ok (tc_cfg rt) /\ reachable (tc_cfg rt) s /\
  y_log s = l1 ++ (from_secs 120, OWrite FromTimer (PDisconnect (Disconnect RKeepAliveTimeout no_props))) :: l2.
Proof.
  intros rt. set (es := tc_open (sc_connack false) ++ [secs 60; ETimer; EWrite true; secs 60; ETimer; EWrite true]). set (s := run_to (tc_cfg rt) es).
  exists s, (rev (skipn 2 (rev (y_log s)))), [(from_secs 120, ORunEnd (inl KeepAliveTimeout))]. split; [destruct rt; cfg|]. split; [destruct rt; reach|]. destruct rt; calc.
Qed.
