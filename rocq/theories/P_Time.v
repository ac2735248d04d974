(* C37 - C40: keep-alive. *)
From Verif Require Import Base VarInt Prims Props Codes Packets Options Session Client System SpecSession SpecNet SpecTrace SpecTime.
From Verif Require Import KeepMore Scenario LoopCases TimeCases.

(* C37.  Full statement: y_now s <= N.max r (ck_write ...) + ck_promise ... for every punctual execution
   with a promise that is not 0.  Missing: handlers and writes that take time count (2 * D; C37_handler_refuted),
   an interval that does not fit into CONNECT (C37_long_refuted), a connection after one without
   keep-alive (C37_sticky_refuted). *)
Theorem C37_partial : forall c D s e r, config_ok c -> expressible c -> cf_rt c = Tokio -> punctual c D s e -> short_keep (trace s) ->
  ck_zero (now_clock c s) = false -> ck_run (now_clock c s) = Some r ->
  y_now s <= N.max r (ck_write (now_clock c s)) + ck_promise (now_clock c s) + 2 * D.
Proof. exact tokio_gap. Qed.
Print Assumptions C37_partial.
(* the bound is reached *)
Example C37_case : forall rt, exists s e, config_ok (tc_cfg rt) /\ expressible (tc_cfg rt) /\ punctual (tc_cfg rt) 0 s e /\ short_keep (trace s) /\
  ck_zero (now_clock (tc_cfg rt) s) = false /\ ck_run (now_clock (tc_cfg rt) s) = Some (from_secs 5) /\
  ck_write (now_clock (tc_cfg rt) s) = from_secs 64 /\ y_now s = from_secs 124 /\
  ck_promise (now_clock (tc_cfg rt) s) = from_secs 60 /\ ck_own (now_clock (tc_cfg rt) s) = from_secs 60.
Proof. exact tight_case. Qed.
(* The broker asked for no keep-alive on one connection and for 10 s on the next: nothing is sent for 3000 s. *)
Theorem C37_sticky_refuted : forall rt, exists s e, config_ok (tc_cfg rt) /\ expressible (tc_cfg rt) /\ punctual (tc_cfg rt) 0 s e /\
  ck_run (now_clock (tc_cfg rt) s) = Some 0 /\ ck_write (now_clock (tc_cfg rt) s) = 0 /\
  ck_promise (now_clock (tc_cfg rt) s) = from_secs 10 /\ ck_own (now_clock (tc_cfg rt) s) = from_secs 10 /\ y_now s = from_secs 3000.
Proof. exact never_again. Qed.
Print Assumptions C37_sticky_refuted.
(* 65546 s is told to the broker as 10 s. *)
Theorem C37_long_refuted : forall rt, exists s e, config_ok (tc_long rt) /\ punctual (tc_long rt) 0 s e /\
  ck_zero (now_clock (tc_long rt) s) = false /\ ck_run (now_clock (tc_long rt) s) = Some 0 /\ ck_write (now_clock (tc_long rt) s) = 0 /\
  ck_promise (now_clock (tc_long rt) s) = from_secs 10 /\ y_now s = from_secs 65546.
Proof. exact too_long. Qed.
Print Assumptions C37_long_refuted.
(* Nothing is sent while a handler works, however long it takes. *)
Theorem C37_handler_refuted : forall rt d, exists s e, config_ok (tc_cfg rt) /\ punctual (tc_cfg rt) d s e /\
  ck_zero (now_clock (tc_cfg rt) s) = false /\ ck_run (now_clock (tc_cfg rt) s) = Some 0 /\ ck_write (now_clock (tc_cfg rt) s) = 0 /\
  ck_promise (now_clock (tc_cfg rt) s) = from_secs 60 /\ y_now s = d.
Proof. exact slow_handler. Qed.
Print Assumptions C37_handler_refuted.

(* C38.  A run in which a PINGREQ written at p is unanswered does not last beyond p + the interval, up to
   the time of the handlers and writes; at that instant the timer can fire and its effect is the
   DISCONNECT and the end of run. *)
Theorem C38_detected : forall c D s e p, config_ok c -> punctual c D s e -> ck_ping (now_clock c s) = Some p ->
  y_now s <= p + ck_own (now_clock c s) + 3 * D.
Proof. exact ping_bound. Qed.
Print Assumptions C38_detected.
Theorem C38_fires : forall c s p, config_ok c -> reachable c s -> selecting s = true -> ck_ping (now_clock c s) = Some p ->
  p + ck_own (now_clock c s) <= y_now s ->
  exists s1 s2, step c ETimer s = Some s1 /\ step c (EWrite true) s1 = Some s2 /\
    y_log s2 = y_log s ++ [(y_now s, OWrite FromTimer (PDisconnect (Disconnect RKeepAliveTimeout no_props))); (y_now s, ORunEnd (inl KeepAliveTimeout))].
Proof. exact fires. Qed.
Print Assumptions C38_fires.
Theorem C38_only : forall c s l1 t d o l2, config_ok c -> cf_rt c = Tokio -> reachable c s -> y_log s = l1 ++ (t, o) :: l2 -> attempt FromTimer (PDisconnect d) o ->
  d = Disconnect RKeepAliveTimeout no_props /\
  (exists p, ck_ping (clock_of (op_keep_alive (cf_opts c)) l1) = Some p /\ p + ck_own (clock_of (op_keep_alive (cf_opts c)) l1) <= t) /\
  (o = OWrite FromTimer (PDisconnect d) -> exists l3, l2 = (t, ORunEnd (inl KeepAliveTimeout)) :: l3).
Proof. exact bye_only. Qed.
Print Assumptions C38_only.
Example C38_case : forall rt, exists s e, config_ok (tc_cfg rt) /\ punctual (tc_cfg rt) 0 s e /\ selecting s = true /\
  ck_ping (now_clock (tc_cfg rt) s) = Some (from_secs 60) /\ ck_own (now_clock (tc_cfg rt) s) = from_secs 60 /\ y_now s = from_secs 120.
Proof. exact dead_case. Qed.
Example C38_only_case : forall rt, exists s l1 l2, config_ok (tc_cfg rt) /\ reachable (tc_cfg rt) s /\
  y_log s = l1 ++ (from_secs 120, OWrite FromTimer (PDisconnect (Disconnect RKeepAliveTimeout no_props))) :: l2.
Proof. exact bye_case. Qed.

(* C39.  Full statement: C39_partial without its last hypothesis.  Missing: the DISCONNECT of the smol
   client (C39_smol_refuted). *)
Theorem C39_partial : forall c s l1 t p o l2, config_ok c -> reachable c s -> y_log s = l1 ++ (t, o) :: l2 -> attempt FromTimer p o ->
  cf_rt c = Tokio \/ p = PPingReq -> ck_own (clock_of (op_keep_alive (cf_opts c)) l1) <> 0.
Proof. exact timer_nonzero. Qed.
Print Assumptions C39_partial.
Example C39_case : forall rt, exists s l1 l2, config_ok (tc_cfg rt) /\ reachable (tc_cfg rt) s /\
  y_log s = l1 ++ (from_secs 120, OWrite FromTimer (PDisconnect (Disconnect RKeepAliveTimeout no_props))) :: l2.
Proof. exact bye_case. Qed.
(* No keep-alive: after an hour of silence the smol client disconnects. *)
Theorem C39_smol_refuted : exists s l1, config_ok (tc_cfg Smol) /\ reachable (tc_cfg Smol) s /\
  y_log s = l1 ++ [(from_secs 3600, OWrite FromTimer (PDisconnect (Disconnect RKeepAliveTimeout no_props))); (from_secs 3600, ORunEnd (inl KeepAliveTimeout))] /\
  ck_own (clock_of (op_keep_alive (cf_opts (tc_cfg Smol))) l1) = 0 /\ ck_promise (clock_of (op_keep_alive (cf_opts (tc_cfg Smol))) l1) = 0.
Proof. exact hour. Qed.
Print Assumptions C39_smol_refuted.

(* C40.  Full statement: y_now s <= N.max r (ck_write ...) + ck_promise .... Missing, besides what is
   missing in C37: a packet read counts as a write (C40_refuted); the interval is the one last set, also
   by the broker for an earlier connection (C40_leak_refuted). *)
Theorem C40_partial : forall c D s e r, config_ok c -> cf_rt c = Smol -> punctual c D s e ->
  ck_zero (now_clock c s) = false -> ck_run (now_clock c s) = Some r ->
  y_now s <= N.max (N.max r (ck_write (now_clock c s))) (ck_read (now_clock c s)) + ck_own (now_clock c s) + 4 * D.
Proof. exact smol_gap. Qed.
Print Assumptions C40_partial.
Example C40_case : forall rt, exists s e, config_ok (tc_cfg rt) /\ expressible (tc_cfg rt) /\ punctual (tc_cfg rt) 0 s e /\ short_keep (trace s) /\
  ck_zero (now_clock (tc_cfg rt) s) = false /\ ck_run (now_clock (tc_cfg rt) s) = Some (from_secs 5) /\
  ck_write (now_clock (tc_cfg rt) s) = from_secs 64 /\ y_now s = from_secs 124 /\
  ck_promise (now_clock (tc_cfg rt) s) = from_secs 60 /\ ck_own (now_clock (tc_cfg rt) s) = from_secs 60.
Proof. exact tight_case. Qed.
(* The broker sends something every 50 s: nothing is written for 500 s, although 60 s were promised. *)
Theorem C40_refuted : exists s e, config_ok (tc_cfg Smol) /\ punctual (tc_cfg Smol) 0 s e /\
  ck_zero (now_clock (tc_cfg Smol) s) = false /\ ck_run (now_clock (tc_cfg Smol) s) = Some 0 /\ ck_write (now_clock (tc_cfg Smol) s) = 0 /\
  ck_promise (now_clock (tc_cfg Smol) s) = from_secs 60 /\ y_now s = from_secs 500.
Proof. exact news_suffices. Qed.
Print Assumptions C40_refuted.
Theorem C40_leak_refuted : exists s e, config_ok (tc_cfg Smol) /\ punctual (tc_cfg Smol) 0 s e /\
  ck_zero (now_clock (tc_cfg Smol) s) = false /\ ck_run (now_clock (tc_cfg Smol) s) = Some 0 /\ ck_write (now_clock (tc_cfg Smol) s) = 0 /\ ck_read (now_clock (tc_cfg Smol) s) = 0 /\
  ck_promise (now_clock (tc_cfg Smol) s) = from_secs 60 /\ y_now s = from_secs 600.
Proof. exact old_interval. Qed.
Print Assumptions C40_leak_refuted.
