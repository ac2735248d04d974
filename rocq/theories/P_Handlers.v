(* C55, C56, C68: handlers. *)
From Verif Require Import Base VarInt Prims Props Codes Packets Options Session Client System SpecCodec SpecSession Scenario IdMore LoopCases Handlers HandlerFacts HandlerMore HandlerCases SpecHandler HandlerServe.

(* C55.  Full statement: C55_returns_partial without the conditions on the channel and the identifiers.  The two
   _stuck theorems say what happens without them: nothing is read or written ever again. *)
Theorem C55_refines : forall A (f : handler A) c m h, hreachable f c m h -> reachable c (hs_sys h).
Proof. exact @handler_refines. Qed.
Print Assumptions C55_refines.
Theorem C55_any : forall c s, reachable c s -> exists h, hreachable nop c tt h /\ hs_sys h = s.
Proof. exact nop_realises. Qed.
Print Assumptions C55_any.
Theorem C55_returns_partial : forall A (f : handler A) c m ks h, reachable c (hs_sys h) -> handling (y_pc (hs_sys h)) = true -> hs_plan h = Some (Plan ks (Return m)) -> hs_wait h = None -> hs_dead h = false ->
  pl_open (st_pool (y_state (hs_sys h))) = true -> (forall k id, In k ks -> validate (max_packet (cf_opts c)) (build k id) = None) ->
  len (y_chan (hs_sys h)) + len ks <= CHANNEL_SIZE -> (length (filter needs_id ks) <= length (pl_ids (st_pool (y_state (hs_sys h)))))%nat ->
  exists xs h', hexec f c xs h = Some h' /\ Forall own_event xs /\ hs_mem h' = m /\ hs_dead h' = false /\ hs_plan h' = None /\
  exists l1 l2, trace (hs_sys h') = trace (hs_sys h) ++ l1 ++ OHandled :: l2 /\ Forall by_clients l1.
Proof. exact @plan_runs. Qed.
Print Assumptions C55_returns_partial.
Example C55_returns_case : forall rt chk, let h := hc_run (ping_pong chk) rt 0 hc_room in
  hreachable (ping_pong chk) (lc_cfg rt) 0 h /\ handling (y_pc (hs_sys h)) = true /\ hs_wait h = None /\ hs_dead h = false /\ pl_open (st_pool (y_state (hs_sys h))) = true /\
  hs_plan h = Some (Plan [CPublish ExactlyOnce false sc_topic PONG no_props] (Return 1)) /\ len (y_chan (hs_sys h)) = 0 /\ length (pl_ids (st_pool (y_state (hs_sys h)))) = 10%nat.
Proof. exact room_case. Qed.
Theorem C55_channel_stuck : forall A (f : handler A) c xs h h', handling (y_pc (hs_sys h)) = true -> hs_wait h <> None -> CHANNEL_SIZE <= len (y_chan (hs_sys h)) -> hexec f c xs h = Some h' ->
  y_pc (hs_sys h') = y_pc (hs_sys h) /\ hs_wait h' <> None /\ exists l, trace (hs_sys h') = trace (hs_sys h) ++ l /\ Forall futile l.
Proof. exact @channel_stuck. Qed.
Print Assumptions C55_channel_stuck.
Theorem C55_id_stuck : forall A (f : handler A) c xs h h' k ks e, handling (y_pc (hs_sys h)) = true -> hs_plan h = Some (Plan (k :: ks) e) -> hs_wait h = None -> needs_id k = true ->
  pl_ids (st_pool (y_state (hs_sys h))) = [] -> hexec f c xs h = Some h' ->
  y_pc (hs_sys h') = y_pc (hs_sys h) /\ hs_plan h' = hs_plan h /\ exists l, trace (hs_sys h') = trace (hs_sys h) ++ l /\ Forall by_clients l.
Proof. exact @id_stuck. Qed.
Print Assumptions C55_id_stuck.
(* the crate's PingPong: a hundred requests are queued when a message arrives *)
Theorem C55_channel_refuted : forall rt chk, exists c h, config_ok c /\ cf_rt c = rt /\ hreachable (ping_pong chk) c 0 h /\ handling (y_pc (hs_sys h)) = true /\
  forall xs h', hexec (ping_pong chk) c xs h = Some h' -> exists l, trace (hs_sys h') = trace (hs_sys h) ++ l /\ Forall futile l.
Proof. exact full_witness. Qed.
Print Assumptions C55_channel_refuted.
(* PingPong again: the broker sends messages and leaves the answers unacknowledged; the application itself requests nothing *)
Theorem C55_id_refuted : forall rt chk, exists c h, config_ok c /\ cf_rt c = rt /\ hreachable (ping_pong chk) c 0 h /\ handling (y_pc (hs_sys h)) = true /\
  (forall p, In (OBegin p) (trace (hs_sys h)) -> exists x, p = PPublish x /\ pb_payload x = PONG) /\
  forall xs h', hexec (ping_pong chk) c xs h = Some h' -> exists l, trace (hs_sys h') = trace (hs_sys h) ++ l /\ Forall by_clients l.
Proof. exact ids_witness. Qed.
Print Assumptions C55_id_refuted.

(* C56.  Full statement: PingPong never panics and answers every text with "ping" in it.  [cut_at_ten]: the text
   has more than ten bytes and no part of it at the beginning has ten bytes. *)
Theorem C56_ping_pong_partial : forall chk n p,
  (pn_calls (ping_pong chk n p) <> [] <->
    exists x a w b, p = PPublish x /\ utf8 (pb_payload x) /\ ~ cut_at_ten (pb_payload x) /\ pb_payload x = a ++ w ++ b /\ same_letters w [112; 105; 110; 103]) /\
  (pn_end (ping_pong chk n p) = Panics <->
    (exists x, p = PPublish x /\ cut_at_ten (pb_payload x)) \/
    (chk = true /\ 65535 <= n /\ exists x, p = PPublish x /\ pb_retain x = false /\ pn_calls (ping_pong chk n p) <> [])) /\
  (forall k, In k (pn_calls (ping_pong chk n p)) -> exists x, p = PPublish x /\ k = CPublish (pb_qos x) (pb_retain x) (pb_topic x) [112; 111; 110; 103] no_props).
Proof. exact ping_pong_cases. Qed.
Print Assumptions C56_ping_pong_partial.
Example C56_case : (forall chk n, pn_end (ping_pong chk n (PPublish (Publish false AtMostOnce false sc_topic None no_props hc_text))) = Panics) /\
  pn_calls (ping_pong true 0 (hc_ping AtMostOnce None)) <> [].
Proof. exact text_cases. Qed.
(* an answer is not answered, and it is accepted if the message was within the client's maximum packet size *)
Theorem C56_no_echo : forall chk n x, pb_payload x = [112; 111; 110; 103] -> ping_pong chk n (PPublish x) = Plan [] (Return n).
Proof. exact own_answer. Qed.
Print Assumptions C56_no_echo.
Theorem C56_accepted : forall chk n p k id max, In k (pn_calls (ping_pong chk n p)) -> well_formed p -> body_len p <= max -> validate max (build k id) = None.
Proof. exact answer_accepted. Qed.
Print Assumptions C56_accepted.
Theorem C56_refuted : forall rt chk, exists c h, config_ok c /\ cf_rt c = rt /\ hreachable (ping_pong chk) c 0 h /\ hs_dead h = true.
Proof. exact crash_witness. Qed.
Print Assumptions C56_refuted.

(* C68 *)
Theorem C68_served : forall A (f : handler A) c m h, hreachable f c m h -> handling (y_pc (hs_sys h)) = false ->
  served f m (trace (hs_sys h)) (hs_mem h) /\ hs_dead h = false.
Proof. exact @served_idle. Qed.
Print Assumptions C68_served.
Theorem C68_running : forall A (f : handler A) c m h, hreachable f c m h -> handling (y_pc (hs_sys h)) = true ->
  exists l p l2, trace (hs_sys h) = l ++ OHandle p :: l2 /\ served f m l (hs_mem h) /\ Forall between l2 /\
  if hs_dead h then panicked (f (hs_mem h) p) l2 else made_up_to (pn_calls (f (hs_mem h) p)) l2.
Proof. exact @served_running. Qed.
Print Assumptions C68_running.
Example C68_case : forall rt chk, let h := hc_run (ping_pong chk) rt 0 hc_served in
  hreachable (ping_pong chk) (lc_cfg rt) 0 h /\ handling (y_pc (hs_sys h)) = false /\ hs_mem h = 1 /\ ping_pong chk 0 (hc_ping AtMostOnce None) = Plan [CPublish AtMostOnce false sc_topic PONG no_props] (Return 1) /\
  let q := PPublish (Publish false AtMostOnce false sc_topic None no_props PONG) in let q' := PPublish (Publish false AtMostOnce false sc_topic None no_props [112]) in
  exists l1 l2, trace (hs_sys h) = l1 ++ OHandle (hc_ping AtMostOnce None) :: [OBegin q; OAccept q'; OAccept q; OHandled] ++ l2.
Proof. exact served_case. Qed.
Example C68_refused_case : exists h q e l, hreachable (ping_pong true) sc_small 0 h /\ handling (y_pc (hs_sys h)) = true /\ hs_dead h = true /\
  trace (hs_sys h) = l ++ [OHandle (hc_ping AtMostOnce None); OBegin q; ORefuse q e].
Proof. exact refused_case. Qed.
