(* C93: handlers that are cut off. *)
From Verif Require Import Base VarInt Prims Props Codes Packets Options Session Client System SpecCodec SpecSession SpecTrace SpecTime Scenario IdMore LoopCases Handlers HandlerFacts HandlerCases SpecHandler Cancel SpecCancel HandlerDrop HandlerDropFacts HandlerDropCases SpecAttend.

(* Full statement: C93_frees_partial, and what the handler had not finished costs nothing.  It does cost the
   identifier of the request that it was making: C93_lost_refuted. *)
Theorem C93_refines : forall A (f : handler A) c m h, dreachable f c m h -> exists xs, cexec c xs (init c) = Some (hs_sys h).
Proof. exact @drop_refines. Qed.
Print Assumptions C93_refines.
Theorem C93_attended : forall A (f : handler A) c m h, dreachable f c m h -> handling (y_pc (hs_sys h)) = false ->
  attended f m (trace (hs_sys h)) (hs_mem h) /\ hs_dead h = false.
Proof. exact @attended_idle. Qed.
Print Assumptions C93_attended.
Theorem C93_running : forall A (f : handler A) c m h, dreachable f c m h -> handling (y_pc (hs_sys h)) = true ->
  exists l p l2, trace (hs_sys h) = l ++ OHandle p :: l2 /\ attended f m l (hs_mem h) /\ Forall between l2 /\
  if hs_dead h then panicked (f (hs_mem h) p) l2 else made_up_to (pn_calls (f (hs_mem h) p)) l2.
Proof. exact @attended_running. Qed.
Print Assumptions C93_running.
Example C93_case : forall rt chk, let h := dc_run chk rt (map DStep dc_fill ++ dc_once) in let q := PPublish (Publish false AtLeastOnce false sc_topic (Some 1) no_props PONG) in
  dreachable (ping_pong chk) (lc_cfg rt) 0 h /\ handling (y_pc (hs_sys h)) = false /\ hs_mem h = 0 /\
  exists l, trace (hs_sys h) = l ++ [OHandle (hc_ping AtLeastOnce (Some 1)); OBegin q; OGiveUp q; ORun].
Proof. exact cut_case. Qed.

(* whatever the handler waited for *)
Theorem C93_frees_partial : forall A (f : handler A) c m0 h (m : A), dreachable f c m0 h -> in_run (y_pc (hs_sys h)) = true -> hs_dead h = false ->
  exists h', dexec f c [DDrop m; DStep (HEnv ERun)] h = Some h' /\ selecting (hs_sys h') = true /\ hs_mem h' = m /\ hs_dead h' = false /\
  y_chan (hs_sys h') = y_chan (hs_sys h) /\ st_pool (y_state (hs_sys h')) = st_pool (y_state (hs_sys h)) /\
  (exists l, trace (hs_sys h') = trace (hs_sys h) ++ l ++ [ORun] /\ match hs_wait h with None => l = [] | Some j => exists q, nth_error (y_wait (hs_sys h)) j = Some q /\ l = [OGiveUp q] end) /\
  forall p rest, y_chan (hs_sys h) = p :: rest -> exists h2, dexec f c [DStep (HEnv EOutgoing)] h' = Some h2 /\ y_pc (hs_sys h2) = PRequest p /\ y_chan (hs_sys h2) = rest.
Proof. exact @freed. Qed.
Print Assumptions C93_frees_partial.
(* the deadlock of C55_channel_refuted *)
Example C93_frees_case : forall chk rt, let h := dc_run chk rt dc_full in
  dreachable (ping_pong chk) (lc_cfg rt) 0 h /\ in_run (y_pc (hs_sys h)) = true /\ hs_wait h = Some 0%nat /\ hs_dead h = false /\ CHANNEL_SIZE <= len (y_chan (hs_sys h)).
Proof. exact dc_full_case. Qed.
Theorem C93_connect_partial : forall A (f : handler A) c m0 h (m : A), dreachable f c m0 h -> handling (y_pc (hs_sys h)) = true -> in_run (y_pc (hs_sys h)) = false -> hs_dead h = false ->
  exists h', dexec f c [DDrop m; DStep (HEnv EConnect)] h = Some h' /\ y_pc (hs_sys h') = PConnWrite /\ hs_mem h' = m /\ hs_dead h' = false /\
  y_chan (hs_sys h') = y_chan (hs_sys h) /\ y_state (hs_sys h') = y_state (hs_sys h).
Proof. exact @freed_connect. Qed.
Print Assumptions C93_connect_partial.
Example C93_connect_case : forall rt chk, let h := dc_run chk rt dc_connack in
  dreachable (ping_pong chk) (lc_cfg rt) 0 h /\ handling (y_pc (hs_sys h)) = true /\ in_run (y_pc (hs_sys h)) = false /\ hs_dead h = false.
Proof. exact connack_case. Qed.
(* every identifier is taken, and no request that has one is anywhere *)
Theorem C93_lost_refuted : forall rt chk, exists c h, config_ok c /\ cf_rt c = rt /\ dreachable (ping_pong chk) c 0 h /\ selecting (hs_sys h) = true /\
  pl_ids (st_pool (y_state (hs_sys h))) = [] /\ y_wait (hs_sys h) = [] /\ (forall p, In p (y_chan (hs_sys h)) -> req_id p = None) /\
  (forall p, ~ In (OWrite FromClient p) (trace (hs_sys h))).
Proof. exact lost_witness. Qed.
Print Assumptions C93_lost_refuted.

(* With a new connection after every drop the guarantees of C61 hold, whatever the handler does. *)
Theorem C93_careful_partial : forall A (f : handler A) c m h stale, prudent f c m h stale -> careful c (hs_sys h) stale.
Proof. exact @prudent_careful. Qed.
Print Assumptions C93_careful_partial.
Theorem C93_once_partial : forall A (f : handler A) c m h stale i p1 p2 l1 k l2, config_ok c -> prudent f c m h stale ->
  trace (hs_sys h) = l1 ++ OHandle p1 :: k ++ OHandle p2 :: l2 -> q2 i p1 -> q2 i p2 -> exists o, In o k /\ releases i o = true.
Proof. exact @prudent_once. Qed.
Print Assumptions C93_once_partial.
Theorem C93_identifiers_partial : forall A (f : handler A) c m h stale, config_ok c -> prudent f c m h stale -> let s := hs_sys h in
  NoDup (req_ids (y_wait s ++ y_chan s) ++ req_ids (lg_sent (now_ledger c s)) ++ lg_rel (now_ledger c s) ++ pool_of s).
Proof. exact @prudent_ids. Qed.
Print Assumptions C93_identifiers_partial.
Example C93_again_case : forall rt chk, exists h, config_ok (lc_cfg rt) /\ prudent (ping_pong chk) (lc_cfg rt) 0 h false /\ selecting (hs_sys h) = true /\
  existsb (fun o => match o with OGiveUp (PPublish x) => true | _ => false end) (trace (hs_sys h)) = true /\ pool_of (hs_sys h) = [2; 3; 4; 5; 6; 7; 8; 9; 10].
Proof. exact again_case. Qed.
