(* C63, C64: the language of the network task; when it pings. *)
From Verif Require Import Base VarInt Prims Props Codes Packets Options Session Client System SpecSession SpecNet SpecTrace SpecTime SpecPing.
From Verif Require Import Scenario LoopCases TimeCases TraceMore OrderFacts PingFacts.

(* C63.  nrun: the automaton of SpecNet.v, which knows only what was observed, accepts every execution. *)
Theorem C63_language : forall c s, config_ok c -> reachable c s -> exists q, nrun c (trace s) q.
Proof. exact tr. Qed.
Print Assumptions C63_language.
Theorem C63_disconnect : forall c s l1 d l2, config_ok c -> reachable c s -> trace s = l1 ++ ORead (PDisconnect d) :: l2 ->
  goes (net_of l2) [OHandle (PDisconnect d); OHandled; ORunEnd (inl IncomingDisconnect)].
Proof. exact broker_disconnect. Qed.
Print Assumptions C63_disconnect.
Theorem C63_unexpected : forall c s l1 p l2, config_ok c -> reachable c s -> trace s = l1 ++ ORead p :: l2 ->
  In (type_of p) [TConnect; TConnAck; TSubscribe; TUnsubscribe; TPingReq; TAuth] ->
  goes (net_of l2) [ORunEnd (inr (HandlerErr (UnexpectedPacket (type_of p))))].
Proof. exact not_expected. Qed.
Print Assumptions C63_unexpected.
Theorem C63_missing : forall c s l1 x l2, config_ok c -> reachable c s -> trace s = l1 ++ ORead (PPublish x) :: l2 ->
  pb_qos x <> AtMostOnce -> pb_pkid x = None -> goes (net_of l2) [ORunEnd (inr (HandlerErr MissingPacketId))].
Proof. exact no_identifier. Qed.
Print Assumptions C63_missing.
Example C63_case : forall rt, exists s l1 d l2, config_ok (lc_cfg rt) /\ reachable (lc_cfg rt) s /\
  trace s = l1 ++ ORead (PDisconnect d) :: l2 /\ l2 = [OHandle (PDisconnect d); OHandled; ORunEnd (inl IncomingDisconnect)].
Proof. exact left_case. Qed.
Example C63_unexpected_case : forall rt, exists s l1 l2, config_ok (lc_cfg rt) /\ reachable (lc_cfg rt) s /\
  trace s = l1 ++ ORead PPingReq :: l2 /\ l2 = [ORunEnd (inr (HandlerErr (UnexpectedPacket TPingReq)))].
Proof. exact strange_case. Qed.
Example C63_missing_case : forall rt, exists s l1 l2, config_ok (lc_cfg rt) /\ reachable (lc_cfg rt) s /\
  trace s = l1 ++ ORead (PPublish (lc_pub false AtLeastOnce None)) :: l2 /\ l2 = [ORunEnd (inr (HandlerErr MissingPacketId))].
Proof. exact bare_case. Qed.

(* C64.  last_use: SpecPing.v. *)
Theorem C64_not_early : forall c s l1 t o l2, config_ok c -> reachable c s -> y_log s = l1 ++ (t, o) :: l2 -> attempt FromTimer PPingReq o ->
  ck_ping (clock_of (op_keep_alive (cf_opts c)) l1) = None /\
  last_use (cf_rt c) l1 + ck_own (clock_of (op_keep_alive (cf_opts c)) l1) <= t.
Proof. exact not_early. Qed.
Print Assumptions C64_not_early.
Example C64_case : forall rt, exists s l1, config_ok (tc_cfg rt) /\ reachable (tc_cfg rt) s /\
  y_log s = l1 ++ [(from_secs 90, OWrite FromTimer PPingReq)] /\ last_use (cf_rt (tc_cfg rt)) l1 = from_secs 30 /\
  ck_own (clock_of (op_keep_alive (cf_opts (tc_cfg rt))) l1) = from_secs 60.
Proof. exact later_case. Qed.
