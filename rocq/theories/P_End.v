(* C60: why run and connect return what they return. *)
From Verif Require Import Base VarInt Prims Props Codes Packets SpecCodec SpecOptions Options Session Client System SpecSession SpecNet SpecTrace SpecOut SmolStream TokioRead Wire SpecEnd Scenario LoopCases EndFacts EndMore EndCases.

Theorem C60_run : forall c es s l1 r l2, config_ok c -> Forall real es -> exec c es (init c) = Some s -> trace s = l1 ++ ORunEnd r :: l2 -> run_cause c l1 r.
Proof. exact run_result. Qed.
Print Assumptions C60_run.
(* every result except the one of C60_serialise *)
Example C60_run_case : forall rt, config_ok (lc_cfg rt) /\
  Forall (fun x => Forall real (fst x) /\ exists s l1, exec (lc_cfg rt) (fst x) (init (lc_cfg rt)) = Some s /\ trace s = l1 ++ [ORunEnd (snd x)]) ec_run.
Proof. exact run_cases. Qed.
Theorem C60_connect : forall c es s l1 e l2, config_ok c -> Forall real es -> exec c es (init c) = Some s -> trace s = l1 ++ OConnectEnd (Some e) :: l2 -> connect_cause c l1 e.
Proof. exact connect_result. Qed.
Print Assumptions C60_connect.
Example C60_connect_case : forall rt, config_ok (lc_cfg rt) /\
  Forall (fun x => Forall real (fst x) /\ exists s l1, exec (lc_cfg rt) (fst x) (init (lc_cfg rt)) = Some s /\ trace s = l1 ++ [OConnectEnd (Some (snd x))]) ec_connect.
Proof. exact connect_cases. Qed.

(* a serialisation error means that a packet has no encoding in MQTT 5 *)
Theorem C60_serialise : forall c es s l1 x l2, config_ok c -> built c -> Forall event_ok es -> Forall real es -> exec c es (init c) = Some s ->
  trace s = l1 ++ ORunEnd (inr (SerializationError x)) :: l2 -> exists o p, In (OWriteFail o p) l1 /\ lawful o p /\ forall b, ~ encodes p b.
Proof. exact run_serialise. Qed.
Print Assumptions C60_serialise.
Example C60_serialise_case : forall rt, exists es s l1 x, config_ok (lc_cfg rt) /\ built (lc_cfg rt) /\ Forall event_ok es /\ Forall real es /\
  exec (lc_cfg rt) es (init (lc_cfg rt)) = Some s /\ trace s = l1 ++ [ORunEnd (inr (SerializationError x))].
Proof. exact serialise_case. Qed.
Theorem C60_connect_serialise : forall c es s l1 x l2, config_ok c -> built c -> Forall event_ok es -> Forall real es -> exec c es (init c) = Some s ->
  trace s = l1 ++ OConnectEnd (Some (SerializationError x)) :: l2 -> exists o p, In (OWriteFail o p) l1 /\ lawful o p /\ forall b, ~ encodes p b.
Proof. exact connect_serialise. Qed.
Print Assumptions C60_connect_serialise.
Example C60_connect_serialise_case : forall rt, exists c es s l1 x, cf_rt c = rt /\ config_ok c /\ built c /\ Forall event_ok es /\ Forall real es /\
  exec c es (init c) = Some s /\ trace s = l1 ++ [OConnectEnd (Some (SerializationError x))].
Proof. exact connect_serialise_case. Qed.

(* The same for executions that start from bytes.  The conditions on packets and on read errors are then true. *)
Theorem C60_bytes : forall c chk xs w, config_ok c -> Forall wire_ok xs -> wexec c chk xs (winit c chk) = Some w ->
  (forall l1 r l2, trace (w_sys w) = l1 ++ ORunEnd r :: l2 -> run_cause c l1 r) /\
  (forall l1 e l2, trace (w_sys w) = l1 ++ OConnectEnd (Some e) :: l2 -> connect_cause c l1 e).
Proof. exact wire_results. Qed.
Print Assumptions C60_bytes.
Theorem C52_events : forall c chk xs w, Forall wire_ok xs -> wexec c chk xs (winit c chk) = Some w ->
  exists es, exec c es (init c) = Some (w_sys w) /\ Forall event_ok es /\ Forall real es.
Proof. exact wire_events. Qed.
Print Assumptions C52_events.
Theorem C57_bytes_partial : forall c chk xs w x p, config_ok c -> built c -> Forall wire_ok xs -> wexec c chk xs (winit c chk) = Some w -> In (OWrite x p) (trace (w_sys w)) ->
  lawful x p /\ encodes p (wire_bytes (cf_rt c) p).
Proof. exact wire_lawful. Qed.
Print Assumptions C57_bytes_partial.
Example C60_bytes_case : forall rt, Forall wire_ok ec_wire /\ exists w l1, wexec (lc_cfg rt) false ec_wire (winit (lc_cfg rt) false) = Some w /\
  trace (w_sys w) = l1 ++ [ORunEnd (inl IncomingDisconnect)].
Proof. exact wire_case. Qed.
