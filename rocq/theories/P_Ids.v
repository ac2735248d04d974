(* C19 - C23, C30: packet identifiers.  The ledger (SpecSession.v) is computed from what was observed
   so far only. *)
From Coq Require Import Permutation.
From Verif Require Import Base VarInt Prims Props Codes Packets Options Session Client System SpecSession SpecNet SpecTrace Scenario IdMore OrderFacts.

(* C19 *)
Theorem C19_identifiers : forall c s, config_ok c -> reachable c s ->
  NoDup (in_flight (now_ledger c s)) /\
  (forall i, In i (in_flight (now_ledger c s)) -> 1 <= i <= send_max (cf_opts c) /\ ~ In i (pool_of s)).
Proof. exact ids_unique. Qed.
Print Assumptions C19_identifiers.
Theorem C19_new_request : forall c s k s' p l i, config_ok c -> reachable c s -> step c (ECall k) s = Some s' ->
  trace s' = trace s ++ OBegin p :: l -> req_id p = Some i -> ~ In i (in_flight (now_ledger c s)).
Proof. exact new_id. Qed.
Print Assumptions C19_new_request.
Example C19_case : exists c s, config_ok c /\ reachable c s /\ in_flight (now_ledger c s) = [4; 5; 2; 3; 1] /\ pool_of s = [].
Proof. exact three_case. Qed.

(* C20.  The last clause names every way to panic; the full pool (available_packet_ids.rs) is not among
   them. *)
Theorem C20_bounded : forall c s, config_ok c -> reachable c s ->
  len (in_flight (now_ledger c s)) + len (pool_of s) <= send_max (cf_opts c).
Proof. exact ids_bound. Qed.
Print Assumptions C20_bounded.
Theorem C20_panics : forall c s, config_ok c -> reachable c s ->
  everywhere (panic_ok (receive_max (cf_opts c))) (trace s).
Proof. exact panic_everywhere. Qed.
Print Assumptions C20_panics.
Example C20_case : exists c s, config_ok c /\ reachable c s /\ in_flight (now_ledger c s) = [4; 5; 2; 3; 1] /\ pool_of s = [].
Proof. exact three_case. Qed.

(* C21.  Full statement: without the third alternative, [loses], which lists all ways to lose one. *)
Theorem C21_kept_partial : forall c s i, config_ok c -> reachable c s -> 1 <= i <= send_max (cf_opts c) ->
  In i (pool_of s) \/ In i (in_flight (now_ledger c s)) \/
  exists l1 o l2, trace s = l1 ++ o :: l2 /\ loses (op_clean_start (cf_opts c)) (ledger_of (op_clean_start (cf_opts c)) l1) o i.
Proof. exact ids_kept. Qed.
Print Assumptions C21_kept_partial.
Example C21_case : exists c s, config_ok c /\ reachable c s /\ in_flight (now_ledger c s) = [4; 5; 2; 3; 1] /\ pool_of s = [].
Proof. exact three_case. Qed.
(* In each of these the client has a single identifier and can never again make an acknowledged request. *)
Theorem C21_refused_call_refuted : exists c s p e, config_ok c /\ reachable c s /\ trace s = [OBegin p; ORefuse p e] /\
  req_id p = Some 1 /\ send_max (cf_opts c) = 1 /\ gone_for_good c s 1.
Proof. exact refused_lost. Qed.
Print Assumptions C21_refused_call_refuted.
Theorem C21_write_failure_refuted : exists c s l p, config_ok c /\ reachable c s /\
  trace s = l ++ [OAccept p; OWriteFail FromClient p; ORunEnd (inr Io)] /\
  req_id p = Some 1 /\ send_max (cf_opts c) = 1 /\ gone_for_good c s 1.
Proof. exact failed_lost. Qed.
Print Assumptions C21_write_failure_refuted.
Theorem C21_pubrec_error_refuted : exists c s l a, config_ok c /\ reachable c s /\
  trace s = l ++ [ORead (PPubRec a); OHandle (PPubRec a); OHandled] /\
  ak_id a = 1 /\ send_max (cf_opts c) = 1 /\ y_pc s = PSelect 0 /\ gone_for_good c s 1.
Proof. exact pubrec_lost. Qed.
Print Assumptions C21_pubrec_error_refuted.
Theorem C21_not_resumed_refuted : exists c s l, config_ok c /\ reachable c s /\
  trace s = l ++ [OAnswer (sc_connack false); OHandle (sc_connack false); OHandled; OConnectEnd None; ORun] /\
  In 1 (lg_rel (ledger_of (op_clean_start (cf_opts c)) l)) /\ send_max (cf_opts c) = 1 /\ gone_for_good c s 1.
Proof. exact reset_lost. Qed.
Print Assumptions C21_not_resumed_refuted.
Theorem C21_dropped_call_refuted : exists c s p, config_ok c /\ reachable c s /\ trace s = [OBegin p; OGiveUp p] /\
  req_id p = Some 1 /\ send_max (cf_opts c) = 1 /\ gone_for_good c s 1.
Proof. exact give_up_lost. Qed.
Print Assumptions C21_dropped_call_refuted.

(* C22.  Full statement: [ends] with PUBACK only for QoS 1, and without the condition that a client
   handle exists (nobody could take the identifier then). *)
Theorem C22_released_partial : forall c e s s' i, config_ok c -> reachable c s -> step c e s = Some s' ->
  (In i (pool_of s') /\ ~ In i (pool_of s) <->
   lg_clients (now_ledger c s) = true /\
   exists o l, trace s' = trace s ++ o :: l /\ ends (op_clean_start (cf_opts c)) (now_ledger c s) o i).
Proof. exact pool_gain. Qed.
Print Assumptions C22_released_partial.
Theorem C22_once : forall c s, config_ok c -> reachable c s -> NoDup (pool_of s).
Proof. exact pool_nodup. Qed.
Print Assumptions C22_once.
(* Identifiers are taken at the front and put back at the end. *)
Theorem C22_order : forall c es s s', config_ok c -> reachable c s -> exec c es s = Some s' ->
  exists l back, trace s' = trace s ++ l /\ pool_of s ++ back = taken l ++ pool_of s'.
Proof. exact pool_fifo. Qed.
Print Assumptions C22_order.
Theorem C22_front : forall c s k s' p l i, config_ok c -> reachable c s -> step c (ECall k) s = Some s' ->
  trace s' = trace s ++ OBegin p :: l -> req_id p = Some i -> pool_of s = i :: pool_of s'.
Proof. exact pool_front. Qed.
Print Assumptions C22_front.
Example C22_order_case : exists c s s', config_ok c /\ reachable c s /\ pool_of s = [3; 4] /\
  exec c (EPacket (PPubAck (sc_ack 1)) :: EHandled :: sc_do (sc_pub AtLeastOnce)) s = Some s' /\ pool_of s' = [4; 1].
Proof. exact order_case. Qed.
Theorem C22_refuted : exists c s s' x, config_ok c /\ reachable c s /\ In (PPublish x) (lg_sent (now_ledger c s)) /\
  pb_qos x = ExactlyOnce /\ pb_pkid x = Some 1 /\ step c (EPacket (PPubAck (sc_ack 1))) s = Some s' /\
  ~ In 1 (pool_of s) /\ In 1 (pool_of s').
Proof. exact puback_ends_q2. Qed.
Print Assumptions C22_refuted.

(* C23.  Full statement: the left side is false for every p. *)
Theorem C23_packets_partial : forall c s since p, config_ok c -> reachable c s -> y_pc s = PSelect since ->
  (snd (handle_incoming_packet p (y_state s)) = HPanic <->
   exists a, (p = PPubAck a \/ p = PPubRec a) /\ (ak_id a = 0 \/ receive_max (cf_opts c) < ak_id a)).
Proof. exact incoming_panics. Qed.
Print Assumptions C23_packets_partial.
Theorem C23_connack : forall c s a, config_ok c -> reachable c s -> y_pc s = PConnRead ->
  snd (handle_incoming_connack (op_clean_start (cf_opts c)) a (y_state s)) <> HPanic.
Proof. exact connack_never_panics. Qed.
Print Assumptions C23_connack.
Example C23_case : exists c s, config_ok c /\ reachable c s /\ y_pc s = PSelect 0 /\ awaited (now_ledger c s) (PPubAck (sc_ack 1)) = true /\
  awaited (now_ledger c s) (PPubComp (sc_ack 1)) = false /\ awaited (now_ledger c s) (PSubAck (SubAck 1 no_props [])) = false.
Proof. exact select_case. Qed.
(* with all options at their defaults, identifier 0 *)
Theorem C23_zero_refuted : exists c s s', config_ok c /\ reachable c s /\ cf_opts c = new_options [] /\
  step c (EPacket (PPubAck (sc_ack 0))) s = Some s' /\ trace s' = trace s ++ [ORead (PPubAck (sc_ack 0)); OPanic].
Proof. exact crash_zero. Qed.
Print Assumptions C23_zero_refuted.
Theorem C23_large_refuted : exists c s s', config_ok c /\ reachable c s /\ receive_max (cf_opts c) = 10 /\
  step c (EPacket (PPubRec (sc_ack 11))) s = Some s' /\ trace s' = trace s ++ [ORead (PPubRec (sc_ack 11)); OPanic].
Proof. exact crash_large. Qed.
Print Assumptions C23_large_refuted.

(* C30.  Full statement: without the condition on [off_table]; those acknowledgements panic (C23). *)
Theorem C30_unsolicited_partial : forall c s since a, config_ok c -> reachable c s -> y_pc s = PSelect since -> is_ack a = true ->
  awaited (now_ledger c s) a = false ->
  match a with PPubAck x | PPubRec x => off_table (receive_max (cf_opts c)) (ak_id x) = false | _ => True end ->
  exists i s', ack_id a = Some i /\ step c (EPacket a) s = Some s' /\
    trace s' = trace s ++ [ORead a; ORunEnd (inr (HandlerErr (Unsolicited i (type_of a))))] /\
    y_state s' = y_state s /\ y_wait s' = y_wait s /\ y_chan s' = y_chan s.
Proof. exact unsolicited. Qed.
Print Assumptions C30_unsolicited_partial.
(* the others are accepted, so the error marks exactly the unsolicited ones *)
Theorem C30_solicited : forall c s since a, config_ok c -> reachable c s -> y_pc s = PSelect since -> is_ack a = true ->
  awaited (now_ledger c s) a = true -> lg_clients (now_ledger c s) = true ->
  exists s', step c (EPacket a) s = Some s' /\ trace s' = trace s ++ [ORead a; OHandle a].
Proof. exact awaited_accepted. Qed.
Print Assumptions C30_solicited.
Example C30_case : exists c s, config_ok c /\ reachable c s /\ y_pc s = PSelect 0 /\ awaited (now_ledger c s) (PPubAck (sc_ack 1)) = true /\
  awaited (now_ledger c s) (PPubComp (sc_ack 1)) = false /\ awaited (now_ledger c s) (PSubAck (SubAck 1 no_props [])) = false.
Proof. exact select_case. Qed.
Theorem C30_refuted : exists c s s', config_ok c /\ reachable c s /\ cf_opts c = new_options [] /\
  step c (EPacket (PPubAck (sc_ack 0))) s = Some s' /\ trace s' = trace s ++ [ORead (PPubAck (sc_ack 0)); OPanic].
Proof. exact crash_zero. Qed.
Print Assumptions C30_refuted.
