(* C84: the client on bytes, when the futures of connect and run are dropped. *)
From Verif Require Import Base VarInt Prims Props Codes Packets Options Session Client System SpecCodec SpecSession SpecRead SpecWire SmolStream TokioRead Scenario LoopCases ReadCases Wire WireMore WireCases WireDrop WireDropFacts WireDropCases.

(* C84.  Full statement: without "sr_torn (w_net w) = false", which says that no read was abandoned in the middle of a
   packet, and C84_all_partial for both runtimes.  C84_torn_refuted and C53_stall_refuted are the counterexamples. *)
Theorem C84_order_partial : forall c chk w ps bs fut, dreachable c chk w -> nt_connected (y_net (w_sys w)) = true ->
  Forall2 sent ps bs -> sr_all (w_net w) ++ fut = concat bs -> sr_torn (w_net w) = false ->
  exists a ps1 ps2, ca_rc a = RSuccess /\ ps = ps1 ++ ps2 /\ ps1 = PConnAck a :: since_open (trace (w_sys w)) /\
    messages_since_open (trace (w_sys w)) = filter is_message ps1.
Proof. exact drop_order. Qed.
Print Assumptions C84_order_partial.
Theorem C84_all_partial : forall c chk w ps bs fut, dreachable c chk w -> cf_rt c = Tokio -> nt_connected (y_net (w_sys w)) = true ->
  Forall2 sent ps bs -> sr_all (w_net w) ++ fut = concat bs -> sr_torn (w_net w) = false -> concat (sr_in (w_net w)) = [] ->
  exists a, ca_rc a = RSuccess /\ PConnAck a :: since_open (trace (w_sys w)) = firstn (complete bs (len (sr_all (w_net w)))) ps /\
    messages_since_open (trace (w_sys w)) = filter is_message (firstn (complete bs (len (sr_all (w_net w)))) ps).
Proof. exact drop_all. Qed.
Print Assumptions C84_all_partial.
Theorem C84_no_error_partial : forall c chk w ps bs fut, dreachable c chk w -> Forall2 sent ps bs -> sr_all (w_net w) ++ fut = concat bs -> sr_torn (w_net w) = false ->
  take_chunk (cf_rt c) chk (w_net w) <> SFail DeserializationError.
Proof. exact drop_no_error. Qed.
Print Assumptions C84_no_error_partial.
Theorem C84_smol : forall c chk w, cf_rt c = Smol -> dreachable c chk w -> sr_torn (w_net w) = false.
Proof. exact drop_untorn. Qed.
Print Assumptions C84_smol.
Theorem C84_resume : forall c chk w t, cf_rt c = Smol -> dreachable c chk w -> w_dead w = false -> y_pc (w_sys w) = PSelect t ->
  exists s, dexec c chk [DDrop; DWire (WEvent ERun)] w = Some (Wire s (w_new w) (w_net w) false) /\
    trace s = trace (w_sys w) ++ [ORun] /\ y_net s = y_net (w_sys w) /\ y_state s = y_state (w_sys w) /\ y_wait s = y_wait (w_sys w) /\
    y_chan s = y_chan (w_sys w) /\ (exists u, y_pc s = PSelect u).
Proof. exact drop_resume. Qed.
Print Assumptions C84_resume.
Theorem C84_tokio : forall c chk xs w, cf_rt c = Tokio -> Forall dbytes xs -> dexec c chk xs (winit c chk) = Some w -> w_dead w = false.
Proof. exact drop_no_panic. Qed.
Print Assumptions C84_tokio.
Example C84_case : forall rt, let w := dr_run rt false dr_message in
  config_ok (lc_cfg rt) /\ dreachable (lc_cfg rt) false w /\ Forall dbytes dr_message /\ nt_connected (y_net (w_sys w)) = true /\ Forall2 sent [rc_connack; rc_pub] [wc_connack; wc_pub] /\
  sr_all (w_net w) ++ [] = concat [wc_connack; wc_pub] /\ sr_torn (w_net w) = false /\ concat (sr_in (w_net w)) = [] /\ y_pc (w_sys w) = PSelect 0 /\ w_dead w = false /\
  messages_since_open (trace (w_sys w)) = [rc_pub].
Proof. exact drop_case. Qed.
(* smol: run is dropped in the middle of a message and called again; the message arrives *)
Example C84_smol_case : forall chk, let w := dr_run Smol chk dr_torn in dreachable (lc_cfg Smol) chk w /\ nt_connected (y_net (w_sys w)) = true /\
  sr_all (w_net w) = concat [wc_connack; wc_pub] /\ messages_since_open (trace (w_sys w)) = [rc_pub].
Proof. exact drop_whole. Qed.
(* tokio: the same; the bytes of the payload are read as a PUBACK that the broker never sent, and run ends with an error *)
Theorem C84_torn_refuted : exists c chk w ps bs, config_ok c /\ dreachable c chk w /\ Forall2 sent ps bs /\ sr_all (w_net w) = concat bs /\
  ~ In (rc_ack 7) ps /\ messages_since_open (trace (w_sys w)) <> filter is_message ps /\
  exists l, trace (w_sys w) = l ++ [ORead (rc_ack 7); ORunEnd (inr (HandlerErr (Unsolicited 7 TPubAck)))].
Proof. exact drop_torn. Qed.
Print Assumptions C84_torn_refuted.
