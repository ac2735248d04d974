(* C52 - C54: the client on bytes. *)
From Verif Require Import Base VarInt Prims Props Codes Packets Options Session Client System SpecCodec SpecSession SpecRead SpecWire SmolStream TokioRead Scenario LoopCases ReadCases Wire WireMore WireCases.
From Verif Require WireFacts.

(* C52 *)
Theorem C52_refines : forall c chk w, wreachable c chk w -> reachable c (w_sys w).
Proof. exact WireFacts.wire_refines. Qed.
Print Assumptions C52_refines.
Theorem C52_realised : forall c chk es s, exec c es (init c) = Some s -> Forall sendable es -> exists w, wreachable c chk w /\ w_sys w = s.
Proof. exact realised. Qed.
Print Assumptions C52_realised.
Example C52_case : forall rt chk, let es := [EConnect; EWrite true; EPacket rc_connack; EHandled; EWrites [] true; ERun; EPacket rc_pub; EHandled] in
  Forall sendable es /\ exists s, exec (lc_cfg rt) es (init (lc_cfg rt)) = Some s /\ messages_since_open (trace s) = [rc_pub] /\
  exists w, wreachable (lc_cfg rt) chk w /\ w_sys w = s.
Proof. exact realised_case. Qed.

(* C53.  Full statement: C53_all_partial for both runtimes and without "sr_torn (w_net w) = false", which
   says that no read was abandoned in the middle of a packet.  C53_stall_refuted and C53_torn_refuted are
   the counterexamples. *)
Theorem C53_order_partial : forall c chk w ps bs fut, wreachable c chk w -> nt_connected (y_net (w_sys w)) = true ->
  Forall2 sent ps bs -> sr_all (w_net w) ++ fut = concat bs -> sr_torn (w_net w) = false ->
  exists a ps1 ps2, ca_rc a = RSuccess /\ ps = ps1 ++ ps2 /\ ps1 = PConnAck a :: since_open (trace (w_sys w)).
Proof. exact read_order. Qed.
Print Assumptions C53_order_partial.
Theorem C53_messages_partial : forall c chk w ps bs fut, wreachable c chk w -> nt_connected (y_net (w_sys w)) = true ->
  Forall2 sent ps bs -> sr_all (w_net w) ++ fut = concat bs -> sr_torn (w_net w) = false ->
  exists ps1 ps2, ps = ps1 ++ ps2 /\ messages_since_open (trace (w_sys w)) = filter is_message ps1.
Proof. exact message_order. Qed.
Print Assumptions C53_messages_partial.
Theorem C53_smol : forall c chk w, cf_rt c = Smol -> wreachable c chk w -> sr_torn (w_net w) = false.
Proof. exact smol_untorn. Qed.
Print Assumptions C53_smol.
Theorem C53_all_partial : forall c chk w ps bs fut, wreachable c chk w -> cf_rt c = Tokio -> nt_connected (y_net (w_sys w)) = true ->
  Forall2 sent ps bs -> sr_all (w_net w) ++ fut = concat bs -> sr_torn (w_net w) = false -> concat (sr_in (w_net w)) = [] ->
  messages_since_open (trace (w_sys w)) = filter is_message (firstn (complete bs (len (sr_all (w_net w)))) ps).
Proof. exact messages_all. Qed.
Print Assumptions C53_all_partial.
Theorem C53_no_error_partial : forall c chk w w' ps bs fut, wreachable c chk w -> Forall2 sent ps bs -> sr_all (w_net w) ++ fut = concat bs -> sr_torn (w_net w) = false ->
  wread c chk w = Some w' -> trace (w_sys w') <> trace (w_sys w) ++ [ORunEnd (inr DeserializationError)].
Proof. exact good_end. Qed.
Print Assumptions C53_no_error_partial.
Example C53_case : forall rt, let w := wc_run rt false wc_message in
  config_ok (lc_cfg rt) /\ wreachable (lc_cfg rt) false w /\ nt_connected (y_net (w_sys w)) = true /\ Forall2 sent [rc_connack; rc_pub] [wc_connack; wc_pub] /\
  sr_all (w_net w) ++ [] = concat [wc_connack; wc_pub] /\ sr_torn (w_net w) = false /\ concat (sr_in (w_net w)) = [] /\ messages_since_open (trace (w_sys w)) = [rc_pub].
Proof. exact message_case. Qed.
(* smol: a message that arrives together with CONNACK is not handed over although everything has been read *)
Theorem C53_stall_refuted : exists c chk w ps bs, config_ok c /\ wreachable c chk w /\ y_pc (w_sys w) = PSelect 0 /\ nt_connected (y_net (w_sys w)) = true /\ Forall2 sent ps bs /\
  sr_all (w_net w) = concat bs /\ sr_in (w_net w) = [] /\ wread c chk w = None /\ messages_since_open (trace (w_sys w)) <> filter is_message ps.
Proof. exact stall_witness. Qed.
Print Assumptions C53_stall_refuted.
(* tokio: a request of the application interrupts the reading of a message; the bytes of its payload are then
   read as a PUBACK that the broker never sent, and run ends with an error *)
Theorem C53_torn_refuted : exists c chk w ps bs, config_ok c /\ wreachable c chk w /\ Forall2 sent ps bs /\ sr_all (w_net w) = concat bs /\
  ~ In (rc_ack 7) ps /\ messages_since_open (trace (w_sys w)) <> filter is_message ps /\
  exists l, trace (w_sys w) = l ++ [ORead (rc_ack 7); ORunEnd (inr (HandlerErr (Unsolicited 7 TPubAck)))].
Proof. exact torn_witness. Qed.
Print Assumptions C53_torn_refuted.

(* C54.  Full statement: C54_tokio for both runtimes.  C54_refuted is the counterexample for smol, in debug
   and in release builds; C54_smol_partial is for packets in any pieces, after connect, in release builds. *)
Theorem C54_tokio : forall c chk xs w, cf_rt c = Tokio -> Forall wbytes xs -> wexec c chk xs (winit c chk) = Some w -> w_dead w = false.
Proof. exact no_panic. Qed.
Print Assumptions C54_tokio.
Example C54_tokio_case : Forall wbytes wc_torn /\ exists w, wexec (lc_cfg Tokio) true wc_torn (winit (lc_cfg Tokio) true) = Some w.
Proof. exact torn_bytes. Qed.
Theorem C54_smol_partial : forall c w w' ps bs fut, cf_rt c = Smol -> wreachable c false w -> nt_connected (y_net (w_sys w)) = true -> y_pc (w_sys w) <> PConnRead ->
  Forall2 sent ps bs -> sr_all (w_net w) ++ fut = concat bs -> wread c false w = Some w' -> w_dead w' = false.
Proof. exact smol_no_panic. Qed.
Print Assumptions C54_smol_partial.
Theorem C54_refuted : forall chk, exists xs w, Forall wbytes xs /\ wexec (lc_cfg Smol) chk xs (winit (lc_cfg Smol) chk) = Some w /\ w_dead w = true.
Proof. exact dead_witness. Qed.
Print Assumptions C54_refuted.
