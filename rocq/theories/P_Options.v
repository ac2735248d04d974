From Verif Require Import Base VarInt Prims Props Codes Packets SpecCodec Options SpecOptions FrameMore Session Client System SpecSession OptionsMore TimeCases OptionsCases.

(* C44.  Full statement: C44_partial without the bound on the interval and C44_written_partial also after a
   CONNACK that imposed an interval.  Missing: intervals of 65536 s or more (C44_wraps_refuted) and, on tokio,
   connections after an imposed interval (C44_leak_refuted). *)
Theorem C44_partial : forall id l, str_ok id -> Forall setting_ok l -> get for_keep 60000000000 l < 65536 * 1000000000 ->
  exists c, create_connect (configure id l) = PConnect c /\ says id l c /\
  forall w, FrameMore.accepted w (PConnect c) -> encodes (PConnect c) (bytes_of w (PConnect c)) /\
    forall q, packet_ok q -> encodes q (bytes_of w (PConnect c)) -> q = PConnect c.
Proof. exact connect_told. Qed.
Print Assumptions C44_partial.
(* every CONNECT that MQTT 5 can express is accepted by both writers *)
Theorem C44_accepted_partial : forall id l, str_ok id -> Forall setting_ok l -> (exists b, encodes (create_connect (configure id l)) b) ->
  forall w, FrameMore.accepted w (create_connect (configure id l)).
Proof. exact connect_written. Qed.
Print Assumptions C44_accepted_partial.
Example C44_case : str_ok [99] /\ Forall setting_ok op_settings /\ get for_keep 60000000000 op_settings < 65536 * 1000000000 /\
  last_set for_user op_settings = Some [118] /\ last_set for_packet op_settings = Some 500 /\
  w_bytes (write_packet (create_connect (configure [99] op_settings))) = op_bytes.
Proof. exact settings_case. Qed.
(* the CONNECT packets of an execution, written or attempted *)
Theorem C44_written_partial : forall c s id l l1 o l2 p, config_ok c -> cf_opts c = configure id l -> str_ok id -> Forall setting_ok l ->
  get for_keep 60000000000 l < 65536 * 1000000000 -> reachable c s -> trace s = l1 ++ o :: l2 -> writes_connect o = Some p -> cf_rt c = Smol \/ no_imposed l1 ->
  exists q, p = PConnect q /\ says id l q /\
  forall w, FrameMore.accepted w p -> encodes p (bytes_of w p) /\ forall q, packet_ok q -> encodes q (bytes_of w p) -> q = p.
Proof. exact connect_wire. Qed.
Print Assumptions C44_written_partial.
Example C44_written_case : forall rt, config_ok (op_cfg rt) /\ exists s l2, reachable (op_cfg rt) s /\ trace s = [OConnect] ++ OWrite FromConnect op_connect :: l2 /\
  (cf_rt (op_cfg rt) = Smol \/ no_imposed [OConnect]) /\ forall w, FrameMore.accepted w op_connect.
Proof. exact wire_case. Qed.
Theorem C44_wraps_refuted : forall id l, 65536 * 1000000000 <= get for_keep 60000000000 l ->
  exists c, create_connect (configure id l) = PConnect c /\ cn_keep_alive c < get for_keep 60000000000 l / 1000000000 /\ ~ says id l c.
Proof. exact keep_wraps. Qed.
Print Assumptions C44_wraps_refuted.
Theorem C44_refuted : exists id l c, str_ok id /\ Forall setting_ok l /\ create_connect (configure id l) = PConnect c /\
  get for_keep 60000000000 l = 65546 * 1000000000 /\ cn_keep_alive c = 10 /\ ~ says id l c.
Proof. exact wraps_case. Qed.
Print Assumptions C44_refuted.
Theorem C44_leak_refuted : exists s l1 q l2, config_ok (tc_cfg Tokio) /\ cf_opts (tc_cfg Tokio) = configure [] leak_settings /\ reachable (tc_cfg Tokio) s /\
  trace s = l1 ++ OWrite FromConnect (PConnect q) :: l2 /\ get for_keep 60000000000 leak_settings = 60000000000 /\ cn_keep_alive q = 30 /\ ~ says [] leak_settings q.
Proof. exact leak_case. Qed.
Print Assumptions C44_leak_refuted.

(* C45 *)
Theorem C45_accepts : forall n o, (n <= 268435455 -> exists o', set_maximum_packet_size n o = Some o' /\ max_packet o' = n) /\
  (268435455 < n -> set_maximum_packet_size n o = None).
Proof. exact packet_limit. Qed.
Print Assumptions C45_accepts.
(* after any calls of the setters, the last value taken counts, or the default *)
Theorem C45_limits : forall id l, max_packet (configure id l) = get for_packet 268435455 l /\ receive_max (configure id l) = get for_receive 65535 l /\
  send_max (configure id l) = get for_send 65535 l.
Proof. exact limits. Qed.
Print Assumptions C45_limits.
Example C45_case : get for_packet 268435455 op_settings = 500 /\ get for_receive 65535 op_settings = 20 /\ get for_send 65535 op_settings = 65535.
Proof. repeat split. Qed.
