(* C71: a broker that acknowledges only what it has received (SpecPolite.v) never makes the client panic, and never
   makes run end with an error of the packet handling. *)
From Verif Require Import Base VarInt Prims Props Codes Packets Options Session Client System SpecSession SpecPolite Scenario PoliteEnd PoliteCases.

(* Every acknowledgement that run reads is one the client waits for. *)
Theorem C71_expected : forall c s w, config_ok c -> with_broker c s w ->
  everywhere (fun l o => forall p, o = ORead p -> is_ack p = true -> awaited (ledger_of (op_clean_start (cf_opts c)) l) p = true) (trace s).
Proof. exact acks_expected. Qed.
Print Assumptions C71_expected.
(* The only panic left is that of a publish whose identifier has no place in the table; it happens right after the
   publish was written. *)
Theorem C71_panics : forall c s w, config_ok c -> with_broker c s w ->
  everywhere (fun l o => o = OPanic ->
    exists l0 x i, l = l0 ++ [OWrite FromClient (PPublish x)] /\ pb_pkid x = Some i /\ receive_max (cf_opts c) < i) (trace s).
Proof. exact panics_only. Qed.
Print Assumptions C71_panics.
Theorem C71_no_panic : forall c s w, config_ok c -> send_max (cf_opts c) <= receive_max (cf_opts c) -> with_broker c s w -> ~ In OPanic (trace s).
Proof. exact no_panics. Qed.
Print Assumptions C71_no_panic.
(* Without the condition on the options it is false. *)
Theorem C71_no_panic_refuted : exists c s w, config_ok c /\ with_broker c s w /\ In OPanic (trace s).
Proof. exact small_refuted. Qed.
Print Assumptions C71_no_panic_refuted.
(* run does not end with an error of the packet handling, unless the application has dropped all its clients. *)
Theorem C71_errors : forall c s w, config_ok c -> with_broker c s w ->
  everywhere (fun l o => forall e, o = ORunEnd (inr (HandlerErr e)) -> exists i, e = PacketIdChannelError i /\ In ODropClients l) (trace s).
Proof. exact run_errors. Qed.
Print Assumptions C71_errors.

(* answers out of order, a lost connection, and retransmission *)
Example C71_case : forall rt, exists s w, with_broker (sc rt 10 10 false) s w /\
  acks_read (trace s) = [lc_suback 3; PPubRec (sc_ack 2); PPubComp (sc_ack 2); PPubAck (sc_ack 1)] /\
  (exists x, pb_dup x = true /\ In (OWrite FromResend (PPublish x)) (trace s)) /\ In (OWrite FromResend (PPubRel (sc_ack 2))) (trace s) /\ ln_used w = true.
Proof. exact talk_case. Qed.
Example C71_gone_case : forall rt, exists s w, with_broker (sc rt 10 10 false) s w /\
  In (ORunEnd (inr (HandlerErr (PacketIdChannelError 1)))) (trace s).
Proof. exact gone_case. Qed.
