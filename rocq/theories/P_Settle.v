(* C72: with a broker that answers (SpecSettle.v), the work of client and broker ends, and then every exchange has been
   answered. *)
From Verif Require Import Base VarInt Prims Props Codes Packets Options Session Client System SpecSession SpecPolite SpecSettle Scenario SettleMore SettleEnd SettleCases.

(* Left alone, client and broker can only do so much, in whatever order they do it. *)
Theorem C72_bounded : forall c s w, config_ok c -> reachable c s -> exists n, forall k s' w', toils c k s w s' w' -> (k <= n)%nat.
Proof. exact toils_bounded. Qed.
Print Assumptions C72_bounded.
Theorem C72_rests : forall c s w, config_ok c -> reachable c s -> exists k s' w', toils c k s w s' w' /\ at_rest c s' w'.
Proof. exact toils_end. Qed.
Print Assumptions C72_rests.
(* When nothing is left to do on a connection that still works, nothing is in flight: every call has handed over its
   packet, every request has been written, and every exchange that was in flight has been ended by a packet from the
   broker that ends it. *)
Theorem C72_answered : forall c k s w s' w' l, config_ok c -> send_max (cf_opts c) <= receive_max (cf_opts c) -> attended c s w -> nt_connected (y_net s) = true ->
  toils c k s w s' w' -> at_rest c s' w' -> trace s' = trace s ++ l ->
  ln_live w' = true -> unbroken (trace s') = true -> nt_connected (y_net s') = true ->
  in_flight (now_ledger c s') = [] /\ y_wait s' = [] /\ y_chan s' = [] /\
  (forall i, In i (in_flight (now_ledger c s)) -> exists p, In (ORead p) l /\ settles i p = true).
Proof. exact all_answered. Qed.
Print Assumptions C72_answered.
(* If the client has given up the connection meanwhile, then for a reason: a regular end, a failed write, or the
   application had dropped its clients. *)
Theorem C72_reason : forall c k s w s' w' l, config_ok c -> attended c s w -> nt_connected (y_net s) = true -> toils c k s w s' w' -> trace s' = trace s ++ l ->
  nt_connected (y_net s') = false -> exists r, In (ORunEnd r) l /\ good_reason c (trace s') l r.
Proof. exact toils_why. Qed.
Print Assumptions C72_reason.
(* That no write failed is necessary: the tokio client ignores a failed retransmission and says that it is connected. *)
Theorem C72_answered_refuted : exists s w, attended (sc Tokio 10 10 false) s w /\ nt_connected (y_net s) = true /\ at_rest (sc Tokio 10 10 false) s w /\
  ln_live w = true /\ In 1 (in_flight (now_ledger (sc Tokio 10 10 false) s)).
Proof. exact lost_case. Qed.
Print Assumptions C72_answered_refuted.

(* a publish of QoS 1 and one of QoS 2 have been sent, a subscribe waits, a message comes from the broker *)
Example C72_case : forall rt, exists k s w s' w', attended (sc rt 10 10 false) s w /\ nt_connected (y_net s) = true /\ toils (sc rt 10 10 false) k s w s' w' /\
  at_rest (sc rt 10 10 false) s' w' /\ ln_live w' = true /\ unbroken (trace s') = true /\ nt_connected (y_net s') = true /\
  in_flight (now_ledger (sc rt 10 10 false) s) = [3; 1; 2].
Proof. exact work_case. Qed.
