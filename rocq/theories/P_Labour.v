(* C80: with a broker that answers, over bytes that arrive in pieces, the work of client and broker ends, and then every
   exchange has been answered. *)
From Verif Require Import Base VarInt Prims Props Codes Packets Options Session Client System SpecSession SpecCodec SpecOut SpecEnd SmolStream TokioRead Wire SpecPolite SpecSettle SpecBytes SpecCarry SpecLabour LoopCases LabourFacts LabourMore LabourCases.

(* Full statement: the theorems for any g and both runtimes.  Missing: tokio when a read is abandoned in the middle of a
   packet (C80_torn_refuted), and C80_answered_partial for smol (C80_smol_refuted). *)
(* Left alone, client, network and broker can only do so much: there is no infinite sequence of steps, in whatever order and
   in whatever pieces the bytes arrive. *)
Theorem C80_ends_partial : forall c chk g i k, config_ok c -> built c -> g = true \/ cf_rt c = Smol -> attended_bytes c chk g i k ->
  Acc (fun b a => labour c chk true (fst a) (snd a) (fst b) (snd b)) (i, k).
Proof. exact bytes_ends. Qed.
Print Assumptions C80_ends_partial.
(* When nothing is left to do on a connection that still works, nothing is in flight, and every exchange that was in flight has
   been ended by a packet from the broker that ends it. *)
Theorem C80_answered_partial : forall c chk i k i' k' l, config_ok c -> built c -> send_max (cf_opts c) <= receive_max (cf_opts c) -> cf_rt c = Tokio ->
  attended_bytes c chk true i k -> nt_connected (y_net (w_sys i)) = true ->
  labours c chk true i k i' k' -> all_done c chk true i' k' -> trace (w_sys i') = trace (w_sys i) ++ l ->
  pi_live k' = true -> unbroken (trace (w_sys i')) = true -> nt_connected (y_net (w_sys i')) = true ->
  in_flight (now_ledger c (w_sys i')) = [] /\ y_wait (w_sys i') = [] /\ y_chan (w_sys i') = [] /\
  (forall j, In j (in_flight (now_ledger c (w_sys i))) -> exists p, In (ORead p) l /\ settles j p = true).
Proof. exact bytes_answered. Qed.
Print Assumptions C80_answered_partial.
(* If the client has given up the connection meanwhile, then for a reason: those of C72, or the end of the connection had
   arrived before. *)
Theorem C80_reason_partial : forall c chk g i k i' k' l, config_ok c -> built c -> g = true \/ cf_rt c = Smol -> attended_bytes c chk g i k -> nt_connected (y_net (w_sys i)) = true ->
  labours c chk true i k i' k' -> trace (w_sys i') = trace (w_sys i) ++ l -> nt_connected (y_net (w_sys i')) = false ->
  exists r, In (ORunEnd r) l /\ (good_reason c (trace (w_sys i')) l r \/ r = inr Io /\ In [] (sr_in (w_net i))).
Proof. exact bytes_reason. Qed.
Print Assumptions C80_reason_partial.
(* smol: two acknowledgements arrive together; the client never looks at the second one *)
Theorem C80_smol_refuted : exists i k, config_ok (lc_cfg Smol) /\ built (lc_cfg Smol) /\ attended_bytes (lc_cfg Smol) false true i k /\ nt_connected (y_net (w_sys i)) = true /\
  all_done (lc_cfg Smol) false true i k /\ pi_live k = true /\ unbroken (trace (w_sys i)) = true /\ In 2 (in_flight (now_ledger (lc_cfg Smol) (w_sys i))).
Proof. exact stall_case. Qed.
Print Assumptions C80_smol_refuted.
(* tokio: a read is abandoned in the middle of a message, and the client takes its payload for the beginning of a long packet *)
Theorem C80_torn_refuted : exists i k, config_ok (lc_cfg Tokio) /\ built (lc_cfg Tokio) /\ attended_bytes (lc_cfg Tokio) false false i k /\ nt_connected (y_net (w_sys i)) = true /\
  all_done (lc_cfg Tokio) false false i k /\ pi_live k = true /\ unbroken (trace (w_sys i)) = true /\ In 1 (in_flight (now_ledger (lc_cfg Tokio) (w_sys i))).
Proof. exact torn_case. Qed.
Print Assumptions C80_torn_refuted.

(* a publish of QoS 1 and one of QoS 2 have been written, a subscribe waits, a message comes from the broker *)
Example C80_case : forall rt, exists i k i' k', attended_bytes (lc_cfg rt) false true i k /\ nt_connected (y_net (w_sys i)) = true /\
  labours (lc_cfg rt) false true i k i' k' /\ all_done (lc_cfg rt) false true i' k' /\
  pi_live k' = true /\ unbroken (trace (w_sys i')) = true /\ nt_connected (y_net (w_sys i')) = true /\ in_flight (now_ledger (lc_cfg rt) (w_sys i)) = [3; 1; 2].
Proof. exact labour_case. Qed.
(* the connection ends after a publish has been written *)
Example C80_reason_case : forall rt, exists i k i' k', attended_bytes (lc_cfg rt) false true i k /\ nt_connected (y_net (w_sys i)) = true /\
  labours (lc_cfg rt) false true i k i' k' /\ nt_connected (y_net (w_sys i')) = false.
Proof. exact end_case. Qed.
