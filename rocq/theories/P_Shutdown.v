(* C76: client calls when the network is dropped *)
From Coq Require Import Permutation.
From Verif Require Import Base VarInt Prims Props Codes Packets Options Session Client System SpecSession Shutdown SpecShutdown Scenario ShutdownFacts ShutdownCases.

(* Every execution is one of the system of System.v; once the session is gone nothing is read, written or handed over. *)
Theorem C76_refines : forall c xs g ys g', lexec c xs (linit c) = Some g -> lexec c ys g = Some g' ->
  reachable c (l_sys g) /\ (l_ids g = false -> exists l, trace (l_sys g') = trace (l_sys g) ++ l /\ Forall client_log l).
Proof. exact shutdown_refines. Qed.
Print Assumptions C76_refines.

(* a call returns at most once *)
Theorem C76_once : forall c xs g, config_ok c -> lexec c xs (linit c) = Some g -> NoDup (map fst (l_ends g)).
Proof. exact (fun c xs g HC H => returned_once c g HC (ex_intro _ xs H)). Qed.
Print Assumptions C76_once.

(* when the network is gone no call waits: each can go on, whatever the others do *)
Theorem C76_never_blocks : forall c xs g, config_ok c -> lexec c xs (linit c) = Some g -> gone g ->
  (forall i, (i < length (l_need g))%nat -> exists g', lstep c (LBegin i) g = Some g') /\
  (forall i, (i < length (l_send g))%nat -> exists g', lstep c (LSend i) g = Some g').
Proof. exact (fun c xs g HC H => never_blocks c g HC (ex_intro _ xs H)). Qed.
Print Assumptions C76_never_blocks.

(* ... and when the calls have gone on as far as they can, each call has returned *)
Theorem C76_returns : forall c xs g ys g', config_ok c -> lexec c xs (linit c) = Some g -> gone g -> Forall goes_on ys -> lexec c ys g = Some g' ->
  (length ys <= 2 * length (l_need g) + length (l_send g))%nat /\
  (all_wait c g' -> unreturned g' = [] /\ Permutation (map fst (l_ends g')) (call_numbers g')).
Proof. exact shutdown_returns. Qed.
Print Assumptions C76_returns.

(* ... with an error *)
Theorem C76_errors_partial : forall c ys g g', gone g -> lexec c ys g = Some g' ->
  gone g' /\ exists new, l_ends g' = l_ends g ++ new /\ Forall (fun e => snd e <> CrOk) new.
Proof. exact no_ok. Qed.
Print Assumptions C76_errors_partial.
Theorem C76_invalid : forall c xs g n e, lexec c xs (linit c) = Some g -> In (n, CrInvalid e) (l_ends g) ->
  exists k id, nth_error (calls_of xs) (N.to_nat n) = Some k /\ validate (max_packet (cf_opts c)) (build k id) = Some e.
Proof. exact shutdown_invalid. Qed.
Print Assumptions C76_invalid.

(* a publish that waits to send and a subscribe that waits for an identifier when the network is dropped *)
Example C76_case : forall rt, config_ok (sd_cfg rt) /\ exists g g', lexec (sd_cfg rt) sd_gone (linit (sd_cfg rt)) = Some g /\ gone g /\ map fst (l_need g) = [1] /\ l_send g = [0] /\ l_ends g = [(2, CrOk)] /\
  lstep (sd_cfg rt) (LBegin 0) (lrun (sd_cfg rt) sd_calls) = None /\
  Forall goes_on [LBegin 0; LSend 0] /\ lexec (sd_cfg rt) [LBegin 0; LSend 0] g = Some g' /\ l_ends g' = [(2, CrOk); (1, CrNoNetworkChannel); (0, CrNoNetworkChannel)].
Proof. exact gone_case. Qed.
Example C76_invalid_case : exists g e, lexec sc_small [LCall sc_sub; LDropSession; LDropRequests; LBegin 0] (linit sc_small) = Some g /\ In (0, CrInvalid e) (l_ends g) /\ gone g.
Proof. exact invalid_case. Qed.

(* Full statement of C76_errors_partial: once the network makes no step any more no call returns Ok. *)
Theorem C76_errors_refuted : forall rt, exists c xs g g' n, cf_rt c = rt /\ config_ok c /\ lexec c xs (linit c) = Some g /\ l_ids g = false /\
  lexec c [LSend 0] g = Some g' /\ l_ends g' = l_ends g ++ [(n, CrOk)].
Proof. exact late_ok_any. Qed.
Print Assumptions C76_errors_refuted.
