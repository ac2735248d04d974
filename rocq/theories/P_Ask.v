(* C81: what goes out is what the application asked for. *)
From Coq Require Import Permutation.
From Verif Require Import Base VarInt Prims Props Codes Packets Options Session Client System SpecSession SpecNet SpecTrace SpecAsk LoopCases AskFacts AskCases.

(* every call that started is a packet that says what the call asks for, in the order of the calls *)
Theorem C81_calls : forall c es s, exec c es (init c) = Some s -> Forall2 asks (calls_in es) (begun_in (trace s)).
Proof. intros c es s H. exact (proj1 (asked_all c es s H)). Qed.
Print Assumptions C81_calls.
(* each of them has exactly one fate: accepted, refused, dropped by the application, or still waiting *)
Theorem C81_fate : forall c es s, exec c es (init c) = Some s ->
  Permutation (begun_in (trace s)) (accepted (trace s) ++ refused_in (trace s) ++ dropped_in (trace s) ++ y_wait s).
Proof. intros c es s H. exact (proj2 (asked_all c es s H)). Qed.
Print Assumptions C81_fate.
(* a request is written (or fails to be written) only if some call asked for just that *)
Theorem C81_written : forall c es s p, config_ok c -> exec c es (init c) = Some s -> In p (tried (trace s)) -> exists k, In (ECall k) es /\ asks k p.
Proof. exact written_asked. Qed.
Print Assumptions C81_written.
(* what is sent again is a PUBREL, or a publish that was written before and that some call asked for, now marked as a duplicate *)
Theorem C81_resent : forall c es s p l1 o l2, config_ok c -> exec c es (init c) = Some s -> trace s = l1 ++ o :: l2 -> attempt FromResend p o ->
  (exists i, p = PPubRel (okay i)) \/ exists k q, In (ECall k) es /\ asks k q /\ p = dup q /\ In (OWrite FromClient q) l1.
Proof. exact resent_asked. Qed.
Print Assumptions C81_resent.
(* at most 20 bytes per packet (ak_cfg, AskCases.v); eight calls: four are written, one is refused, one is dropped, two wait; after a lost connection a publish is sent again *)
Example C81_case : forall rt, exists s l1 o l2 p, config_ok (ak_cfg rt) /\ exec (ak_cfg rt) (ak_events rt) (init (ak_cfg rt)) = Some s /\ len (calls_in (ak_events rt)) = 8 /\
  len (accepted (trace s)) = 4 /\ len (refused_in (trace s)) = 1 /\ len (dropped_in (trace s)) = 1 /\ len (y_wait s) = 2 /\ len (tried (trace s)) = 4 /\
  trace s = l1 ++ o :: l2 /\ attempt FromResend p o /\ p = PPublish (lc_pub true AtLeastOnce (Some 1)).
Proof. exact ask_case. Qed.
