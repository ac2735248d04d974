(* C89: the session holds exactly the unfinished exchanges, and is as new when all of them have ended. *)
From Coq Require Import Permutation.
From Verif Require Import Base VarInt Prims Props Codes Packets Options Session Client System SpecSession SpecNet SpecTrace SpecHold Scenario LoopCases HoldFacts HoldCases.

(* at every moment before a panic the session state is the one that can be written down from the log: the requests that await an answer, in the
   order in which they were written and each in its place, and the messages that were received and not released; nothing else is left in it *)
Theorem C89_session : forall c s, config_ok c -> reachable c s -> y_pc s <> PCrash ->
  y_state s = session_of (receive_max (cf_opts c)) (st_pool (y_state s)) (now_ledger c s) (received (trace s)).
Proof. exact session. Qed.
Print Assumptions C89_session.

(* when nothing is unfinished the session is a new one, and the free identifiers are all that are not lost, each once *)
Theorem C89_as_new : forall c s, config_ok c -> reachable c s -> y_pc s <> PCrash -> settled (now_ledger c s) (received (trace s)) ->
  y_state s = new_state (receive_max (cf_opts c)) (st_pool (y_state s)) /\
  Permutation (pl_ids (st_pool (y_state s)) ++ lg_lost (now_ledger c s)) (ids_upto (send_max (cf_opts c))).
Proof. exact as_new. Qed.
Print Assumptions C89_as_new.

Example C89_case : forall rt, config_ok (lc_cfg rt) /\ exists s s', exec (lc_cfg rt) hd_open (init (lc_cfg rt)) = Some s /\ exec (lc_cfg rt) (hd_open ++ hd_rest rt) (init (lc_cfg rt)) = Some s' /\
  reachable (lc_cfg rt) s /\ reachable (lc_cfg rt) s' /\ y_pc s <> PCrash /\ y_pc s' <> PCrash /\
  (let h := y_state s in (st_sub h, st_unsub h, st_order h, st_rel h, st_in h) = ([3], [4], [1], [2], [7])) /\
  st_pub (y_state s) = Some (lc_pub false AtLeastOnce (Some 1)) :: repeat None 9 /\
  settled (now_ledger (lc_cfg rt) s') (received (trace s')) /\ y_state s' = new_state 10 (Pool [5; 6; 7; 8; 9; 10; 4; 2; 1; 3] 10 true).
Proof. exact hold_case. Qed.
