(* C90: time that passes while there is no connection changes nothing but the times. *)
From Verif Require Import Base VarInt Prims Props Codes Packets Options Session Client System SpecSession SpecNet SpecTrace SpecPause Scenario LoopCases PauseFacts PauseCases.

(* while there is no connection (before the first one, after the end of one, during a connect that has no answer yet) the client may wait as long as
   it likes: whatever is possible afterwards is possible as well without the wait, and nothing but the times of the observations is different.  No
   deadline is left over from the last connection, nor from the construction. *)
Theorem C90_pause : forall c s d es, config_ok c -> reachable c s -> apart s -> same_later d s (exec c es s) (exec c (ETick d :: es) s).
Proof. exact pause. Qed.
Print Assumptions C90_pause.

Example C90_case : forall rt, config_ok (lc_cfg rt) /\ exists s t t', reachable (lc_cfg rt) s /\ apart s /\ exec (lc_cfg rt) ps_next s = Some t /\
  exec (lc_cfg rt) (ETick (from_secs 36000) :: ps_next) s = Some t' /\
  last (y_log t) (0, OPanic) = (from_secs 185 + 7, ORunEnd (inl KeepAliveTimeout)) /\ last (y_log t') (0, OPanic) = (from_secs 36185 + 7, ORunEnd (inl KeepAliveTimeout)).
Proof. exact pause_case. Qed.
(* between connect and run time does matter: after a pause run begins with PINGREQ *)
Example C90_sharp : forall rt, config_ok (lc_cfg rt) /\ exists s t, exec (lc_cfg rt) ps_link (init (lc_cfg rt)) = Some s /\ nt_connected (y_net s) = true /\ y_pc s = PIdle /\
  exec (lc_cfg rt) [ERun; ETimer] s = None /\ exec (lc_cfg rt) (ETick (from_secs 60) :: [ERun; ETimer]) s = Some t.
Proof. exact pause_sharp. Qed.
