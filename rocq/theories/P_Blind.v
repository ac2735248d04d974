(* C83: most of what the broker says has no influence on what the client does. *)
From Verif Require Import Base VarInt Prims Props Codes Packets Options Session Client System SpecSession SpecNet SpecTrace SpecBlind Scenario LoopCases BlindFacts BlindCases.

(* two sequences of events with packets in which the client looks at the same ([seen], SpecBlind.v): the same states, the same behaviour at the same times *)
Theorem C83_blind : forall c es es' s, exec c es (init c) = Some s -> map event_seen es' = map event_seen es -> exists s', exec c es' (init c) = Some s' /\
  y_state s' = y_state s /\ y_wait s' = y_wait s /\ y_chan s' = y_chan s /\ y_net s' = y_net s /\ y_pc s' = y_pc s /\ map timed (y_log s') = map timed (y_log s).
Proof. exact blind. Qed.
Print Assumptions C83_blind.
(* in particular the same packets are written, at the same times *)
Theorem C83_writes : forall c es es' s s', exec c es (init c) = Some s -> exec c es' (init c) = Some s' -> map event_seen es' = map event_seen es ->
  filter (fun x => is_write (snd x)) (y_log s') = filter (fun x => is_write (snd x)) (y_log s).
Proof. exact blind_writes. Qed.
Print Assumptions C83_writes.
(* the limits in CONNACK and the refusal in SUBACK change nothing *)
Example C83_case : exists s s', exec (lc_cfg Smol) bl_free (init (lc_cfg Smol)) = Some s /\ exec (lc_cfg Smol) bl_strict (init (lc_cfg Smol)) = Some s' /\ bl_free <> bl_strict /\
  map event_seen bl_strict = map event_seen bl_free /\ bl_writes s' = bl_writes s /\ len (bl_writes s) = 5 /\ trace s <> trace s'.
Proof. exact blind_case. Qed.
(* while what it looks at does matter *)
Example C83_sharp : forall rt, Forall (fun '(pre, p, p', post) => seen p <> seen p' /\
  option_map bl_writes (exec (lc_cfg rt) (pre ++ EPacket p :: post) (init (lc_cfg rt))) <> option_map bl_writes (exec (lc_cfg rt) (pre ++ EPacket p' :: post) (init (lc_cfg rt)))) bl_pairs.
Proof. exact blind_sharp. Qed.
