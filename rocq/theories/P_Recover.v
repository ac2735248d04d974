(* C94: a client can always be connected again. *)
From Verif Require Import Base VarInt Prims Props Codes Packets Options Session Client System SpecCodec SpecSession SpecOut SpecRecover Scenario LoopCases RecoverFacts RecoverCases.

(* Full statement: for every reachable state.  It is false after a panic (C94_refuted).  That CONNECT has an encoding is necessary (C94_connectable).
   Whatever has happened: run or connect can come to an end, a broker that accepts the connection can be connected to, and run waits for what comes next; for this no call
   has to be made or given up, no time has to pass, and no request in the channel is lost. *)
Theorem C94_recovers_partial : forall c s a, config_ok c -> built c -> (exists b, encodes (create_connect (cf_opts c)) b) -> reachable c s -> y_pc s <> PCrash -> ca_rc a = RSuccess ->
  exists es s', Forall (recovery a) es /\ exec c es s = Some s' /\ at_work s' /\ fresh_start a s s' /\ y_chan s' = y_chan s /\ y_wait s' = y_wait s /\ y_now s' = y_now s.
Proof. exact recovers. Qed.
Print Assumptions C94_recovers_partial.
(* also without any handle: the first attempt fails, since the identifier of the subscription cannot be given back, and the second succeeds *)
Example C94_case : forall rt, config_ok (lc_cfg rt) /\ built (lc_cfg rt) /\ (exists b, encodes (create_connect (cf_opts (lc_cfg rt))) b) /\
  reachable (lc_cfg rt) (rv_state rt) /\ (exists p, y_pc (rv_state rt) = PReply p \/ y_pc (rv_state rt) = PFlush [p]) /\ In ODropClients (trace (rv_state rt)) /\ in_flight (now_ledger (lc_cfg rt) (rv_state rt)) = [1; 2] /\
  exists s' l, exec (lc_cfg rt) [EWrite false; EConnect; EWrite true; EPacket (sc_connack false)] (rv_state rt) = Some s' /\ trace s' = l ++ [OAnswer (sc_connack false); OConnectEnd (Some (HandlerErr (PacketIdChannelError 1)))].
Proof. exact recover_case. Qed.

Theorem C94_refuted : forall rt, config_ok (lc_cfg rt) /\ built (lc_cfg rt) /\ (exists b, encodes (create_connect (cf_opts (lc_cfg rt))) b) /\
  exists s, reachable (lc_cfg rt) s /\ forall es s', exec (lc_cfg rt) es s = Some s' -> ~ at_work s'.
Proof. exact panic_stays. Qed.
Print Assumptions C94_refuted.

(* and that is all that can stand in the way *)
Theorem C94_exact : forall c s a, config_ok c -> built c -> reachable c s -> ca_rc a = RSuccess ->
  ((exists es s', Forall (recovery a) es /\ exec c es s = Some s' /\ at_work s' /\ fresh_start a s s') <->
   y_pc s <> PCrash /\ exists b, encodes (create_connect (cf_opts c)) b).
Proof. exact recovers_exact. Qed.
Print Assumptions C94_exact.
Example C94_exact_case : forall rt, config_ok (lc_cfg rt) /\ built (lc_cfg rt) /\ reachable (lc_cfg rt) (rv_state rt) /\ y_pc (rv_state rt) <> PCrash /\
  exists s, reachable (lc_cfg rt) s /\ y_pc s = PCrash.
Proof. exact both_reached. Qed.

(* a client can be connected at all exactly if there is an encoding of its CONNECT *)
Theorem C94_connectable : forall c, config_ok c -> built c -> ((exists s, reachable c s /\ In (OConnectEnd None) (trace s)) <-> exists b, encodes (create_connect (cf_opts c)) b).
Proof. exact connectable. Qed.
Print Assumptions C94_connectable.
(* as there is for one client (C94_case), and not for another, whose will is too long *)
Example C94_connectable_case : forall rt, exists c, cf_rt c = rt /\ config_ok c /\ built c /\ forall s, reachable c s -> ~ In (OConnectEnd None) (trace s).
Proof. exact never_connected. Qed.
