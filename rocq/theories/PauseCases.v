(* Concrete executions for P_Pause.v. *)
From Verif Require Import Base VarInt Prims Props Codes Packets Options Session Client System SpecSession SpecNet SpecTrace SpecPause Scenario LoopCases.

(* a connection with a message in flight that breaks while PINGRESP is awaited *)
Definition ps_first : list event :=
  sc_connect false ++ sc_do (sc_pub AtLeastOnce) ++ [ETick (from_secs 60); ETimer; EWrite true; ETick (from_secs 5); EReadErr Io].
(* the next one, with a retransmission, until it has been silent for too long *)
Definition ps_next : list event :=
  [EConnect; EWrite true; ETick 7; EPacket (sc_connack true); EHandled; EWrites [] true; ERun; ETick (from_secs 60); ETimer; EWrite true; ETick (from_secs 60); ETimer; EWrite true].
Definition ps_link : list event := [EConnect; EWrite true; EPacket (sc_connack false); EHandled; EWrites [] true].

Lemma pause_case rt : config_ok (lc_cfg rt) /\ exists s t t', reachable (lc_cfg rt) s /\ apart s /\ exec (lc_cfg rt) ps_next s = Some t /\
  exec (lc_cfg rt) (ETick (from_secs 36000) :: ps_next) s = Some t' /\
  last (y_log t) (0, OPanic) = (from_secs 185 + 7, ORunEnd (inl KeepAliveTimeout)) /\ last (y_log t') (0, OPanic) = (from_secs 36185 + 7, ORunEnd (inl KeepAliveTimeout)).
Proof.
  split; [destruct rt; (split; [split; vm_compute; discriminate|vm_compute; discriminate])|].
  exists (run_to (lc_cfg rt) ps_first), (run_to (lc_cfg rt) (ps_first ++ ps_next)), (run_to (lc_cfg rt) (ps_first ++ ETick (from_secs 36000) :: ps_next)).
  split; [exists ps_first; destruct rt; vm_compute; reflexivity|]. split; [split; destruct rt; vm_compute; constructor|].
  destruct rt; repeat apply conj; vm_compute; reflexivity.
Qed.
(* between connect and run time does matter: after a pause run begins with PINGREQ *)
Lemma pause_sharp rt : config_ok (lc_cfg rt) /\ exists s t, exec (lc_cfg rt) ps_link (init (lc_cfg rt)) = Some s /\ nt_connected (y_net s) = true /\ y_pc s = PIdle /\
  exec (lc_cfg rt) [ERun; ETimer] s = None /\ exec (lc_cfg rt) (ETick (from_secs 60) :: [ERun; ETimer]) s = Some t.
Proof.
  split; [destruct rt; (split; [split; vm_compute; discriminate|vm_compute; discriminate])|].
  exists (run_to (lc_cfg rt) ps_link), (run_to (lc_cfg rt) (ps_link ++ ETick (from_secs 60) :: [ERun; ETimer])).
  destruct rt; repeat apply conj; vm_compute; reflexivity.
Qed.
