(* C87: the client on tokio and the client on smol do the same. *)
From Verif Require Import Base VarInt Prims Props Codes Packets Options Session Client System SpecSession SpecNet SpecTrace SpecAgree Scenario LoopCases AgreeFacts AgreeCases.

(* timers and failing retransmissions aside, whatever can be seen of one can be seen of the other, with the same session, calls, requests and times *)
Theorem C87_agree : forall o x, auth_paired o -> (possible Tokio o x <-> possible Smol o x).
Proof. exact (fun o x H => agreement o H x). Qed.
Print Assumptions C87_agree.

Example C87_case : auth_paired ag_opts /\ (forall rt, Forall steady (ag_events rt)) /\ exists x,
  (forall rt, exists s, exec (Config rt ag_opts) (ag_events rt) (init (Config rt ag_opts)) = Some s /\ outcome s = x) /\
  existsb (fun o => match snd o with OWrite FromResend (PPublish _) => true | _ => false end) (snd x) = true /\
  existsb (fun o => match snd o with OWrite FromReply (PPubAck _) => true | _ => false end) (snd x) = true.
Proof. exact agree_case. Qed.
(* authentication data without a method: tokio connects, without it; smol does not connect *)
Example C87_auth : ~ auth_paired ag_auth /\ exists t s,
  exec (Config Tokio ag_auth) [EConnect; EWrite true; EPacket (sc_connack false); EHandled; EWrites [] true] (init (Config Tokio ag_auth)) = Some t /\ In (OConnectEnd None) (trace t) /\
  exec (Config Smol ag_auth) [EConnect; EWrite true] (init (Config Smol ag_auth)) = Some s /\ In (OConnectEnd (Some (SerializationError AuthDataWithoutAuthMethod))) (trace s).
Proof. exact agree_auth. Qed.
(* a retransmission that cannot be written: tokio connects all the same, smol does not *)
Example C87_torn : ~ steady (EWrites [false] true) /\ ~ steady (EWrites [] false) /\ exists t s,
  exec (Config Tokio ag_opts) (ag_torn [false] true) (init (Config Tokio ag_opts)) = Some t /\ last (trace t) OHandled = OConnectEnd None /\
  exec (Config Smol ag_opts) (ag_torn [] false) (init (Config Smol ag_opts)) = Some s /\ last (trace s) OHandled = OConnectEnd (Some Io).
Proof. exact agree_torn. Qed.
