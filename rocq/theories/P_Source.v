(* C73: a broker that sends messages of QoS 1 and 2 and sends again what is not acknowledged (SpecSource.v); the
   connection may break at any time. *)
From Verif Require Import Base VarInt Prims Props Codes Packets Options Session Client System SpecSession SpecPolite SpecSource Scenario SourceAll SourceCases.

(* The log of both contains what the client does, in order. *)
Theorem C73_log : forall c s w, sourced c s w -> of_client (so_log w) = trace s.
Proof. exact sourced_log. Qed.
Print Assumptions C73_log.
(* What the handler receives is the message the broker last sent with this identifier, and a message of QoS 2 at most
   once. *)
Theorem C73_once : forall c s w l1 l2 y i, config_ok c -> sourced c s w -> so_log w = l1 ++ Client (OHandle (PPublish y)) :: l2 -> pb_qos y <> AtMostOnce -> pb_pkid y = Some i ->
  exists x m, since i l1 x m /\ copy_of x y /\
    (pb_qos y = ExactlyOnce -> forall y', In (Client (OHandle (PPublish y'))) m -> pb_pkid y' = Some i -> pb_qos y' = AtMostOnce).
Proof. exact handed_meant. Qed.
Print Assumptions C73_once.
(* When the broker is told that a message of QoS 1 has arrived, the handler has been called with it. *)
Theorem C73_acknowledged : forall c s w l1 l2 x, config_ok c -> sourced c s w -> so_log w = l1 ++ Finish x :: l2 -> pb_qos x = AtLeastOnce ->
  exists i m y, since i l1 x m /\ copy_of x y /\ In (Client (OHandle (PPublish y))) m.
Proof. exact finish_acknowledged. Qed.
Print Assumptions C73_acknowledged.
(* The same for QoS 2, if the message was read when it was first sent, or the client has not connected again since. *)
Theorem C73_received_partial : forall c s w l1 l2 x, config_ok c -> sourced c s w -> so_log w = l1 ++ Finish x :: l2 -> pb_qos x = ExactlyOnce ->
  exists i m, since i l1 x m /\ (In (Client (ORead (PPublish x))) m \/ ~ In (Client OConnect) m -> exists y, copy_of x y /\ In (Client (OHandle (PPublish y))) m).
Proof. exact finish_received. Qed.
Print Assumptions C73_received_partial.
(* Otherwise the message may be lost: the client answers the second transmission, which has the DUP flag, and does not
   call the handler. *)
Theorem C73_received_refuted : forall rt, exists s w x, sourced (sc rt 10 10 false) s w /\ In (Finish x) (so_log w) /\ pb_qos x = ExactlyOnce /\
  forall y, ~ In (OHandle (PPublish y)) (trace s).
Proof. exact never_refuted. Qed.
Print Assumptions C73_received_refuted.

(* A message of each kind; the acknowledgements are lost with the connection and the messages sent again. *)
Example C73_case : forall rt, exists s w, sourced (sc rt 10 10 false) s w /\ finished (so_log w) = [s_msg false AtLeastOnce 1; s_msg false ExactlyOnce 2] /\
  handed (so_log w) = [s_msg false AtLeastOnce 1; s_msg false ExactlyOnce 2; s_msg true AtLeastOnce 1].
Proof. exact both_case. Qed.
