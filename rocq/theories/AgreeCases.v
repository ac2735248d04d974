(* Concrete executions for P_Agree.v. *)
From Verif Require Import Base VarInt Prims Props Codes Packets Options Session Client System SpecSession SpecNet SpecTrace SpecAgree Scenario LoopCases.

(* A message is published and the connection breaks; on the next one it is sent again and acknowledged, and a message
   arrives and is acknowledged. smol has one step more: it writes nothing after the acknowledgement. *)
Definition ag_opts : options := cf_opts (lc_cfg Tokio).
Definition ag_before : list event := sc_connect false ++ sc_do (sc_pub AtLeastOnce) ++ [EReadErr Io; ETick 5] ++
  [EConnect; EWrite true; EPacket (sc_connack true); EHandled; EWrites [true] true; ERun; EPacket (PPubAck (sc_ack 1)); EHandled].
Definition ag_after : list event := [EPacket (PPublish (lc_pub false AtLeastOnce (Some 7))); EHandled; EWrite true].
Definition ag_events (rt : runtime) : list event := ag_before ++ match rt with Tokio => [] | Smol => [EWrite true] end ++ ag_after.
Lemma agree_case : auth_paired ag_opts /\ (forall rt, Forall steady (ag_events rt)) /\ exists x,
  (forall rt, exists s, exec (Config rt ag_opts) (ag_events rt) (init (Config rt ag_opts)) = Some s /\ outcome s = x) /\
  existsb (fun o => match snd o with OWrite FromResend (PPublish _) => true | _ => false end) (snd x) = true /\
  existsb (fun o => match snd o with OWrite FromReply (PPubAck _) => true | _ => false end) (snd x) = true.
Proof.
  split; [intros H; exact H|]. split; [intros rt; destruct rt; repeat constructor|].
  exists (outcome (run_to (Config Tokio ag_opts) (ag_events Tokio))). split; [|split; vm_compute; reflexivity].
  intros rt. exists (run_to (Config rt ag_opts) (ag_events rt)). destruct rt; (split; vm_compute; reflexivity).
Qed.

(* authentication data and no method *)
Definition ag_auth : options :=
  let o := sc_opts 10 10 false in
  Options (op_client_id o) (op_keep_alive o) (op_clean_start o) (op_username o) (op_password o) (op_session_expiry o) (op_receive_max o) (op_send_max o)
    (op_max_packet o) (op_topic_alias_max o) (op_request_response o) (op_request_problem o) (op_user_props o) None (Some [1]) (op_will o).
Lemma agree_auth : ~ auth_paired ag_auth /\ exists t s,
  exec (Config Tokio ag_auth) [EConnect; EWrite true; EPacket (sc_connack false); EHandled; EWrites [] true] (init (Config Tokio ag_auth)) = Some t /\ In (OConnectEnd None) (trace t) /\
  exec (Config Smol ag_auth) [EConnect; EWrite true] (init (Config Smol ag_auth)) = Some s /\ In (OConnectEnd (Some (SerializationError AuthDataWithoutAuthMethod))) (trace s).
Proof.
  split; [intros H; now apply H|].
  exists (run_to (Config Tokio ag_auth) [EConnect; EWrite true; EPacket (sc_connack false); EHandled; EWrites [] true]), (run_to (Config Smol ag_auth) [EConnect; EWrite true]).
  repeat apply conj; try (vm_compute; reflexivity); vm_compute; tauto.
Qed.

(* a retransmission cannot be written: tokio does not notice *)
Definition ag_torn (oks : list bool) (ok : bool) : list event := sc_connect false ++ sc_do (sc_pub AtLeastOnce) ++ [EReadErr Io; EConnect; EWrite true; EPacket (sc_connack true); EHandled; EWrites oks ok].
Lemma agree_torn : ~ steady (EWrites [false] true) /\ ~ steady (EWrites [] false) /\ exists t s,
  exec (Config Tokio ag_opts) (ag_torn [false] true) (init (Config Tokio ag_opts)) = Some t /\ last (trace t) OHandled = OConnectEnd None /\
  exec (Config Smol ag_opts) (ag_torn [] false) (init (Config Smol ag_opts)) = Some s /\ last (trace s) OHandled = OConnectEnd (Some Io).
Proof.
  split; [intros [_ H]; inversion H; discriminate|]. split; [intros [H _]; discriminate|].
  exists (run_to (Config Tokio ag_opts) (ag_torn [false] true)), (run_to (Config Smol ag_opts) (ag_torn [] false)).
  repeat apply conj; vm_compute; reflexivity.
Qed.
