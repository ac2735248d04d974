(* Small configurations and event lists for examples and counterexamples. *)
From Verif Require Import Base VarInt Prims Props Codes Packets Options Session Client System SpecSession.

Definition sc_opts (send receive : N) (clean : bool) : options :=
  set_send_maximum send (set_receive_maximum receive (set_clean_start clean (new_options []))).
Definition sc (rt : runtime) (send receive : N) (clean : bool) : config := Config rt (sc_opts send receive clean).

Definition run_to (c : config) (es : list event) : sys :=
  match exec c es (init c) with Some s => s | None => init c end.
Lemma run_reachable c es : is_some (exec c es (init c)) = true -> reachable c (run_to c es).
Proof. intros H. exists es. unfold run_to. destruct (exec c es (init c)); [reflexivity|discriminate]. Qed.

(* topic "t", payload "p" *)
Definition sc_topic : bytes := [116].
Definition sc_payload : bytes := [112].
Definition sc_pub (q : qos) : call := CPublish q false sc_topic sc_payload no_props.
Definition sc_sub : call := CSubscribe [(sc_topic, SOpts RhZero false false AtMostOnce)] no_props.
Definition sc_unsub : call := CUnsubscribe [sc_topic] no_props.
(* a client whose maximum packet size is too small for any publish *)
Definition sc_small : config :=
  Config Tokio (match set_maximum_packet_size 5 (sc_opts 1 1 true) with Some o => o | None => sc_opts 1 1 true end).
Definition sc_connack (present : bool) : packet := PConnAck (ConnAck present RSuccess no_props).
(* connect and run *)
Definition sc_connect (present : bool) : list event :=
  [EConnect; EWrite true; EPacket (sc_connack present); EHandled; EWrites [] true; ERun].
(* a call that is accepted and written *)
Definition sc_do (k : call) : list event := [ECall k; ESend 0; EOutgoing; EWrite true].
(* an incoming packet for which the handler is called and nothing is answered (tokio) *)
Definition sc_in (p : packet) : list event := [EPacket p; EHandled].
(* ... and something is answered *)
Definition sc_in_reply (p : packet) : list event := [EPacket p; EHandled; EWrite true].
Definition sc_ack (i : N) : ack := Ack i RSuccess no_props.
