(* Concrete executions for P_Opaque.v. *)
From Verif Require Import Base VarInt Prims Props Codes Packets Options Session Client System SpecSession SpecNet SpecTrace SpecOpaque Scenario LoopCases.

(* "t" becomes "T" and every other byte too; payloads become zeros *)
Definition oc_topic (b : bytes) : bytes := map (fun _ => 84) b.
Definition oc_payload (b : bytes) : bytes := map (fun _ => 0) b.
Lemma oc_same : same_len oc_topic /\ same_len oc_payload.
Proof. split; intros b; unfold len, oc_topic, oc_payload; now rewrite map_length. Qed.
(* a subscription, a message in, a message out that is sent again on the next connection *)
Definition oc_events : list event :=
  sc_connect false ++ sc_do sc_sub ++ [EPacket (PSubAck (SubAck 1 no_props [RGrantedQoS0])); EHandled; EWrite true] ++
  [EPacket (PPublish (lc_pub false AtLeastOnce (Some 7))); EHandled; EWrite true] ++ sc_do (sc_pub AtLeastOnce) ++
  [EReadErr Io; EConnect; EWrite true; EPacket (sc_connack true); EHandled; EWrites [true] true].
Lemma opaque_case : same_len oc_topic /\ same_len oc_payload /\ exists s s', exec (lc_cfg Smol) oc_events (init (lc_cfg Smol)) = Some s /\
  exec (lc_cfg Smol) (map (ren_event oc_topic oc_payload) oc_events) (init (lc_cfg Smol)) = Some s' /\ trace s <> trace s' /\
  In (OWrite FromResend (PPublish (Publish true AtLeastOnce false [116] (Some 2) no_props [112]))) (trace s) /\
  In (OWrite FromResend (PPublish (Publish true AtLeastOnce false [84] (Some 2) no_props [0]))) (trace s').
Proof.
  split; [apply oc_same|]. split; [apply oc_same|]. exists (run_to (lc_cfg Smol) oc_events), (run_to (lc_cfg Smol) (map (ren_event oc_topic oc_payload) oc_events)).
  split; [vm_compute; reflexivity|]. split; [vm_compute; reflexivity|]. split; [vm_compute; discriminate|].
  split; vm_compute; tauto.
Qed.
(* lengths do matter: the maximum packet size is 7 *)
Definition oc_cfg (rt : runtime) : config :=
  Config rt (match set_maximum_packet_size 7 (sc_opts 10 10 false) with Some o => o | None => sc_opts 10 10 false end).
Definition oc_double (b : bytes) : bytes := b ++ b.
Lemma opaque_sharp rt : let es := sc_connect false ++ sc_do (sc_pub AtLeastOnce) in
  is_some (exec (oc_cfg rt) es (init (oc_cfg rt))) = true /\ exec (oc_cfg rt) (map (ren_event (fun b => b) oc_double) es) (init (oc_cfg rt)) = None.
Proof. destruct rt; vm_compute; auto. Qed.
