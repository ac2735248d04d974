(* C83: two brokers that the client cannot tell apart *)
From Verif Require Import Base VarInt Prims Props Codes Packets Options Session Client System SpecSession SpecNet SpecTrace SpecBlind Scenario LoopCases BlindFacts.

(* one allows everything; the other one allows a single exchange, packets of 10 bytes and no QoS 2, and refuses the subscription *)
Definition bl_events (a s m : packet) : list event :=
  [EConnect; EWrite true; EPacket a; EHandled; EWrites [] true; ERun] ++ sc_do sc_sub ++ [EPacket s; EHandled; EWrite true] ++ sc_do (sc_pub ExactlyOnce) ++ sc_do (sc_pub ExactlyOnce) ++
  [EPacket m; EHandled; EWrite true].
Definition bl_free : list event := bl_events (sc_connack false) (PSubAck (SubAck 1 no_props [RGrantedQoS0])) (PPublish (lc_pub false AtLeastOnce (Some 7))).
Definition bl_strict : list event :=
  bl_events (PConnAck (ConnAck false RSuccess (set_prop ReceiveMaximum (V16 1) (set_prop MaximumPacketSize (V32 10) no_props))))
    (PSubAck (SubAck 1 no_props [RNotAuthorized])) (PPublish (Publish true AtLeastOnce true [97; 98] (Some 7) no_props [1; 2; 3])).
Definition bl_writes (s : sys) : list out := filter is_write (trace s).
Lemma blind_case : exists s s', exec (lc_cfg Smol) bl_free (init (lc_cfg Smol)) = Some s /\ exec (lc_cfg Smol) bl_strict (init (lc_cfg Smol)) = Some s' /\ bl_free <> bl_strict /\
  map event_seen bl_strict = map event_seen bl_free /\ bl_writes s' = bl_writes s /\ len (bl_writes s) = 5 /\ trace s <> trace s'.
Proof.
  exists (run_to (lc_cfg Smol) bl_free), (run_to (lc_cfg Smol) bl_strict).
  split; [vm_compute; reflexivity|]. split; [vm_compute; reflexivity|]. split; [discriminate|]. split; [reflexivity|]. split; [vm_compute; reflexivity|]. split; [vm_compute; reflexivity|].
  vm_compute. discriminate.
Qed.

(* what is looked at does matter: these pairs differ in one respect only *)
Definition bl_pairs : list (list event * packet * packet * list event) :=
  let up := sc_connect false in
  let pub d q i := PPublish (lc_pub d q i) in
  [(up, pub false AtMostOnce None, pub false AtLeastOnce (Some 7), [EHandled; EWrite true]);
   (up, pub false AtLeastOnce (Some 7), pub false AtLeastOnce (Some 8), [EHandled; EWrite true]);
   (up, pub false ExactlyOnce (Some 7), pub true ExactlyOnce (Some 7), [EHandled; EWrite true]);
   (up, PPubRel (sc_ack 7), PPubRel (sc_ack 8), [EHandled; EWrite true]);
   (up ++ sc_do (sc_pub ExactlyOnce), PPubRec (sc_ack 1), PPubRec (Ack 1 RUnspecifiedError no_props), [EHandled; EWrite true]);
   (up ++ sc_do (sc_pub AtLeastOnce) ++ [EReadErr Io; EConnect; EWrite true], sc_connack true, sc_connack false, [EHandled; EWrites [] true]);
   ([EConnect; EWrite true], PConnAck (ConnAck false RSuccess no_props), PConnAck (ConnAck false RSuccess (set_prop ServerKeepAlive (V16 5) no_props)), [EHandled; EWrites [] true; ERun; ETick (from_secs 5); ETimer; EWrite true])].
Lemma blind_sharp rt : Forall (fun '(pre, p, p', post) => seen p <> seen p' /\
  option_map bl_writes (exec (lc_cfg rt) (pre ++ EPacket p :: post) (init (lc_cfg rt))) <> option_map bl_writes (exec (lc_cfg rt) (pre ++ EPacket p' :: post) (init (lc_cfg rt)))) bl_pairs.
Proof. unfold bl_pairs. repeat constructor; try discriminate; destruct rt; vm_compute; discriminate. Qed.
