(* Concrete executions for P_Swap.v. *)
From Verif Require Import Base VarInt Prims Props Codes Packets Options Session Client System SpecSession SpecNet SpecTrace SpecSwap Scenario LoopCases.

(* a call waits to put its message in the channel; meanwhile a message arrives, is handled and acknowledged *)
Definition sw_before : list event := sc_connect false ++ [ECall (sc_pub AtLeastOnce)].
Definition sw_meanwhile : list event := [EPacket (PPublish (lc_pub false AtLeastOnce (Some 7))); EHandled; EWrite true].
Definition sw_after : list event := [EOutgoing; EWrite true].
Lemma swap_case rt : config_ok (lc_cfg rt) /\ handle_event (ESend 0) /\ Forall network_event sw_meanwhile /\
  exists s t t', exec (lc_cfg rt) (sw_before ++ ESend 0 :: sw_meanwhile ++ sw_after) (init (lc_cfg rt)) = Some t /\
    exec (lc_cfg rt) (sw_before ++ sw_meanwhile) (init (lc_cfg rt)) = Some s /\
    exec (lc_cfg rt) (sw_before ++ sw_meanwhile ++ ESend 0 :: sw_after) (init (lc_cfg rt)) = Some t' /\ trace t <> trace t' /\
    existsb (fun o => match o with OWrite FromClient (PPublish _) => true | _ => false end) (trace t) = true.
Proof.
  split; [destruct rt; (split; [split; vm_compute; discriminate|vm_compute; discriminate])|]. split; [exact I|]. split; [repeat constructor|].
  exists (run_to (lc_cfg rt) (sw_before ++ sw_meanwhile)), (run_to (lc_cfg rt) (sw_before ++ ESend 0 :: sw_meanwhile ++ sw_after)), (run_to (lc_cfg rt) (sw_before ++ sw_meanwhile ++ ESend 0 :: sw_after)).
  destruct rt; repeat apply conj; try (vm_compute; reflexivity); vm_compute; discriminate.
Qed.

(* the last handle is dropped, or the acknowledgement of a message arrives *)
Definition sw_sent : list event := sc_connect false ++ sc_do (sc_pub AtLeastOnce).
Definition sw_ack : event := EPacket (PPubAck (sc_ack 1)).
Lemma swap_drop rt : let c := lc_cfg rt in exists s sa sb t t', config_ok c /\ reachable c s /\ network_event sw_ack /\
  step c EDropClients s = Some sa /\ step c sw_ack s = Some sb /\ step c sw_ack sa = Some t /\ step c EDropClients sb = Some t' /\ ~ alike t t' /\
  In (ORunEnd (inr (HandlerErr (PacketIdChannelError 1)))) (trace t) /\ In (OHandle (PPubAck (sc_ack 1))) (trace t').
Proof.
  exists (run_to (lc_cfg rt) sw_sent), (run_to (lc_cfg rt) (sw_sent ++ [EDropClients])), (run_to (lc_cfg rt) (sw_sent ++ [sw_ack])),
    (run_to (lc_cfg rt) (sw_sent ++ [EDropClients; sw_ack])), (run_to (lc_cfg rt) (sw_sent ++ [sw_ack; EDropClients])).
  split; [destruct rt; (split; [split; vm_compute; discriminate|vm_compute; discriminate])|]. split; [exists sw_sent; destruct rt; vm_compute; reflexivity|]. split; [exact I|].
  repeat apply conj; try (destruct rt; vm_compute; reflexivity).
  - intros (_ & _ & _ & _ & H & _). destruct rt; vm_compute in H; discriminate.
  - destruct rt; vm_compute; tauto.
  - destruct rt; vm_compute; tauto.
Qed.
