(* C86: it does not matter which of the client's tasks the executor lets go first. *)
From Verif Require Import Base VarInt Prims Props Codes Packets Options Session Client System SpecSession SpecNet SpecTrace SpecSwap Scenario LoopCases SwapFacts SwapCases.

(* a call of a handle can make a step and so can the network: they can make them in either order, and end up in the same place *)
Theorem C86_swap : forall c a b s sa sb, config_ok c -> reachable c s -> handle_event a -> network_event b ->
  step c a s = Some sa -> step c b s = Some sb ->
  exists t t', step c b sa = Some t /\ step c a sb = Some t' /\ alike t t'.
Proof. exact swap. Qed.
Print Assumptions C86_swap.

(* a step of a call can be put off until the network has made any steps that it could have made without it; and the whole execution goes on as before *)
Theorem C86_delay : forall c a es bs fs s t, config_ok c -> handle_event a -> Forall network_event bs ->
  exec c (es ++ a :: bs ++ fs) (init c) = Some t -> exec c (es ++ bs) (init c) = Some s ->
  exists t', exec c (es ++ bs ++ a :: fs) (init c) = Some t' /\ alike t t'.
Proof. exact delay. Qed.
Print Assumptions C86_delay.

(* and it can be made earlier, before any steps of the network, if it was possible then *)
Theorem C86_advance : forall c a es bs fs s t, config_ok c -> handle_event a -> Forall network_event bs ->
  exec c (es ++ bs ++ a :: fs) (init c) = Some t -> exec c (es ++ [a]) (init c) = Some s ->
  exists t', exec c (es ++ a :: bs ++ fs) (init c) = Some t' /\ alike t t'.
Proof. exact advance. Qed.
Print Assumptions C86_advance.

Example C86_case : forall rt, config_ok (lc_cfg rt) /\ handle_event (ESend 0) /\ Forall network_event sw_meanwhile /\
  exists s t t', exec (lc_cfg rt) (sw_before ++ ESend 0 :: sw_meanwhile ++ sw_after) (init (lc_cfg rt)) = Some t /\
    exec (lc_cfg rt) (sw_before ++ sw_meanwhile) (init (lc_cfg rt)) = Some s /\
    exec (lc_cfg rt) (sw_before ++ sw_meanwhile ++ ESend 0 :: sw_after) (init (lc_cfg rt)) = Some t' /\ trace t <> trace t' /\
    existsb (fun o => match o with OWrite FromClient (PPublish _) => true | _ => false end) (trace t) = true.
Proof. exact swap_case. Qed.
(* dropping the last handle is different: whether an acknowledgement is handled or ends run depends on which comes first *)
Example C86_sharp : forall rt, let c := lc_cfg rt in exists s sa sb t t', config_ok c /\ reachable c s /\ network_event sw_ack /\
  step c EDropClients s = Some sa /\ step c sw_ack s = Some sb /\ step c sw_ack sa = Some t /\ step c EDropClients sb = Some t' /\ ~ alike t t' /\
  In (ORunEnd (inr (HandlerErr (PacketIdChannelError 1)))) (trace t) /\ In (OHandle (PPubAck (sc_ack 1))) (trace t').
Proof. exact swap_drop. Qed.
