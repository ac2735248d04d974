(* C85: topics and payloads are opaque to the client. *)
From Verif Require Import Base VarInt Prims Props Codes Packets Options Session Client System SpecSession SpecNet SpecTrace SpecOpaque Scenario LoopCases OpaqueFacts OpaqueCases.

(* renaming topics, filters and payloads in everything that happens renames them in everything that follows, and changes nothing else: the same
   events are possible, and they lead to the same states, packets and times *)
Theorem C85_opaque : forall f g, same_len f -> same_len g -> forall c es,
  exec c (map (ren_event f g) es) (init c) = option_map (ren_sys f g) (exec c es (init c)).
Proof. exact opaque. Qed.
Print Assumptions C85_opaque.
Example C85_case : same_len oc_topic /\ same_len oc_payload /\ exists s s', exec (lc_cfg Smol) oc_events (init (lc_cfg Smol)) = Some s /\
  exec (lc_cfg Smol) (map (ren_event oc_topic oc_payload) oc_events) (init (lc_cfg Smol)) = Some s' /\ trace s <> trace s' /\
  In (OWrite FromResend (PPublish (Publish true AtLeastOnce false [116] (Some 2) no_props [112]))) (trace s) /\
  In (OWrite FromResend (PPublish (Publish true AtLeastOnce false [84] (Some 2) no_props [0]))) (trace s').
Proof. exact opaque_case. Qed.
(* while lengths do matter: with payloads twice as long the call is refused *)
Example C85_sharp : forall rt, let es := sc_connect false ++ sc_do (sc_pub AtLeastOnce) in
  is_some (exec (oc_cfg rt) es (init (oc_cfg rt))) = true /\ exec (oc_cfg rt) (map (ren_event (fun b => b) oc_double) es) (init (oc_cfg rt)) = None.
Proof. exact opaque_sharp. Qed.
