(* C57, C58, C59: what goes out. *)
From Verif Require Import Base VarInt Prims Props Codes Packets SpecCodec SpecOptions Options Session Client System SpecSession SpecNet SpecTrace SpecOut IdMore Scenario LoopCases OutMore OutLimits OutCases.

(* C57.  Full statement: C57_lawful_partial without the conditions in [call_ok] that Rust's types do not ensure, and
   with the rules of MQTT 5 for topics in [lawful].  The _refuted theorems are why it cannot hold: the client sends
   such requests as they are. *)
Theorem C57_lawful_partial : forall c es s x p, config_ok c -> built c -> Forall event_ok es -> exec c es (init c) = Some s -> In (OWrite x p) (trace s) ->
  lawful x p /\ encodes p (wire_bytes (cf_rt c) p).
Proof. exact lawful_bytes. Qed.
Print Assumptions C57_lawful_partial.
Example C57_lawful_case : forall rt, config_ok (lc_cfg rt) /\ built (lc_cfg rt) /\ Forall event_ok (oc_events rt) /\
  exists s, exec (lc_cfg rt) (oc_events rt) (init (lc_cfg rt)) = Some s /\ forall x, exists p, In (OWrite x p) (trace s).
Proof. exact lawful_case. Qed.
(* the same for packets whose write failed *)
Theorem C57_tried_partial : forall c es s x p, config_ok c -> built c -> Forall event_ok es -> exec c es (init c) = Some s -> In (OWriteFail x p) (trace s) -> lawful x p.
Proof. exact lawful_tried. Qed.
Print Assumptions C57_tried_partial.
(* a topic name with a wildcard, 3.3.2.1 *)
Theorem C57_wildcard_refuted : forall rt, exists es s x, config_ok (lc_cfg rt) /\ built (lc_cfg rt) /\ Forall event_ok es /\ exec (lc_cfg rt) es (init (lc_cfg rt)) = Some s /\
  In (OWrite FromClient (PPublish x)) (trace s) /\ In 35 (pb_topic x).
Proof. exact wild_case. Qed.
Print Assumptions C57_wildcard_refuted.
(* neither a topic name nor a topic alias, 3.3.2.3.4 *)
Theorem C57_topic_refuted : forall rt, exists es s x, config_ok (lc_cfg rt) /\ built (lc_cfg rt) /\ Forall event_ok es /\ exec (lc_cfg rt) es (init (lc_cfg rt)) = Some s /\
  In (OWrite FromClient (PPublish x)) (trace s) /\ pb_topic x = [] /\ topic_alias (pb_props x) = None.
Proof. exact empty_case. Qed.
Print Assumptions C57_topic_refuted.
(* SUBSCRIBE that subscribes to nothing, 3.8.3 *)
Theorem C57_subscribe_refuted : forall rt, exists s, config_ok (lc_cfg rt) /\ reachable (lc_cfg rt) s /\ In (OWrite FromClient (PSubscribe (Subscribe 1 no_props []))) (trace s).
Proof. exact no_topic_case. Qed.
Print Assumptions C57_subscribe_refuted.

(* C58.  Full statement: the first three for both clients without the condition of C58_stops_partial. *)
Theorem C58_framed : forall c s k, config_ok c -> reachable c s -> In k (sendings (trace s)) -> framed k.
Proof. exact all_framed. Qed.
Print Assumptions C58_framed.
Theorem C58_stops_partial : forall c s k, config_ok c -> reachable c s -> In k (sendings (trace s)) -> cf_rt c = Smol \/ (forall p, ~ In (OWriteFail FromResend p) (trace s)) -> stops k.
Proof. exact all_stop. Qed.
Print Assumptions C58_stops_partial.
Theorem C58_parsed_partial : forall c es s k, config_ok c -> built c -> Forall event_ok es -> exec c es (init c) = Some s -> In k (sendings (trace s)) ->
  Forall2 encodes (sent_packets k) (map (wire_bytes (cf_rt c)) (sent_packets k)) /\
  forall qs cs rest, Forall packet_ok qs -> Forall2 encodes qs cs -> concat cs ++ rest = sent_bytes (cf_rt c) k -> exists more, sent_packets k = qs ++ more.
Proof. exact sent_parsed. Qed.
Print Assumptions C58_parsed_partial.
Example C58_case : forall rt, exists s, config_ok (lc_cfg rt) /\ reachable (lc_cfg rt) s /\ (forall p, ~ In (OWriteFail FromResend p) (trace s)) /\ map kinds (sendings (trace s)) =
  [[(TConnect, true); (TPublish, true); (TPublish, true); (TSubscribe, true); (TPubRel, true); (TPublish, true)];
   [(TConnect, true); (TPublish, true); (TPublish, true); (TPubRel, true); (TDisconnect, true)];
   [(TConnect, true)]].
Proof. exact lines_case. Qed.
(* tokio goes on writing, and the connection stays in use, after a retransmission of which only a part was written *)
Theorem C58_stops_refuted : exists s k, config_ok (lc_cfg Tokio) /\ reachable (lc_cfg Tokio) s /\ In k (sendings (trace s)) /\ ~ stops k /\
  ln_used (lines_of (trace s)) = Some k /\ nt_connected (y_net s) = true.
Proof. exact stops_witness. Qed.
Print Assumptions C58_stops_refuted.

(* C59.  Full statement: the client keeps every limit that the broker announces, whatever its own options are. *)
Theorem C59_receive_maximum_partial : forall c s a, config_ok c -> reachable c s -> announced (trace s) = Some a -> send_max (cf_opts c) <= quota a ->
  unfinished (now_ledger c s) <= quota a.
Proof. exact quota_kept. Qed.
Print Assumptions C59_receive_maximum_partial.
Theorem C59_size_partial : forall c es s a x p, config_ok c -> built c -> Forall event_ok es -> exec c es (init c) = Some s -> In (OWrite x p) (trace s) ->
  x <> FromConnect -> (forall d, x = FromClient -> p <> PDisconnect d) -> size_limit a (N.max 6 (max_packet (cf_opts c) + 5)) ->
  size_limit a (len (wire_bytes (cf_rt c) p)).
Proof. exact size_limit_kept. Qed.
Print Assumptions C59_size_partial.
(* the client's own maximum, which does not count the fixed header *)
Theorem C59_own_size : forall c es s x p, config_ok c -> built c -> Forall event_ok es -> exec c es (init c) = Some s -> In (OWrite x p) (trace s) ->
  x <> FromConnect -> (forall d, x = FromClient -> p <> PDisconnect d) -> len (wire_bytes (cf_rt c) p) <= N.max 6 (max_packet (cf_opts c) + 5).
Proof. exact size_kept. Qed.
Print Assumptions C59_own_size.
Example C59_case : forall rt, exists es s a, config_ok (lc_cfg rt) /\ built (lc_cfg rt) /\ Forall event_ok es /\ exec (lc_cfg rt) es (init (lc_cfg rt)) = Some s /\
  announced (trace s) = Some a /\ send_max (cf_opts (lc_cfg rt)) <= quota a /\ unfinished (now_ledger (lc_cfg rt) s) = 3 /\
  In (OWrite FromClient (PPublish (lc_pub false AtLeastOnce (Some 1)))) (trace s) /\ size_limit a (N.max 6 (max_packet (cf_opts (lc_cfg rt)) + 5)).
Proof. exact limits_case. Qed.
(* a broker that announces receive maximum 1, maximum QoS 0, no retained messages and a maximum packet size of 5 *)
Theorem C59_refuted : forall rt, exists es s x, config_ok (lc_cfg rt) /\ built (lc_cfg rt) /\ Forall event_ok es /\ exec (lc_cfg rt) es (init (lc_cfg rt)) = Some s /\
  announced (trace s) = Some oc_limits /\ In (OWrite FromClient (PPublish x)) (trace s) /\
  quota oc_limits < unfinished (now_ledger (lc_cfg rt) s) /\ top_qos oc_limits = AtMostOnce /\ pb_qos x = AtLeastOnce /\
  ~ may_retain oc_limits /\ pb_retain x = true /\ ~ size_limit oc_limits (len (wire_bytes rt (PPublish x))).
Proof. exact limits_witness. Qed.
Print Assumptions C59_refuted.
(* DISCONNECT is not measured *)
Theorem C59_disconnect_refuted : forall rt, exists s d, config_ok (oc_small rt) /\ reachable (oc_small rt) s /\ In (OWrite FromClient (PDisconnect d)) (trace s) /\
  packet_ok (PDisconnect d) /\ max_packet (cf_opts (oc_small rt)) = 5 /\ 5 + 5 < len (wire_bytes rt (PDisconnect d)).
Proof. exact bye_witness. Qed.
Print Assumptions C59_disconnect_refuted.
