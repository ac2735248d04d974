(* C61, C62: the future of connect or run is dropped. *)
From Verif Require Import Base VarInt Prims Props Codes Packets SpecCodec Options Session Client System SpecSession SpecNet SpecTrace SpecTime SpecOut Scenario
  Cancel SpecCancel CancelFacts CancelMore LoopCases TimeCases CancelCases.

(* C61.  Full statement: the three theorems for every execution with drops ([cexec]) instead of [careful] ones, and no
   message is lost (C61_handler_refuted). *)
Theorem C61_like_failure_partial : forall c s stale, careful c s stale -> exists s', reachable c s' /\
  y_state s' = y_state s /\ y_wait s' = y_wait s /\ y_chan s' = y_chan s /\ y_pc s' = y_pc s /\ y_now s' = y_now s /\ shown (y_log s') = shown (y_log s).
Proof. exact careful_like. Qed.
Print Assumptions C61_like_failure_partial.
Theorem C61_identifiers_partial : forall c s stale, config_ok c -> careful c s stale ->
  NoDup (req_ids (y_wait s ++ y_chan s) ++ req_ids (lg_sent (now_ledger c s)) ++ lg_rel (now_ledger c s) ++ pool_of s).
Proof. exact careful_ids. Qed.
Print Assumptions C61_identifiers_partial.
Theorem C61_once_partial : forall c s stale i p1 p2 l1 m l2, config_ok c -> careful c s stale ->
  trace s = l1 ++ OHandle p1 :: m ++ OHandle p2 :: l2 -> q2 i p1 -> q2 i p2 -> exists o, In o m /\ releases i o = true.
Proof. exact careful_once. Qed.
Print Assumptions C61_once_partial.
Example C61_case : forall rt, exists s l1 m l2, config_ok (lc_cfg rt) /\ careful (lc_cfg rt) s false /\ selecting s = true /\
  trace s = l1 ++ OHandle (cc_msg false ExactlyOnce) :: m ++ OHandle (cc_msg false ExactlyOnce) :: l2 /\
  q2 1 (cc_msg false ExactlyOnce) /\ req_ids (lg_sent (now_ledger (lc_cfg rt) s)) = [1] /\ req_ids (y_wait s) = [3] /\ pool_of s = [4; 5; 6; 7; 8; 9; 10].
Proof. exact again_case. Qed.

(* the handler was dropped in the middle; the message is acknowledged and never handed over again *)
Theorem C61_handler_refuted : forall rt, exists s l1 l2, config_ok (lc_cfg rt) /\ careful (lc_cfg rt) s false /\ selecting s = true /\
  trace s = l1 ++ OHandle (cc_msg false ExactlyOnce) :: OConnect :: l2 /\
  (forall x, ~ In (OHandle (PPublish x)) l2) /\ In (OWrite FromReply (PPubComp (okay 1))) l2.
Proof. exact half_case. Qed.
Print Assumptions C61_handler_refuted.
(* run is called again on the same connection *)
Theorem C61_ack_refuted : forall rt, exists xs s, config_ok (lc_cfg rt) /\ cexec (lc_cfg rt) xs (init (lc_cfg rt)) = Some s /\ selecting s = true /\
  In (OHandle (cc_msg false AtLeastOnce)) (trace s) /\ In OHandled (trace s) /\ (forall a o, ~ In (OWrite o (PPubAck a)) (trace s)) /\
  existsb is_failed (trace s) = false /\ len (filter is_connects (trace s)) = 1.
Proof. exact noack_case. Qed.
Print Assumptions C61_ack_refuted.
Theorem C61_request_refuted : forall rt, exists xs s, config_ok (lc_cfg rt) /\ cexec (lc_cfg rt) xs (init (lc_cfg rt)) = Some s /\ selecting s = true /\
  In (OAccept (cc_msg false AtLeastOnce)) (trace s) /\ y_chan s = [] /\ y_wait s = [] /\ existsb is_client (trace s) = false /\
  pool_of s = [2; 3; 4; 5; 6; 7; 8; 9; 10] /\ existsb is_failed (trace s) = false /\ len (filter is_connects (trace s)) = 1.
Proof. exact lost_case. Qed.
Print Assumptions C61_request_refuted.
(* smol: a PINGREQ of the old connection ends the new one at once, on which none was sent *)
Theorem C61_ping_refuted : exists xs s l1 l2, config_ok (tc_cfg Smol) /\ cexec (tc_cfg Smol) xs (init (tc_cfg Smol)) = Some s /\
  y_log s = l1 ++ (from_secs 120, OConnect) :: l2 /\ Forall (fun x => fst x = from_secs 120) l2 /\ In (OConnectEnd None) (map snd l2) /\
  ~ In (OWrite FromTimer PPingReq) (map snd l2) /\ last (map snd l2) OHandled = ORunEnd (inl KeepAliveTimeout).
Proof. exact ping_case. Qed.
Print Assumptions C61_ping_refuted.

(* C62.  Full statement: a write that was cut may be followed by others. *)
Theorem C62_prefix_partial : forall rt ls ps e, Forall (fun p => packet_ok p /\ encodes p (wire_bytes rt p)) (concat ls ++ ps) ->
  forall qs cs rest, Forall packet_ok qs -> Forall2 encodes qs cs -> concat cs ++ rest = sd_sent (send_all rt (map (fun ps => (ps, Complete)) ls ++ [(ps, e)])) ->
  exists more, concat ls ++ ps = qs ++ more.
Proof. exact sent_parsed_cut. Qed.
Print Assumptions C62_prefix_partial.
Theorem C62_complete : forall rt ls, sd_sent (send_all rt (map (fun ps => (ps, Complete)) ls)) = concat (map (wire_bytes rt) (concat ls)) /\
  sd_buf (send_all rt (map (fun ps => (ps, Complete)) ls)) = [].
Proof. exact sent_complete. Qed.
Print Assumptions C62_complete.
Example C62_case : forall rt, Forall (fun p => packet_ok p /\ encodes p (wire_bytes rt p)) (concat [[cc_pub [97; 98]]; [cc_pub [99; 100]]] ++ [cc_pub [101]]).
Proof. exact whole_case. Qed.
(* "ab" is cut before its last byte, then "cd" is written: whoever reads finds a publish "a0" *)
Theorem C62_refuted : forall rt, exists ps cs rest q, let l := [([cc_pub [97; 98]], Cut 7); ([cc_pub [99; 100]], Complete)] in
  Forall packet_ok ps /\ Forall2 encodes ps cs /\ concat cs ++ rest = sd_sent (send_all rt l) /\ In q ps /\ ~ In q (concat (map fst l)).
Proof. exact torn_case. Qed.
Print Assumptions C62_refuted.
