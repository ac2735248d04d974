(* C69, C70: the packets read are the bytes received, from the first one on; connect and run do what they can and no more. *)
From Verif Require Import Base VarInt Prims Props Codes Packets Options Session Client System SpecCodec SpecLenient SpecSession SpecRead SpecWire Scenario LoopCases ReadCases Wire WireCases SpecDecode SpecProgress DecodeFacts ProgressFacts ProgressCases.

(* C69.  Full statement: C69_partial without "sr_torn (w_net w) = false", which says that no read was abandoned
   in the middle of a packet; C69_smol is that for smol, C69_refuted the counterexample for tokio. *)
Theorem C69_partial : forall c chk xs w, Forall wbytes xs -> wexec c chk xs (winit c chk) = Some w -> nt_connected (y_net (w_sys w)) = true -> sr_torn (w_net w) = false ->
  exists a bs, ca_rc a = RSuccess /\ sr_all (w_net w) = concat bs ++ sr_buf (w_net w) ++ concat (sr_in (w_net w)) /\
    Forall2 (frame_of (cf_rt c)) (PConnAck a :: since_open (trace (w_sys w))) bs.
Proof. exact decoded_order. Qed.
Print Assumptions C69_partial.
Theorem C69_smol : forall c chk xs w, Forall wbytes xs -> wexec c chk xs (winit c chk) = Some w -> cf_rt c = Smol -> nt_connected (y_net (w_sys w)) = true ->
  exists a bs, ca_rc a = RSuccess /\ sr_all (w_net w) = concat bs ++ sr_buf (w_net w) ++ concat (sr_in (w_net w)) /\
    Forall2 (frame_of Smol) (PConnAck a :: since_open (trace (w_sys w))) bs.
Proof. exact decoded_smol. Qed.
Print Assumptions C69_smol.
Theorem C69_refuted : exists c chk xs w, config_ok c /\ Forall wbytes xs /\ wexec c chk xs (winit c chk) = Some w /\ nt_connected (y_net (w_sys w)) = true /\
  ~ exists a bs, ca_rc a = RSuccess /\ sr_all (w_net w) = concat bs ++ sr_buf (w_net w) ++ concat (sr_in (w_net w)) /\
      Forall2 (frame_of (cf_rt c)) (PConnAck a :: since_open (trace (w_sys w))) bs.
Proof. exact torn_decode. Qed.
Print Assumptions C69_refuted.
Example C69_case : forall rt, let w := wc_run rt false wc_message in
  Forall wbytes wc_message /\ wexec (lc_cfg rt) false wc_message (winit (lc_cfg rt) false) = Some w /\ nt_connected (y_net (w_sys w)) = true /\ sr_torn (w_net w) = false /\
  since_open (trace (w_sys w)) = [rc_pub].
Proof. exact decoded_case. Qed.

(* C70 *)
Theorem C70_bounded : forall c chk xs0 w, Forall wbytes xs0 -> wexec c chk xs0 (winit c chk) = Some w ->
  exists n, forall xs w', Forall own_work xs -> wexec c chk xs w = Some w' -> (length xs <= n)%nat.
Proof. exact bounded_work. Qed.
Print Assumptions C70_bounded.
Theorem C70_rest : forall c chk w, (forall x, own_work x -> wstep c chk x w = None) -> over w \/ waiting_for_more w.
Proof. exact rests. Qed.
Print Assumptions C70_rest.
Theorem C70_settles : forall c chk xs0 w, Forall wbytes xs0 -> wexec c chk xs0 (winit c chk) = Some w ->
  exists xs w', Forall own_work xs /\ wexec c chk xs w = Some w' /\ (over w' \/ waiting_for_more w').
Proof. exact settles. Qed.
Print Assumptions C70_settles.
Theorem C70_end_of_stream : forall c chk xs0 w xs w', wexec c chk xs0 (winit c chk) = Some w -> In [] (sr_in (in_use w)) ->
  Forall own_work xs -> wexec c chk xs w = Some w' -> (forall x, own_work x -> wstep c chk x w' = None) -> over w'.
Proof. exact end_ends. Qed.
Print Assumptions C70_end_of_stream.
(* a message and the end of the stream are there: the message is handed over, and run returns *)
Example C70_case : forall rt, let w := wc_run rt false pc_ends in
  Forall wbytes pc_ends /\ wexec (lc_cfg rt) false pc_ends (winit (lc_cfg rt) false) = Some w /\ ~ over w /\ In [] (sr_in (in_use w)) /\
  Forall own_work (pc_work rt) /\ wexec (lc_cfg rt) false (pc_work rt) w = Some (pc_done rt) /\ (forall x, own_work x -> wstep (lc_cfg rt) false x (pc_done rt) = None) /\
  exists l, trace (w_sys (pc_done rt)) = l ++ [OHandle rc_pub; OHandled; ORunEnd (inr Io)].
Proof. exact ends_case. Qed.
Example C70_waiting_case : forall rt, let w := wc_run rt false (pc_waits rt) in wexec (lc_cfg rt) false (pc_waits rt) (winit (lc_cfg rt) false) = Some w /\ ~ over w /\ waiting_for_more w /\
  forall x, own_work x -> wstep (lc_cfg rt) false x w = None.
Proof. exact waits_case. Qed.
