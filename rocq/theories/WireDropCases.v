(* Concrete executions for P_WireDrop.v. *)
From Verif Require Import Base VarInt Prims Props Codes Packets Options Session Client System SpecCodec SpecSession SpecRead SpecWire SmolStream TokioRead Scenario IdMore LoopCases ReadCases Wire WireFacts WireMore WireCases WireDrop.

Definition dr_run (rt : runtime) (chk : bool) (xs : list devent) : wire :=
  match dexec (lc_cfg rt) chk xs (winit (lc_cfg rt) chk) with Some w => w | None => winit (lc_cfg rt) chk end.
Lemma dr_reach rt chk xs : is_some (dexec (lc_cfg rt) chk xs (winit (lc_cfg rt) chk)) = true -> dreachable (lc_cfg rt) chk (dr_run rt chk xs).
Proof. intros H. exists xs. unfold dr_run. destruct (dexec _ _ _ _); [reflexivity|discriminate H]. Qed.
Definition dr_wire := map DWire.
(* a connect is dropped, then one succeeds; run is dropped while it waits, then while the handler works on the message *)
Definition dr_message : list devent :=
  dr_wire [WEvent EConnect; WEvent (EWrite true); WArrive true (firstn 2 wc_connack)] ++ [DDrop] ++ dr_wire (wc_open wc_connack) ++ [DDrop] ++
  dr_wire [WEvent ERun; WArrive false (firstn 3 wc_pub); WRead; WArrive false (skipn 3 wc_pub); WRead] ++ [DDrop] ++ dr_wire [WEvent ERun].
Lemma drop_case : forall rt, let w := dr_run rt false dr_message in
  config_ok (lc_cfg rt) /\ dreachable (lc_cfg rt) false w /\ Forall dbytes dr_message /\ nt_connected (y_net (w_sys w)) = true /\ Forall2 sent [rc_connack; rc_pub] [wc_connack; wc_pub] /\
  sr_all (w_net w) ++ [] = concat [wc_connack; wc_pub] /\ sr_torn (w_net w) = false /\ concat (sr_in (w_net w)) = [] /\ y_pc (w_sys w) = PSelect 0 /\ w_dead w = false /\
  messages_since_open (trace (w_sys w)) = [rc_pub].
Proof.
  intros rt w. split; [destruct rt; cfg|]. split; [apply dr_reach; destruct rt; vm_compute; reflexivity|]. split; [repeat constructor|].
  split; [destruct rt; vm_compute; reflexivity|]. split; [apply Forall2_cons; [exact connack_sent|apply Forall2_cons; [exact pub_sent|apply Forall2_nil]]|].
  repeat apply conj; destruct rt; vm_compute; reflexivity.
Qed.
(* run is dropped in the middle of the message and called again *)
Definition dr_torn : list devent :=
  dr_wire (wc_open wc_connack ++ [WArrive false (firstn 6 wc_pub); WRead]) ++ [DDrop] ++ dr_wire [WEvent ERun; WArrive false (skipn 6 wc_pub); WRead].
Lemma drop_torn : exists c chk w ps bs, config_ok c /\ dreachable c chk w /\ Forall2 sent ps bs /\ sr_all (w_net w) = concat bs /\
  ~ In (rc_ack 7) ps /\ messages_since_open (trace (w_sys w)) <> filter is_message ps /\
  exists l, trace (w_sys w) = l ++ [ORead (rc_ack 7); ORunEnd (inr (HandlerErr (Unsolicited 7 TPubAck)))].
Proof.
  exists (lc_cfg Tokio), false, (dr_run Tokio false dr_torn), [rc_connack; rc_pub], [wc_connack; wc_pub].
  split; [cfg|]. split; [apply dr_reach; vm_compute; reflexivity|]. split; [apply Forall2_cons; [exact connack_sent|apply Forall2_cons; [exact pub_sent|apply Forall2_nil]]|].
  split; [vm_compute; reflexivity|]. split; [intros [X|[X|[]]]; discriminate X|]. split; [vm_compute; discriminate|].
  exists (removelast (removelast (trace (w_sys (dr_run Tokio false dr_torn))))). vm_compute; reflexivity.
Qed.
(* the same on smol *)
Lemma drop_whole : forall chk, let w := dr_run Smol chk dr_torn in dreachable (lc_cfg Smol) chk w /\ nt_connected (y_net (w_sys w)) = true /\
  sr_all (w_net w) = concat [wc_connack; wc_pub] /\ messages_since_open (trace (w_sys w)) = [rc_pub].
Proof.
  intros chk w. split; [apply dr_reach; destruct chk; vm_compute; reflexivity|]. repeat apply conj; destruct chk; vm_compute; reflexivity.
Qed.
