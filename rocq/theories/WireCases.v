(* Concrete executions for P_Wire.v. *)
From Verif Require Import Base VarInt Prims Props Codes Packets Options Session Client System SpecCodec SpecSession SpecRead SpecWire SmolStream TokioRead Scenario IdMore LoopCases ReadCases Wire WireFacts WireMore.

Definition wc_connack : bytes := [32; 3; 0; 0; 0].
Definition wc_pub : bytes := [48; 8; 0; 1; 116; 0; 64; 2; 0; 7].
(* connect, given the first chunk, and run *)
Definition wc_open (ch : bytes) : list wevent :=
  [WEvent EConnect; WEvent (EWrite true); WArrive true ch; WRead; WEvent EHandled; WEvent (EWrites [] true); WEvent ERun].
Definition wc_run (rt : runtime) (chk : bool) (xs : list wevent) : wire :=
  match wexec (lc_cfg rt) chk xs (winit (lc_cfg rt) chk) with Some w => w | None => winit (lc_cfg rt) chk end.
Lemma wc_reach rt chk xs : is_some (wexec (lc_cfg rt) chk xs (winit (lc_cfg rt) chk)) = true -> wreachable (lc_cfg rt) chk (wc_run rt chk xs).
Proof. intros H. exists xs. unfold wc_run. destruct (wexec _ _ _ _); [reflexivity|discriminate H]. Qed.

Definition wc_message : list wevent := wc_open wc_connack ++ [WArrive false (firstn 3 wc_pub); WRead; WArrive false (skipn 3 wc_pub); WRead; WEvent EHandled].
Lemma message_case : forall rt, let w := wc_run rt false wc_message in
  config_ok (lc_cfg rt) /\ wreachable (lc_cfg rt) false w /\ nt_connected (y_net (w_sys w)) = true /\ Forall2 sent [rc_connack; rc_pub] [wc_connack; wc_pub] /\
  sr_all (w_net w) ++ [] = concat [wc_connack; wc_pub] /\ sr_torn (w_net w) = false /\ concat (sr_in (w_net w)) = [] /\ messages_since_open (trace (w_sys w)) = [rc_pub].
Proof.
  intros rt w. split; [destruct rt; cfg|]. split; [apply wc_reach; destruct rt; vm_compute; reflexivity|].
  split; [destruct rt; vm_compute; reflexivity|]. split; [apply Forall2_cons; [exact connack_sent|apply Forall2_cons; [exact pub_sent|apply Forall2_nil]]|].
  repeat apply conj; destruct rt; vm_compute; reflexivity.
Qed.
(* smol: the message arrives together with CONNACK *)
Definition wc_stall : list wevent := wc_open (wc_connack ++ wc_pub).
Lemma stalled_case : forall chk, let w := wc_run Smol chk wc_stall in
  wreachable (lc_cfg Smol) chk w /\ y_pc (w_sys w) = PSelect 0 /\ nt_connected (y_net (w_sys w)) = true /\ Forall2 sent [rc_connack; rc_pub] [wc_connack; wc_pub] /\
  sr_all (w_net w) = concat [wc_connack; wc_pub] /\ sr_torn (w_net w) = false /\ sr_in (w_net w) = [] /\ messages_since_open (trace (w_sys w)) = [] /\
  wread (lc_cfg Smol) chk w = None.
Proof.
  intros chk w. split; [apply wc_reach; destruct chk; vm_compute; reflexivity|]. split; [destruct chk; vm_compute; reflexivity|].
  split; [destruct chk; vm_compute; reflexivity|]. split; [apply Forall2_cons; [exact connack_sent|apply Forall2_cons; [exact pub_sent|apply Forall2_nil]]|].
  repeat apply conj; destruct chk; vm_compute; reflexivity.
Qed.
(* tokio: a request interrupts the reading of a message; the rest of the message is taken for a PUBACK *)
Definition wc_torn : list wevent := wc_open wc_connack ++ [WArrive false (firstn 6 wc_pub); WRead; WEvent (ECall (sc_pub AtMostOnce)); WEvent (ESend 0);
  WEvent EOutgoing; WEvent (EWrite true); WArrive false (skipn 6 wc_pub); WRead].
Lemma torn_case : forall chk, let w := wc_run Tokio chk wc_torn in
  wreachable (lc_cfg Tokio) chk w /\ Forall2 sent [rc_connack; rc_pub] [wc_connack; wc_pub] /\ sr_all (w_net w) = concat [wc_connack; wc_pub] /\
  messages_since_open (trace (w_sys w)) = [] /\ exists l, trace (w_sys w) = l ++ [ORead (rc_ack 7); ORunEnd (inr (HandlerErr (Unsolicited 7 TPubAck)))].
Proof.
  intros chk w. split; [apply wc_reach; destruct chk; vm_compute; reflexivity|]. split; [apply Forall2_cons; [exact connack_sent|apply Forall2_cons; [exact pub_sent|apply Forall2_nil]]|].
  split; [destruct chk; vm_compute; reflexivity|]. split; [destruct chk; vm_compute; reflexivity|].
  exists (removelast (removelast (trace (w_sys w)))). destruct chk; vm_compute; reflexivity.
Qed.
(* smol: bytes that panic, in both builds *)
Definition wc_bytes : bytes := [16; 9; 0; 4; 77; 81; 84; 84; 5; 0; 0].
Definition wc_panic : list wevent := wc_open wc_connack ++ [WArrive false wc_bytes; WRead].
Lemma dead_case : forall chk, let w := wc_run Smol chk wc_panic in wexec (lc_cfg Smol) chk wc_panic (winit (lc_cfg Smol) chk) = Some w /\ Forall wbytes wc_panic /\ w_dead w = true.
Proof. intros chk w. split; [destruct chk; vm_compute; reflexivity|]. split; [|destruct chk; vm_compute; reflexivity]. repeat constructor. Qed.
Lemma realised_case : forall rt chk, let es := [EConnect; EWrite true; EPacket rc_connack; EHandled; EWrites [] true; ERun; EPacket rc_pub; EHandled] in
  Forall sendable es /\ exists s, exec (lc_cfg rt) es (init (lc_cfg rt)) = Some s /\ messages_since_open (trace s) = [rc_pub] /\
  exists w, wreachable (lc_cfg rt) chk w /\ w_sys w = s.
Proof.
  intros rt chk es. assert (Forall sendable es) as HF.
  { repeat (apply Forall_cons; [first [exact I|eexists; exact connack_sent|eexists; exact pub_sent]|]). apply Forall_nil. }
  split; [exact HF|]. destruct (exec (lc_cfg rt) es (init (lc_cfg rt))) as [s|] eqn:E; [|destruct rt; vm_compute in E; discriminate E].
  exists s. split; [reflexivity|]. split; [|exact (realised _ _ _ _ E HF)].
  assert (option_map (fun s => messages_since_open (trace s)) (exec (lc_cfg rt) es (init (lc_cfg rt))) = Some [rc_pub]) as X by (destruct rt; vm_compute; reflexivity).
  rewrite E in X. now injection X.
Qed.
Lemma stall_witness : exists c chk w ps bs, config_ok c /\ wreachable c chk w /\ y_pc (w_sys w) = PSelect 0 /\ nt_connected (y_net (w_sys w)) = true /\ Forall2 sent ps bs /\
  sr_all (w_net w) = concat bs /\ sr_in (w_net w) = [] /\ wread c chk w = None /\ messages_since_open (trace (w_sys w)) <> filter is_message ps.
Proof.
  exists (lc_cfg Smol), false, (wc_run Smol false wc_stall), [rc_connack; rc_pub], [wc_connack; wc_pub].
  destruct (stalled_case false) as (H1 & H2 & H3 & H4 & H5 & _ & H6 & H7 & H8). split; [cfg|]. do 7 (split; [assumption|]). rewrite H7. discriminate.
Qed.
Lemma torn_witness : exists c chk w ps bs, config_ok c /\ wreachable c chk w /\ Forall2 sent ps bs /\ sr_all (w_net w) = concat bs /\
  ~ In (rc_ack 7) ps /\ messages_since_open (trace (w_sys w)) <> filter is_message ps /\
  exists l, trace (w_sys w) = l ++ [ORead (rc_ack 7); ORunEnd (inr (HandlerErr (Unsolicited 7 TPubAck)))].
Proof.
  exists (lc_cfg Tokio), false, (wc_run Tokio false wc_torn), [rc_connack; rc_pub], [wc_connack; wc_pub].
  destruct (torn_case false) as (H1 & H2 & H3 & H4 & H5). split; [cfg|]. do 3 (split; [assumption|]). split; [|split; [rewrite H4; discriminate|exact H5]].
  intros [X|[X|[]]]; discriminate X.
Qed.
Lemma torn_bytes : Forall wbytes wc_torn /\ exists w, wexec (lc_cfg Tokio) true wc_torn (winit (lc_cfg Tokio) true) = Some w.
Proof.
  split; [repeat constructor|]. destruct (wexec (lc_cfg Tokio) true wc_torn (winit (lc_cfg Tokio) true)) as [w|] eqn:E; [eauto|].
  exfalso. assert (is_some (wexec (lc_cfg Tokio) true wc_torn (winit (lc_cfg Tokio) true)) = true) as X by (vm_compute; reflexivity). rewrite E in X. discriminate X.
Qed.
Lemma dead_witness : forall chk, exists xs w, Forall wbytes xs /\ wexec (lc_cfg Smol) chk xs (winit (lc_cfg Smol) chk) = Some w /\ w_dead w = true.
Proof. intros chk. destruct (dead_case chk) as (H1 & H2 & H3). eauto. Qed.
