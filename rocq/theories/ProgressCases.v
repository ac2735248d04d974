(* Concrete executions for P_Progress.v. *)
From Verif Require Import Base BaseFacts VarInt Prims Props Codes Packets Options Session Client System SpecCodec SpecLenient SpecSession SpecRead SpecWire SmolStream TokioRead Scenario IdMore LoopCases ReadCases Wire WireFacts WireMore WireCases EndMore SpecDecode DecodeFacts SpecProgress ProgressFacts.

Lemma decoded_smol c chk xs w : Forall wbytes xs -> wexec c chk xs (winit c chk) = Some w -> cf_rt c = Smol -> nt_connected (y_net (w_sys w)) = true ->
  exists a bs, ca_rc a = RSuccess /\ sr_all (w_net w) = concat bs ++ sr_buf (w_net w) ++ concat (sr_in (w_net w)) /\ Forall2 (frame_of Smol) (PConnAck a :: since_open (trace (w_sys w))) bs.
Proof. intros HF HX ER HC. rewrite <- ER. apply (decoded_order c chk xs w HF HX HC). apply (smol_untorn c chk w ER). now exists xs. Qed.
Lemma decoded_case : forall rt, let w := wc_run rt false wc_message in
  Forall wbytes wc_message /\ wexec (lc_cfg rt) false wc_message (winit (lc_cfg rt) false) = Some w /\ nt_connected (y_net (w_sys w)) = true /\ sr_torn (w_net w) = false /\ since_open (trace (w_sys w)) = [rc_pub].
Proof. intros rt w. split; [repeat constructor|]. repeat apply conj; destruct rt; vm_compute; reflexivity. Qed.

(* tokio: a request interrupts the reading of a message; the rest of the message is taken for a PINGRESP *)
Definition pc_pub : bytes := [48; 6; 0; 1; 116; 0; 208; 0].
Definition pc_torn : list wevent := wc_open wc_connack ++ [WArrive false (firstn 6 pc_pub); WRead; WEvent (ECall (sc_pub AtMostOnce)); WEvent (ESend 0);
  WEvent EOutgoing; WEvent (EWrite true); WArrive false (skipn 6 pc_pub); WRead].
Lemma varint_head x l : x < 128 -> is_varint (x :: l) -> l = [].
Proof.
  intros Hx (i & z & E & HF & Hz & _). destruct i as [|y i]; cbn in E; injection E as -> E; [now symmetry|]. apply Forall_inv in HF. lia.
Qed.
Lemma varint_some l : is_varint l -> l <> [].
Proof. intros (i & z & -> & _) E. destruct i; discriminate E. Qed.
Lemma torn_decode : exists c chk xs w, config_ok c /\ Forall wbytes xs /\ wexec c chk xs (winit c chk) = Some w /\ nt_connected (y_net (w_sys w)) = true /\
  ~ exists a bs, ca_rc a = RSuccess /\ sr_all (w_net w) = concat bs ++ sr_buf (w_net w) ++ concat (sr_in (w_net w)) /\ Forall2 (frame_of (cf_rt c)) (PConnAck a :: since_open (trace (w_sys w))) bs.
Proof.
  exists (lc_cfg Tokio), false, pc_torn, (wc_run Tokio false pc_torn). split; [cfg|]. split; [repeat constructor|]. split; [vm_compute; reflexivity|]. split; [vm_compute; reflexivity|].
  assert (since_open (trace (w_sys (wc_run Tokio false pc_torn))) = [PPingResp]) as -> by (vm_compute; reflexivity).
  assert (sr_all (w_net (wc_run Tokio false pc_torn)) = wc_connack ++ pc_pub) as -> by (vm_compute; reflexivity).
  assert (sr_buf (w_net (wc_run Tokio false pc_torn)) = []) as -> by (vm_compute; reflexivity).
  assert (sr_in (w_net (wc_run Tokio false pc_torn)) = []) as -> by (vm_compute; reflexivity).
  change (cf_rt (lc_cfg Tokio)) with Tokio.
  intros (a & bs & _ & E & HF). inversion HF as [|? b0 ? bs1 H0 HF1]; subst. inversion HF1 as [|? b1 ? bs2 H1 HF2]; subst. inversion HF2; subst. cbn [concat] in E. rewrite !app_nil_r in E.
  destruct H0 as (e0 & d0 & -> & V0 & L0 & _). destruct H1 as (e1 & d1 & -> & V1 & L1 & _). cbn in L1. subst d1. rewrite app_nil_r in E.
  cbn [spec_first lax_body] in *. destruct L0 as (sec & f & HS & _ & _ & ->). destruct HS as (its & e2 & ib & _ & _ & -> & V2 & EL).
  cbn [wc_connack pc_pub app] in E. destruct e0 as [|x0 e0]; [now apply varint_some in V0|]. cbn [app] in E. injection E as E2 E.
  rewrite <- E2 in *. apply varint_head in V0; [|lia]. subst e0. cbn [app] in E. injection E as E3 E4 E. destruct e2 as [|x2 e2]; [now apply varint_some in V2|]. cbn [app] in E. injection E as E5 E.
  rewrite <- E5 in *. apply varint_head in V2; [|lia]. subst e2. cbn in EL. destruct ib; [|discriminate EL]. cbn in E. discriminate E.
Qed.

(* --- progress --- *)
Definition pc_ends : list wevent := wc_open wc_connack ++ [WArrive false wc_pub; WArrive false []].
(* smol also looks whether there is anything to write *)
Definition pc_flush (rt : runtime) : list wevent := match rt with Tokio => [] | Smol => [WEvent (EWrite true)] end.
Definition pc_work (rt : runtime) : list wevent := [WRead; WEvent EHandled] ++ pc_flush rt ++ [WRead].
Definition pc_done (rt : runtime) : wire := wc_run rt false (pc_ends ++ pc_work rt).
Lemma ends_case : forall rt, let w := wc_run rt false pc_ends in
  Forall wbytes pc_ends /\ wexec (lc_cfg rt) false pc_ends (winit (lc_cfg rt) false) = Some w /\ ~ over w /\ In [] (sr_in (in_use w)) /\
  Forall own_work (pc_work rt) /\ wexec (lc_cfg rt) false (pc_work rt) w = Some (pc_done rt) /\ (forall x, own_work x -> wstep (lc_cfg rt) false x (pc_done rt) = None) /\
  exists l, trace (w_sys (pc_done rt)) = l ++ [OHandle rc_pub; OHandled; ORunEnd (inr Io)].
Proof.
  intros rt w. split; [repeat constructor|]. assert (wexec (lc_cfg rt) false pc_ends (winit (lc_cfg rt) false) = Some w) as HW by (destruct rt; vm_compute; reflexivity). split; [exact HW|].
  split; [intros [H|[H|H]]; destruct rt; vm_compute in H; discriminate H|]. split; [destruct rt; vm_compute; auto|]. split; [destruct rt; repeat constructor|].
  assert (wexec (lc_cfg rt) false (pc_work rt) w = Some (pc_done rt)) as HD by (destruct rt; vm_compute; reflexivity). split; [exact HD|]. split.
  - intros x. apply over_stuck; [|left; destruct rt; vm_compute; reflexivity]. apply (wire_refines _ false). exists (pc_ends ++ pc_work rt). now rewrite wexec_app, HW.
  - exists (removelast (removelast (removelast (trace (w_sys (pc_done rt)))))). destruct rt; vm_compute; reflexivity.
Qed.
(* nothing to do but wait *)
Definition pc_waits (rt : runtime) : list wevent := wc_message ++ pc_flush rt.
Lemma waits_case : forall rt, let w := wc_run rt false (pc_waits rt) in wexec (lc_cfg rt) false (pc_waits rt) (winit (lc_cfg rt) false) = Some w /\ ~ over w /\ waiting_for_more w /\
  forall x, own_work x -> wstep (lc_cfg rt) false x w = None.
Proof.
  intros rt w. split; [destruct rt; vm_compute; reflexivity|]. split; [intros [H|[H|H]]; destruct rt; vm_compute in H; discriminate H|].
  assert (y_pc (w_sys w) = PSelect 0) as EP by (destruct rt; vm_compute; reflexivity). assert (y_chan (w_sys w) = []) as EC by (destruct rt; vm_compute; reflexivity).
  assert (pl_open (st_pool (y_state (w_sys w))) = true) as EO by (destruct rt; vm_compute; reflexivity). assert (sr_in (w_net w) = []) as EI by (destruct rt; vm_compute; reflexivity).
  assert (w_dead w = false) as ED by (destruct rt; vm_compute; reflexivity).
  split.
  - unfold waiting_for_more, in_use. rewrite EP. split; [exact EI|]. right. eauto.
  - clearbody w. intros x HO. destruct x as [| |e]; [contradiction HO| |].
    + cbn [wstep]. unfold wread. rewrite ED, EP. unfold take_chunk. rewrite EI. reflexivity.
    + cbn [wstep]. unfold wevents. destruct e; try contradiction HO; cbn [step]; rewrite EP; cbn [is_read is_client orb negb andb]; rewrite ?andb_false_r, ?andb_true_r, ED; try reflexivity.
      unfold outgoing. now rewrite EC, EO.
Qed.
