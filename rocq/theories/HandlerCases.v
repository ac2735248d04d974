(* Concrete executions for P_Handlers.v. *)
From Verif Require Import Base VarInt Prims Props Codes Packets Options Session Client System SpecCodec SpecSession Scenario IdMore LoopCases Handlers HandlerFacts HandlerMore.

Definition hc_run {A} (f : handler A) (rt : runtime) (m : A) (xs : list hevent) : hsys A :=
  match hexec f (lc_cfg rt) xs (hinit (lc_cfg rt) m) with Some h => h | None => hinit (lc_cfg rt) m end.
Lemma hc_reach {A} (f : handler A) rt m xs : is_some (hexec f (lc_cfg rt) xs (hinit (lc_cfg rt) m)) = true -> hreachable f (lc_cfg rt) m (hc_run f rt m xs).
Proof. intros H. exists xs. unfold hc_run. destruct (hexec _ _ _ _); [reflexivity|discriminate H]. Qed.
Definition hc_open : list hevent :=
  [HEnv EConnect; HEnv (EWrite true); HEnv (EPacket (sc_connack true)); HReturn; HEnv (EWrites [] true); HEnv ERun].
Definition hc_ping (q : qos) (i : option N) : packet := PPublish (Publish false q false sc_topic i no_props [80; 105; 110; 71; 33]).
(* a hundred requests wait when the message comes *)
Definition hc_full : list hevent :=
  hc_open ++ concat (repeat [HEnv (ECall (sc_pub AtMostOnce)); HEnv (ESend 0)] 100) ++ [HEnv (EPacket (hc_ping AtMostOnce None)); HCall].
(* the broker sends messages and does not acknowledge the answers *)
Definition hc_answer (rt : runtime) : list hevent :=
  [HEnv (EPacket (hc_ping AtLeastOnce (Some 1))); HCall; HEnv (ESend 0); HReturn; HEnv (EWrite true); HEnv EOutgoing; HEnv (EWrite true)].
Definition hc_ids (rt : runtime) : list hevent := hc_open ++ concat (repeat (hc_answer rt) 10) ++ [HEnv (EPacket (hc_ping AtLeastOnce (Some 1)))].

Lemma full_case : forall rt chk, let h := hc_run (ping_pong chk) rt 0 hc_full in
  hreachable (ping_pong chk) (lc_cfg rt) 0 h /\ handling (y_pc (hs_sys h)) = true /\ hs_wait h = Some 0%nat /\ CHANNEL_SIZE <= len (y_chan (hs_sys h)).
Proof.
  intros rt chk h. split; [apply hc_reach; destruct rt, chk; vm_compute; reflexivity|]. repeat apply conj; destruct rt, chk; vm_compute; first [reflexivity|discriminate].
Qed.
Lemma ids_case : forall rt chk, let h := hc_run (ping_pong chk) rt 0 (hc_ids rt) in
  hreachable (ping_pong chk) (lc_cfg rt) 0 h /\ handling (y_pc (hs_sys h)) = true /\ hs_wait h = None /\ pl_ids (st_pool (y_state (hs_sys h))) = [] /\
  exists k e, hs_plan h = Some (Plan [k] e) /\ needs_id k = true.
Proof.
  intros rt chk h. split; [apply hc_reach; destruct rt, chk; vm_compute; reflexivity|]. repeat apply conj; try (destruct rt, chk; vm_compute; reflexivity).
  exists (CPublish AtLeastOnce false sc_topic PONG no_props), (add_one chk 65535 10). split; [destruct rt, chk; vm_compute; reflexivity|reflexivity].
Qed.
Lemma full_witness : forall rt chk, exists c h, config_ok c /\ cf_rt c = rt /\ hreachable (ping_pong chk) c 0 h /\ handling (y_pc (hs_sys h)) = true /\
  forall xs h', hexec (ping_pong chk) c xs h = Some h' -> exists l, trace (hs_sys h') = trace (hs_sys h) ++ l /\ Forall futile l.
Proof.
  intros rt chk. exists (lc_cfg rt), (hc_run (ping_pong chk) rt 0 hc_full). destruct (full_case rt chk) as (H1 & H2 & H3 & H4). split; [destruct rt; cfg|]. split; [reflexivity|]. split; [exact H1|]. split; [exact H2|].
  intros xs h' HX. destruct (channel_stuck _ _ _ _ _ H2 ltac:(rewrite H3; discriminate) H4 HX) as (_ & _ & H). exact H.
Qed.
Lemma ids_witness : forall rt chk, exists c h, config_ok c /\ cf_rt c = rt /\ hreachable (ping_pong chk) c 0 h /\ handling (y_pc (hs_sys h)) = true /\
  (forall p, In (OBegin p) (trace (hs_sys h)) -> exists x, p = PPublish x /\ pb_payload x = PONG) /\
  forall xs h', hexec (ping_pong chk) c xs h = Some h' -> exists l, trace (hs_sys h') = trace (hs_sys h) ++ l /\ Forall by_clients l.
Proof.
  intros rt chk. exists (lc_cfg rt), (hc_run (ping_pong chk) rt 0 (hc_ids rt)). destruct (ids_case rt chk) as (H1 & H2 & H3 & H4 & k & e & H5 & H6). split; [destruct rt; cfg|]. split; [reflexivity|]. split; [exact H1|]. split; [exact H2|].
  split; [|intros xs h' HX; destruct (id_stuck _ _ _ _ _ _ _ _ H2 H5 H3 H6 H4 HX) as (_ & _ & H); exact H].
  assert (forallb (fun o => match o with OBegin (PPublish x) => if list_eq_dec N.eq_dec (pb_payload x) PONG then true else false | OBegin _ => false | _ => true end)
    (trace (hs_sys (hc_run (ping_pong chk) rt 0 (hc_ids rt)))) = true) as HF by (destruct rt, chk; vm_compute; reflexivity).
  intros p HI. rewrite forallb_forall in HF. specialize (HF _ HI). cbn in HF. destruct p; try discriminate HF. destruct (list_eq_dec _ _ _) in HF; [eauto|discriminate HF].
Qed.
(* eleven bytes: a, then six letters e with acute accent *)
Definition hc_text : bytes := [97; 195; 169; 195; 169; 195; 169; 195; 169; 195; 169].
Definition hc_crash : list hevent := hc_open ++ [HEnv (EPacket (PPublish (Publish false AtMostOnce false sc_topic None no_props hc_text))); HReturn].
Lemma crash_case : forall rt chk, let h := hc_run (ping_pong chk) rt 0 hc_crash in
  config_ok (lc_cfg rt) /\ hreachable (ping_pong chk) (lc_cfg rt) 0 h /\ hs_dead h = true /\ utf8 hc_text /\ 10 < len hc_text.
Proof.
  intros rt chk h. split; [destruct rt; cfg|]. split; [apply hc_reach; destruct rt, chk; vm_compute; reflexivity|]. split; [destruct rt, chk; vm_compute; reflexivity|].
  split; [|reflexivity]. exists [97; 233; 233; 233; 233; 233]. split; [repeat constructor; unfold scalar; lia|reflexivity].
Qed.
Definition hc_room : list hevent := hc_open ++ [HEnv (EPacket (hc_ping ExactlyOnce (Some 1)))].
Lemma room_case : forall rt chk, let h := hc_run (ping_pong chk) rt 0 hc_room in
  hreachable (ping_pong chk) (lc_cfg rt) 0 h /\ handling (y_pc (hs_sys h)) = true /\ hs_wait h = None /\ hs_dead h = false /\ pl_open (st_pool (y_state (hs_sys h))) = true /\
  hs_plan h = Some (Plan [CPublish ExactlyOnce false sc_topic PONG no_props] (Return 1)) /\ len (y_chan (hs_sys h)) = 0 /\ length (pl_ids (st_pool (y_state (hs_sys h)))) = 10%nat.
Proof. intros rt chk h. split; [apply hc_reach; destruct rt, chk; vm_compute; reflexivity|]. repeat apply conj; destruct rt, chk; vm_compute; reflexivity. Qed.
Lemma text_cases : (forall chk n, pn_end (ping_pong chk n (PPublish (Publish false AtMostOnce false sc_topic None no_props hc_text))) = Panics) /\
  pn_calls (ping_pong true 0 (hc_ping AtMostOnce None)) <> [].
Proof. split; [intros chk n; vm_compute; reflexivity|vm_compute; discriminate]. Qed.
Lemma crash_witness : forall rt chk, exists c h, config_ok c /\ cf_rt c = rt /\ hreachable (ping_pong chk) c 0 h /\ hs_dead h = true.
Proof. intros rt chk. destruct (crash_case rt chk) as (H1 & H2 & H3 & _). exists (lc_cfg rt). eexists. split; [exact H1|]. split; [reflexivity|]. split; [exact H2|exact H3]. Qed.

(* another client's request waits when the handler makes its own; its own is accepted second *)
Definition hc_served : list hevent :=
  hc_open ++ [HEnv (ECall (sc_pub AtMostOnce)); HEnv (EPacket (hc_ping AtMostOnce None)); HCall; HEnv (ESend 0); HEnv (ESend 0); HReturn].
Lemma served_case : forall rt chk, let h := hc_run (ping_pong chk) rt 0 hc_served in
  hreachable (ping_pong chk) (lc_cfg rt) 0 h /\ handling (y_pc (hs_sys h)) = false /\ hs_mem h = 1 /\ ping_pong chk 0 (hc_ping AtMostOnce None) = Plan [CPublish AtMostOnce false sc_topic PONG no_props] (Return 1) /\
  let q := PPublish (Publish false AtMostOnce false sc_topic None no_props PONG) in let q' := PPublish (Publish false AtMostOnce false sc_topic None no_props [112]) in
  exists l1 l2, trace (hs_sys h) = l1 ++ OHandle (hc_ping AtMostOnce None) :: [OBegin q; OAccept q'; OAccept q; OHandled] ++ l2.
Proof.
  intros rt chk h. split; [apply hc_reach; destruct rt, chk; vm_compute; reflexivity|]. split; [destruct rt, chk; vm_compute; reflexivity|]. split; [destruct rt, chk; vm_compute; reflexivity|]. split; [destruct chk; vm_compute; reflexivity|].
  exists (firstn 9 (trace (hs_sys h))), []. destruct rt, chk; vm_compute; reflexivity.
Qed.
Definition hc_refused : list hevent :=
  [HEnv EConnect; HEnv (EWrite true); HEnv (EPacket (sc_connack false)); HReturn; HEnv (EWrites [] true); HEnv ERun; HEnv (EPacket (hc_ping AtMostOnce None)); HCall].
Lemma refused_case : exists h q e l, hreachable (ping_pong true) sc_small 0 h /\ handling (y_pc (hs_sys h)) = true /\ hs_dead h = true /\
  trace (hs_sys h) = l ++ [OHandle (hc_ping AtMostOnce None); OBegin q; ORefuse q e].
Proof.
  destruct (hexec (ping_pong true) sc_small hc_refused (hinit sc_small 0)) as [h|] eqn:E; [|vm_compute in E; discriminate].
  exists h, (PPublish (Publish false AtMostOnce false sc_topic None no_props PONG)), (MaxPacketSize 8), (firstn 8 (trace (hs_sys h))). split; [now exists hc_refused|].
  vm_compute in E. injection E as <-. repeat split; vm_compute; reflexivity.
Qed.
