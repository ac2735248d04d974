(* C78, C79: examples. *)
From Verif Require Import Base VarInt Prims Props Codes Packets BaseFacts Options Session Client System SpecSession SpecNet SpecCodec SpecRead SpecOut SpecEnd SmolStream TokioRead Wire SpecWire SpecPolite SpecSource SpecBytes SpecCarry
  SessionFacts WireFacts WireMore BytesFacts BytesMore BytesWorld BytesPlay BytesCases CarryFacts CarryMore Scenario LoopCases OutCases ReadCases PoliteCases SourceAll SourceCases.

(* the moves of the broker in SourceCases.v *)
Definition sbroker (m : smove) (k : pipe) (w : source) : option (pipe * source) :=
  match broker_moves m (at_source k w) with
  | Some w' =>
    let 'Line us q ps v := so_line w' in
    if negb (forallb sentb ps && Bool.eqb us (pi_used k)) then None else
    let bs := map plain_bytes ps in
    match m with
    | SCut => Some (Pipe (pi_used k) [] [] (pi_down k ++ concat bs) false, w')
    | _ => if so_in w' then Some (Pipe (pi_used k) (pi_up k) q (pi_down k ++ concat bs) v, w') else None
    end
  | None => None
  end.
Lemma sbroker_ok c chk g m i k w k' w' : sourced_bytes c chk g i k w -> sbroker m k w = Some (k', w') -> sourced_bytes c chk g i k' w'.
Proof.
  intros H E. unfold sbroker in E. destruct (broker_moves m (at_source k w)) as [w1|] eqn:EM; [|discriminate]. destruct (so_line w1) as [us q ps v] eqn:EL.
  destruct (forallb sentb ps && Bool.eqb us (pi_used k)) eqn:ES; [|discriminate]. cbn [negb] in E. apply andb_true_iff in ES as [ES EU]. apply Bool.eqb_prop in EU. subst us.
  apply sent_map in ES. pose proof (broker_sound _ _ _ EM) as HB.
  assert ((if so_in w1 then Some (Pipe (pi_used k) (pi_up k) q (pi_down k ++ concat (map plain_bytes ps)) v, w1) else None) = Some (k', w') -> sourced_bytes c chk g i k' w') as HK.
  { destruct (so_in w1) eqn:EI; [|discriminate]. intros E1. injection E1 as <- <-. eapply cy_broker; [exact H| |exact ES]. split; [exact HB|]. split; [exact EL|]. now left. }
  destruct m; try (exact (HK E)). injection E as <- <-. eapply cy_close; [exact H| |exact ES]. split; [exact HB|]. destruct k, w. cbn in EM. injection EM as <-. cbn in EL. injection EL as <- <- <-. split; reflexivity.
Qed.
Lemma sb_sound c chk g ms i k w : Forall asked ms -> pplay c chk g source_note sbroker ms (winit c chk) pipe0 source0 = Some (i, k, w) -> sourced_bytes c chk g i k w.
Proof.
  intros HF H. refine (pplay_sound c chk g source_note sbroker (sourced_bytes c chk g) _ _ _ _ _ ms _ _ _ _ _ _ (cy_init _ _ _ _ _ _ _) HF H).
  - intros i0 k0 w0 HL. exact (carried_reachable _ _ _ _ _ _ _ _ _ _ HL).
  - intros. eapply cy_client; eauto.
  - intros. eapply cy_arrive; eauto.
  - intros. eapply cy_decode; eauto.
  - intros. eapply sbroker_ok; eauto.
Qed.
(* smol reads the answer to CONNECT in one piece *)
Definition cp_pieces {M} (rt : runtime) (l : list nat) (n : nat) : list (pmove M) := match rt with Tokio => flat_map (fun n => [PA n; PC WRead]) l | Smol => [PA n; PC WRead] end.
Definition cp_connect {M} (rt : runtime) (accept : M) : list (pmove M) :=
  [PC (WEvent EConnect); PC (WEvent (EWrite true)); PD; PB accept] ++ cp_pieces rt [2; 1; 2]%nat 5 ++ [PC (WEvent EHandled); PC (WEvent (EWrites [] true)); PC (WEvent ERun)].
(* a packet arrives in two pieces *)
Definition cp_in {M} : list (pmove M) := [PA 3; PC WRead; PA 100; PC WRead; PC (WEvent EHandled); PC (WEvent (EWrite true))].
Definition cp_again {M} : list (pmove M) := [PA 3; PC WRead; PA 100; PC WRead; PC (WEvent (EWrite true))].
Definition sb_both (rt : runtime) : list (pmove smove) :=
  cp_connect rt (SAccept false) ++ [PB (SStart (s_msg false AtLeastOnce 1))] ++ cp_in ++ [PB (SStart (s_msg false ExactlyOnce 2))] ++ cp_in ++
  [PB SCut; PA 0; PC WRead] ++ cp_connect rt (SAccept true) ++ [PB SAgain] ++ cp_in ++ [PD; PB (SAck 0); PB SAgain] ++ cp_again ++ [PD; PB (SAck 0)] ++ cp_in ++ [PD; PB (SAck 0)].
(* the connection breaks in the middle of the message *)
Definition sb_lost (rt : runtime) : list (pmove smove) :=
  cp_connect rt (SAccept false) ++ [PB (SStart (s_msg false ExactlyOnce 1)); PA 3; PC WRead; PB SCut; PA 0; PC WRead] ++ cp_connect rt (SAccept true) ++ [PB SAgain] ++ cp_again ++ [PD; PB (SAck 0)] ++
  cp_in ++ [PD; PB (SAck 0)].
(* A message of QoS 0 whose payload is a message of QoS 1.  The client abandons the read after the bytes before it. *)
Definition sb_inner : publish := Publish false AtLeastOnce false [117] (Some 1) no_props [1].
Definition sb_outer : packet := PPublish (Publish false AtMostOnce false [116] None no_props (plain_bytes (PPublish sb_inner))).
Definition cp_send {M} (q : qos) : list (pmove M) := [PC (WEvent (ECall (sc_pub q))); PC (WEvent (ESend 0)); PC (WEvent EOutgoing); PC (WEvent (EWrite true))].
Definition sb_torn : list (pmove smove) := cp_connect Tokio (SAccept false) ++ [PB (SSend sb_outer); PA 6; PC WRead] ++ cp_send AtMostOnce ++ [PA 100; PC WRead].
Definition sb_run (rt : runtime) (g : bool) (ms : list (pmove smove)) := pplay (lc_cfg rt) false g source_note sbroker ms (winit (lc_cfg rt) false) pipe0 source0.
Definition sb_log (x : option (wire * pipe * source)) : list moment := match x with Some (_, _, w) => so_log w | None => [] end.
Lemma sb_found rt g ms : Forall asked ms -> is_some (sb_run rt g ms) = true -> exists i k w, sourced_bytes (lc_cfg rt) false g i k w /\ so_log w = sb_log (sb_run rt g ms).
Proof.
  intros HF H. destruct (sb_run rt g ms) as [[[i k] w]|] eqn:E; [|discriminate]. exists i, k, w. split; [|reflexivity]. exact (sb_sound _ _ _ _ _ _ _ HF E).
Qed.
Lemma sb_both_case rt : exists i k w, sourced_bytes (lc_cfg rt) false true i k w /\ finished (so_log w) = [s_msg false AtLeastOnce 1; s_msg false ExactlyOnce 2] /\
  handed (so_log w) = [s_msg false AtLeastOnce 1; s_msg false ExactlyOnce 2; s_msg true AtLeastOnce 1].
Proof.
  destruct (sb_found rt true (sb_both rt)) as (i & k & w & HJ & EL); [destruct rt; moved|destruct rt; vm_compute; reflexivity|]. exists i, k, w. split; [exact HJ|]. rewrite EL. clear. destruct rt; (split; vm_compute; reflexivity).
Qed.
Lemma sb_lost_case rt : exists i k w, sourced_bytes (lc_cfg rt) false true i k w /\ finished (so_log w) = [s_msg false ExactlyOnce 1] /\ handed (so_log w) = [].
Proof.
  destruct (sb_found rt true (sb_lost rt)) as (i & k & w & HJ & EL); [destruct rt; moved|destruct rt; vm_compute; reflexivity|]. exists i, k, w. split; [exact HJ|]. rewrite EL. clear. destruct rt; (split; vm_compute; reflexivity).
Qed.
Lemma sb_lost_refuted rt : exists i k w x, sourced_bytes (lc_cfg rt) false true i k w /\ In (Finish x) (so_log w) /\ pb_qos x = ExactlyOnce /\ forall y, ~ In (OHandle (PPublish y)) (trace (w_sys i)).
Proof.
  destruct (sb_lost_case rt) as (i & k & w & H1 & H2 & H3). exists i, k, w, (s_msg false ExactlyOnce 1). split; [exact H1|]. split; [apply in_finished; rewrite H2; now left|]. split; [reflexivity|].
  intros y X. rewrite <- (bytes_log _ _ _ _ _ _ H1) in X. unfold of_client in X. apply in_flat_map in X as (m & X1 & X2). destruct m; try contradiction. destruct X2 as [->|[]]. apply in_handed in X1. rewrite H3 in X1. contradiction.
Qed.
Lemma of_client_in o l : In (Client o) l -> In o (of_client l).
Proof. intros H. unfold of_client. apply in_flat_map. exists (Client o). split; [exact H|now left]. Qed.
Ltac logged_in := match goal with |- In ?x (sb_log ?t) => let L := eval vm_compute in (sb_log t) in let X := eval vm_compute in x in replace (sb_log t) with L by (vm_compute; reflexivity); change (In X L) end; repeat (first [left; reflexivity|right]).
(* the application is handed a message of QoS 1 that the broker never sent *)
Definition started (l : list moment) : list publish := flat_map (fun m => match m with Start x => [x] | _ => [] end) l.
Lemma in_started x l : In (Start x) l -> In x (started l).
Proof. intros H. unfold started. apply in_flat_map. exists (Start x). split; [exact H|now left]. Qed.
Lemma sb_torn_refuted : exists i k w, config_ok (lc_cfg Tokio) /\ built (lc_cfg Tokio) /\ sourced_bytes (lc_cfg Tokio) false false i k w /\ In (OHandle (PPublish sb_inner)) (trace (w_sys i)) /\
  forall x, ~ In (Start x) (so_log w).
Proof.
  destruct (sb_found Tokio false sb_torn) as (i & k & w & HJ & EL); [moved|vm_compute; reflexivity|]. exists i, k, w. split; [split; [split; vm_compute; discriminate|vm_compute; discriminate]|]. split; [apply lc_built|]. split; [exact HJ|].
  rewrite <- (bytes_log _ _ _ _ _ _ HJ). rewrite EL. clear. split.
  - apply of_client_in. logged_in.
  - intros x H. apply in_started in H.
    assert (started (sb_log (sb_run Tokio false sb_torn)) = []) as E by (vm_compute; reflexivity). rewrite E in H. contradiction.
Qed.

(* ---- C79 ---- *)
(* the moves of the broker in PoliteCases.v *)
Definition pbroker (m : PoliteCases.lmove) (k : pipe) (w : unit) : option (pipe * unit) :=
  let 'Pipe us u q d v := k in
  match m with
  | LA n a => match skipn n q with p :: q' => if answer_to p a && sentb a then Some (Pipe us u (firstn n q ++ q') (d ++ concat [plain_bytes a]) v, tt) else None | [] => None end
  | LS p => if offers p && sentb p then Some (Pipe us u q (d ++ concat [plain_bytes p]) v, tt) else None
  | LX => Some (Pipe us [] [] (d ++ concat []) false, tt)
  | LC _ => None
  end.
Lemma pbroker_ok c chk g m i k w k' w' : carried (fun w _ => w) polite_serves polite_leaves tt c chk g i k w -> pbroker m k w = Some (k', w') ->
  carried (fun w _ => w) polite_serves polite_leaves tt c chk g i k' w'.
Proof.
  intros H E. destruct k as [us u q d v]. destruct m as [e|n a|p|]; cbn [pbroker] in E; [discriminate| | |].
  - destruct (skipn n q) as [|p q'] eqn:ES; [discriminate|]. destruct (answer_to p a && sentb a) eqn:EA; [|discriminate]. injection E as <- <-. apply andb_true_iff in EA as [E1 E2].
    apply (cy_broker _ _ _ _ _ _ _ _ (Pipe us u q d v) _ _ [a] v tt [plain_bytes a] H); [|now repeat constructor; apply sentb_ok]. split; [|reflexivity]. cbn.
    rewrite <- (firstn_skipn n q) at 1. rewrite ES. now apply (po_answer p a us (firstn n q) q' [] v).
  - destruct (offers p && sentb p) eqn:EA; [|discriminate]. injection E as <- <-. apply andb_true_iff in EA as [E1 E2].
    apply (cy_broker _ _ _ _ _ _ _ _ (Pipe us u q d v) _ _ [p] v tt [plain_bytes p] H); [|now repeat constructor; apply sentb_ok]. split; [|reflexivity]. now apply (po_send p us q [] v).
  - injection E as <- <-. apply (cy_close _ _ _ _ _ _ _ _ (Pipe us u q d v) w [] tt [] H); [reflexivity|constructor].
Qed.
Definition nothing (w : unit) (o : out) : unit := w.
Lemma pb_sound c chk g ms i k w : Forall asked ms -> pplay c chk g nothing pbroker ms (winit c chk) pipe0 tt = Some (i, k, w) -> polite_bytes c chk g i k.
Proof.
  intros HF H. destruct w. refine (pplay_sound c chk g nothing pbroker (carried nothing polite_serves polite_leaves tt c chk g) _ _ _ _ _ ms _ _ _ _ _ _ (cy_init _ _ _ _ _ _ _) HF H).
  - intros i0 k0 w0 HL. exact (carried_reachable _ _ _ _ _ _ _ _ _ _ HL).
  - intros. eapply cy_client; eauto.
  - intros. eapply cy_arrive; eauto.
  - intros. eapply cy_decode; eauto.
  - intros. eapply pbroker_ok; eauto.
Qed.
Definition cp_call {M} (k : call) : list (pmove M) := [PC (WEvent (ECall k)); PC (WEvent (ESend 0)); PC (WEvent EOutgoing); PC (WEvent (EWrite true)); PD].
(* a packet arrives and needs no answer *)
Definition cp_take {M} (rt : runtime) : list (pmove M) := [PA 3; PC WRead; PA 100; PC WRead; PC (WEvent EHandled)] ++ match rt with Tokio => [] | Smol => [PC (WEvent (EWrite true))] end.
Definition pb_suback (i : N) : packet := PSubAck (SubAck i no_props [RGrantedQoS0]).
Definition pb_talk (rt : runtime) : list (pmove PoliteCases.lmove) :=
  cp_connect rt (LA 0 (sc_connack false)) ++ cp_call (sc_pub AtLeastOnce) ++ cp_call (sc_pub ExactlyOnce) ++ cp_call sc_sub ++
  [PB (LA 2 (pb_suback 3))] ++ cp_take rt ++ [PB (LA 1 (PPubRec (sc_ack 2)))] ++ cp_in ++
  (* the connection breaks; the publish of QoS 1 and PUBREL are lost and sent again *)
  [PB LX; PA 0; PC WRead] ++ cp_connect rt (LA 0 (sc_connack true)) ++ [PD; PD; PB (LA 1 (PPubComp (sc_ack 2)))] ++ cp_take rt ++ [PB (LA 0 (PPubAck (sc_ack 1)))] ++ cp_take rt.
Definition pb_run (rt : runtime) (g : bool) (ms : list (pmove PoliteCases.lmove)) := pplay (lc_cfg rt) false g nothing pbroker ms (winit (lc_cfg rt) false) pipe0 tt.
Definition pb_log (x : option (wire * pipe * unit)) : list out := match x with Some (i, _, _) => trace (w_sys i) | None => [] end.
Lemma pb_found rt g ms : Forall asked ms -> is_some (pb_run rt g ms) = true -> exists i k, polite_bytes (lc_cfg rt) false g i k /\ trace (w_sys i) = pb_log (pb_run rt g ms).
Proof.
  intros HF H. destruct (pb_run rt g ms) as [[[i k] w]|] eqn:E; [|discriminate]. exists i, k. split; [|reflexivity]. exact (pb_sound _ _ _ _ _ _ _ HF E).
Qed.
Ltac moves := repeat (apply Forall_cons; [first [exact I|apply pub_ok|apply sub_ok]|]); apply Forall_nil.
Lemma pb_talk_case rt : exists i k, polite_bytes (lc_cfg rt) false true i k /\
  acks_read (trace (w_sys i)) = [pb_suback 3; PPubRec (sc_ack 2); PPubComp (sc_ack 2); PPubAck (sc_ack 1)] /\
  (exists x, pb_dup x = true /\ In (OWrite FromResend (PPublish x)) (trace (w_sys i))) /\ In (OWrite FromResend (PPubRel (sc_ack 2))) (trace (w_sys i)).
Proof.
  destruct (pb_found rt true (pb_talk rt)) as (i & k & HJ & EL); [destruct rt; moves|destruct rt; vm_compute; reflexivity|]. exists i, k. split; [exact HJ|]. rewrite EL. clear.
  destruct rt; (split; [vm_compute; reflexivity|]; split; [|lc_find]; exists (Publish true AtLeastOnce false sc_topic (Some 1) no_props sc_payload); split; [reflexivity|lc_find]).
Qed.
(* A message of QoS 0 whose payload 64 2 0 11 is PUBACK 11; there are 10 identifiers.  The client abandons the read after the bytes before it. *)
Definition pb_torn : list (pmove PoliteCases.lmove) :=
  cp_connect Tokio (LA 0 (sc_connack false)) ++ [PB (LS (PPublish (Publish false AtMostOnce false [116] None no_props [64; 2; 0; 11]))); PA 6; PC WRead] ++ cp_send AtMostOnce ++ [PA 4; PC WRead].
Lemma pb_torn_refuted : exists i k, config_ok (lc_cfg Tokio) /\ built (lc_cfg Tokio) /\ send_max (cf_opts (lc_cfg Tokio)) <= receive_max (cf_opts (lc_cfg Tokio)) /\
  polite_bytes (lc_cfg Tokio) false false i k /\ In OPanic (trace (w_sys i)).
Proof.
  destruct (pb_found Tokio false pb_torn) as (i & k & HJ & EL); [moves|vm_compute; reflexivity|]. exists i, k. split; [split; [split; vm_compute; discriminate|vm_compute; discriminate]|]. split; [apply lc_built|].
  split; [vm_compute; discriminate|]. split; [exact HJ|]. rewrite EL. clear. lc_find.
Qed.
(* the application drops its client while an acknowledgement is on its way *)
Definition pb_gone (rt : runtime) : list (pmove PoliteCases.lmove) :=
  cp_connect rt (LA 0 (sc_connack false)) ++ cp_call (sc_pub AtLeastOnce) ++ [PB (LA 0 (PPubAck (sc_ack 1))); PC (WEvent EDropClients); PA 3; PC WRead; PA 100; PC WRead].
Lemma pb_gone_case rt : exists i k, polite_bytes (lc_cfg rt) false true i k /\ In (ORunEnd (inr (HandlerErr (PacketIdChannelError 1)))) (trace (w_sys i)).
Proof.
  destruct (pb_found rt true (pb_gone rt)) as (i & k & HJ & EL); [destruct rt; moves|destruct rt; vm_compute; reflexivity|]. exists i, k. split; [exact HJ|]. rewrite EL. clear. destruct rt; lc_find.
Qed.
(* the answer to CONNECT reaches smol in pieces *)
Definition pb_split : list (pmove PoliteCases.lmove) := [PC (WEvent EConnect); PC (WEvent (EWrite true)); PD; PB (LA 0 (sc_connack false)); PA 3; PC WRead; PA 1; PC WRead].
Definition pb_dead (x : option (wire * pipe * unit)) : bool := match x with Some (i, _, _) => w_dead i | None => false end.
Lemma pb_split_refuted chk : exists i k, config_ok (lc_cfg Smol) /\ built (lc_cfg Smol) /\ send_max (cf_opts (lc_cfg Smol)) <= receive_max (cf_opts (lc_cfg Smol)) /\
  polite_bytes (lc_cfg Smol) chk true i k /\ w_dead i = true.
Proof.
  set (r := pplay (lc_cfg Smol) chk true nothing pbroker pb_split (winit (lc_cfg Smol) chk) pipe0 tt).
  assert (pb_dead r = true) as E by (destruct chk; vm_compute; reflexivity).
  destruct r as [[[i k] w]|] eqn:ER; [|discriminate]. exists i, k. split; [split; [split; vm_compute; discriminate|vm_compute; discriminate]|]. split; [apply lc_built|].
  split; [vm_compute; discriminate|]. split; [|exact E]. apply (pb_sound _ _ _ pb_split _ _ w); [moves|exact ER].
Qed.
