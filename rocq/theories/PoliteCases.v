(* C71: examples. *)
From Verif Require Import Base VarInt Prims Props Codes Packets BaseFacts Options Session Client System SpecSession SpecPolite Cases Scenario PoliteAll.

(* [on]: the connection outlives a failed write; the last component: packets that must be equal *)
Definition lsee (on : bool) (o : out) (w : line) (eqs : list (packet * packet)) : option (line * list (packet * packet)) :=
  let 'Line us u d v := w in
  match o with
  | OConnect => if us then None else Some (Line false [] [] true, eqs)
  | OWrite _ p => Some (Line us (arrive v p u) d v, eqs)
  | OWriteFail _ p => Some (Line us (arrive (v && false) p u) d (v && on), eqs)
  | OAnswer k => match d with p :: d' => Some (Line us u d' v, (k, p) :: eqs) | [] => None end
  | ORead k => match d with p :: d' => Some (Line us u d' v, (k, p) :: eqs) | [] => None end
  | OConnectEnd None => Some (Line true u d v, eqs)
  | ORunEnd _ => Some (Line false u d v, eqs)
  | _ => Some (w, eqs)
  end.
Fixpoint lsees (on : bool) (l : list out) (w : line) (eqs : list (packet * packet)) : option (line * list (packet * packet)) :=
  match l with [] => Some (w, eqs) | o :: l' => match lsee on o w eqs with Some (w', q) => lsees on l' w' q | None => None end end.
Definition all_equal (eqs : list (packet * packet)) : Prop := Forall (fun x => fst x = snd x) eqs.
Lemma lsee_sound on o w eqs w' q : lsee on o w eqs = Some (w', q) -> all_equal q -> noticed o w w' /\ all_equal eqs.
Proof.
  destruct w as [us u d v]. intros H HE. destruct o; cbn [lsee] in H;
    try (injection H as <- <-; split; [now constructor|exact HE]).
  - destruct us; [discriminate|]. injection H as <- <-. split; [constructor|exact HE].
  - destruct r; injection H as <- <-; (split; [now constructor|exact HE]).
  - destruct d as [|k d]; [discriminate|]. injection H as <- <-. inversion HE; subst. cbn in *. subst. split; [constructor|assumption].
  - destruct d as [|k d]; [discriminate|]. injection H as <- <-. inversion HE; subst. cbn in *. subst. split; [constructor|assumption].
Qed.
Lemma lsees_sound on l : forall w eqs w' q, lsees on l w eqs = Some (w', q) -> all_equal q -> notices l w w' /\ all_equal eqs.
Proof.
  induction l as [|o l IH]; intros w eqs w' q H HE; cbn [lsees] in H.
  - injection H as <- <-. split; [constructor|exact HE].
  - destruct (lsee on o w eqs) as [[w1 q1]|] eqn:E; [|discriminate]. destruct (IH _ _ _ _ H HE) as [H1 H2]. destruct (lsee_sound _ _ _ _ _ _ E H2) as [H3 H4].
    split; [econstructor; eassumption|exact H4].
Qed.

(* LA n k: the broker answers the n-th packet it has not dealt with *)
Inductive lmove := LC (e : event) | LA (n : nat) (k : packet) | LS (p : packet) | LX.
Definition genuine_fun (e : event) : bool := match e with EReadErr Io | EReadErr DeserializationError => true | EReadErr _ => false | _ => true end.
Lemma genuine_sound e : genuine_fun e = true -> genuine e.
Proof. destruct e; cbn; auto. destruct e; auto; discriminate. Qed.
Definition lmoves (c : config) (m : lmove) (s : sys) (w : line) (eqs : list (packet * packet)) : option (sys * line * list (packet * packet)) :=
  let 'Line us u d v := w in
  match m with
  | LC e =>
    if genuine_fun e
    then match step c e s with
         | Some s' => match lsees false (skipn (length (trace s)) (trace s')) w eqs with Some (w', q) => Some (s', w', q) | None => None end
         | None => None
         end
    else None
  | LA n k => match skipn n u with p :: u' => if answer_to p k then Some (s, Line us (firstn n u ++ u') (d ++ [k]) v, eqs) else None | [] => None end
  | LS p => if offers p then Some (s, Line us u (d ++ [p]) v, eqs) else None
  | LX => Some (s, Line us [] d false, eqs)
  end.
Lemma client_sound c e s w eqs s' w' q : with_broker c s w -> genuine e ->
  match step c e s with
  | Some s' => match lsees false (skipn (length (trace s)) (trace s')) w eqs with Some (w', q) => Some (s', w', q) | None => None end
  | None => None
  end = Some (s', w', q) -> all_equal q -> with_broker c s' w' /\ all_equal eqs.
Proof.
  intros HJ HG H HE. destruct (step c e s) as [s1|] eqn:ES; [|discriminate].
  destruct (step_tcase _ _ _ _ (with_reachable _ _ _ HJ) ES) as (l & st & w1 & ch & n & q1 & t & _ & ->). rewrite next_trace in H.
  rewrite skipn_app, skipn_all, Nat.sub_diag in H. cbn [skipn app] in H.
  destruct (lsees false l w eqs) as [[w2 q2]|] eqn:EO; [|discriminate]. injection H as <- <- <-. destruct (lsees_sound _ _ _ _ _ _ EO HE) as [H1 H2].
  split; [|exact H2]. eapply wb_client; [exact HJ|exact HG|exact ES|apply next_trace|exact H1].
Qed.
Lemma lmoves_sound c m s w eqs s' w' q : with_broker c s w -> lmoves c m s w eqs = Some (s', w', q) -> all_equal q -> with_broker c s' w' /\ all_equal eqs.
Proof.
  intros HJ H HE. destruct w as [us u d v]. destruct m; cbn [lmoves] in H.
  - destruct (genuine_fun e) eqn:EG; [|discriminate]. exact (client_sound _ _ _ _ _ _ _ _ HJ (genuine_sound _ EG) H HE).
  - destruct (skipn n u) as [|p u'] eqn:ES; [discriminate|]. destruct (answer_to p k) eqn:EA; [|discriminate]. injection H as <- <- <-. split; [|exact HE].
    eapply wb_broker; [exact HJ|]. rewrite <- (firstn_skipn n u) at 1. rewrite ES. now apply po_answer.
  - destruct (offers p) eqn:EO; [|discriminate]. injection H as <- <- <-. split; [|exact HE]. eapply wb_broker; [exact HJ|]. now apply po_send.
  - injection H as <- <- <-. split; [|exact HE]. eapply wb_broker; [exact HJ|apply po_cut].
Qed.
Fixpoint lplay (c : config) (ms : list lmove) (s : sys) (w : line) (eqs : list (packet * packet)) : option (sys * line * list (packet * packet)) :=
  match ms with [] => Some (s, w, eqs) | m :: ms' => match lmoves c m s w eqs with Some (s', w', q) => lplay c ms' s' w' q | None => None end end.
Lemma lplay_mono c : forall ms s w eqs s' w' q, lplay c ms s w eqs = Some (s', w', q) -> all_equal q -> with_broker c s w -> with_broker c s' w' /\ all_equal eqs.
Proof.
  assert (forall m s w eqs s' w' q, lmoves c m s w eqs = Some (s', w', q) -> all_equal q -> all_equal eqs) as HM.
  { assert (forall e s w eqs s' w' q, match step c e s with
      | Some s' => match lsees false (skipn (length (trace s)) (trace s')) w eqs with Some (w', q) => Some (s', w', q) | None => None end
      | None => None end = Some (s', w', q) -> all_equal q -> all_equal eqs) as HC.
    { intros e s w eqs s' w' q H HE. destruct (step c e s); [|discriminate]. destruct (lsees _ _ w eqs) as [[w2 q2]|] eqn:EO; [|discriminate]. injection H as <- <- <-. apply (lsees_sound _ _ _ _ _ _ EO HE). }
    intros m s w eqs s' w' q H HE. destruct w as [us u d v]. destruct m; cbn [lmoves] in H.
    - destruct (genuine_fun e); [|discriminate]. exact (HC _ _ _ _ _ _ _ H HE).
    - destruct (skipn n u); [discriminate|]. destruct (answer_to _ _); [|discriminate]. now injection H as <- <- <-.
    - destruct (offers p); [|discriminate]. now injection H as <- <- <-.
    - now injection H as <- <- <-. }
  induction ms as [|m ms IH]; intros s w eqs s' w' q H HE HJ; cbn [lplay] in H; [now injection H as <- <- <-|].
  destruct (lmoves c m s w eqs) as [[[s1 w1] q1]|] eqn:E; [|discriminate].
  assert (all_equal q1) as HE1. { clear IH HJ E. revert s1 w1 q1 H. induction ms as [|m1 ms IH]; intros s1 w1 q1 H; cbn [lplay] in H; [now injection H as <- <- <-|].
    destruct (lmoves c m1 s1 w1 q1) as [[[s2 w2] q2]|] eqn:E; [|discriminate]. apply (HM _ _ _ _ _ _ _ E). eapply IH; eassumption. }
  destruct (lmoves_sound _ _ _ _ _ _ _ _ HJ E HE1) as [H1 H2]. split; [|exact H2]. now apply (IH _ _ _ _ _ _ H).
Qed.
Lemma lplay_sound c ms s w q : lplay c ms (init c) line0 [] = Some (s, w, q) -> all_equal q -> with_broker c s w.
Proof. intros H HE. apply (lplay_mono _ _ _ _ _ _ _ _ H HE). constructor. Qed.

Definition lc_connect (present : bool) : list lmove :=
  [LC EConnect; LC (EWrite true); LA 0 (sc_connack present); LC (EPacket (sc_connack present)); LC EHandled; LC (EWrites [] true); LC ERun].
Definition lc_do (k : call) : list lmove := [LC (ECall k); LC (ESend 0); LC EOutgoing; LC (EWrite true)].
(* a packet arrives and needs no answer *)
Definition lc_in (rt : runtime) (p : packet) : list lmove := [LC (EPacket p); LC EHandled] ++ match rt with Tokio => [] | Smol => [LC (EWrite true)] end.
Definition lc_suback (i : N) : packet := PSubAck (SubAck i no_props [RSuccess]).
Definition lc_talk (rt : runtime) : list lmove :=
  lc_connect false ++ lc_do (sc_pub AtLeastOnce) ++ lc_do (sc_pub ExactlyOnce) ++ lc_do sc_sub ++
  [LA 2 (lc_suback 3); LA 1 (PPubRec (sc_ack 2))] ++ lc_in rt (lc_suback 3) ++
  [LC (EPacket (PPubRec (sc_ack 2))); LC EHandled; LC (EWrite true)] ++
  (* the connection breaks; the publish of QoS 1 and PUBREL are lost and sent again *)
  [LX; LC (EReadErr Io)] ++ lc_connect true ++
  [LA 1 (PPubComp (sc_ack 2)); LA 0 (PPubAck (sc_ack 1))] ++ lc_in rt (PPubComp (sc_ack 2)) ++ lc_in rt (PPubAck (sc_ack 1)).
Definition acks_read (l : list out) : list packet := flat_map (fun o => match o with ORead p => if is_ack p then [p] else [] | _ => [] end) l.
Definition lc_play (c : config) (ms : list lmove) : sys * line * list (packet * packet) :=
  match lplay c ms (init c) line0 [] with Some r => r | None => (init c, line0, []) end.
Lemma lc_sound c ms : all_equal (snd (lc_play c ms)) -> with_broker c (fst (fst (lc_play c ms))) (snd (fst (lc_play c ms))).
Proof.
  unfold lc_play. destruct (lplay c ms (init c) line0 []) as [[[s w] q]|] eqn:E; intros H; cbn [fst snd] in *; [|constructor]. exact (lplay_sound _ _ _ _ _ E H).
Qed.
Ltac lc_run c ms := exists (fst (fst (lc_play c ms))), (snd (fst (lc_play c ms))); split; [apply lc_sound; vm_compute; repeat constructor|].
Ltac lc_find := vm_compute; repeat (first [left; reflexivity|right]).
Lemma talk_case rt : exists s w, with_broker (sc rt 10 10 false) s w /\
  acks_read (trace s) = [lc_suback 3; PPubRec (sc_ack 2); PPubComp (sc_ack 2); PPubAck (sc_ack 1)] /\
  (exists x, pb_dup x = true /\ In (OWrite FromResend (PPublish x)) (trace s)) /\ In (OWrite FromResend (PPubRel (sc_ack 2))) (trace s) /\ ln_used w = true.
Proof.
  destruct rt; [lc_run (sc Tokio 10 10 false) (lc_talk Tokio)|lc_run (sc Smol 10 10 false) (lc_talk Smol)].
  all: split; [vm_compute; reflexivity|]; split; [|split; [lc_find|vm_compute; reflexivity]].
  all: exists (Publish true AtLeastOnce false sc_topic (Some 1) no_props sc_payload); split; [reflexivity|lc_find].
Qed.
(* more may be sent than the table has places *)
Definition lc_two : list lmove := lc_connect false ++ lc_do (sc_pub AtLeastOnce) ++ lc_do (sc_pub AtLeastOnce).
Lemma small_case rt : exists s w, with_broker (sc rt 2 1 false) s w /\ In OPanic (trace s).
Proof. destruct rt; [lc_run (sc Tokio 2 1 false) lc_two|lc_run (sc Smol 2 1 false) lc_two]; lc_find. Qed.
(* the application drops its client while an acknowledgement is on its way *)
Definition lc_gone : list lmove :=
  lc_connect false ++ lc_do (sc_pub AtLeastOnce) ++ [LA 0 (PPubAck (sc_ack 1)); LC EDropClients; LC (EPacket (PPubAck (sc_ack 1)))].
Lemma gone_case rt : exists s w, with_broker (sc rt 10 10 false) s w /\ In (ORunEnd (inr (HandlerErr (PacketIdChannelError 1)))) (trace s).
Proof. destruct rt; [lc_run (sc Tokio 10 10 false) lc_gone|lc_run (sc Smol 10 10 false) lc_gone]; lc_find. Qed.
Lemma small_refuted : exists c s w, config_ok c /\ with_broker c s w /\ In OPanic (trace s).
Proof. exists (sc Tokio 2 1 false). destruct (small_case Tokio) as (s & w & H). exists s, w. split; [now vm_compute|exact H]. Qed.
