(* C72: examples. *)
From Verif Require Import Base VarInt Prims Props Codes Packets BaseFacts Options Session Client System SpecSession SpecPolite SpecSettle Cases Scenario PoliteAll PoliteCases SettleFacts SettleMore SettleEnd.

(* AC: the client, and whether the connection outlives a failed write; AD n k: the broker deals with the n-th packet *)
Inductive amove := AC (on : bool) (e : event) | AD (n : nat) (k : option packet) | AS (p : packet) | AX.
Definition effort_fun (e : event) : bool := match e with ESend _ | EPacket _ | EHandled | EWrite _ | EWrites _ _ | EOutgoing => true | _ => false end.
Definition amoves (c : config) (work : bool) (m : amove) (s : sys) (w : line) (eqs : list (packet * packet)) : option (sys * line * list (packet * packet)) :=
  let 'Line us u d v := w in
  match m with
  | AC on e =>
    if if work then effort_fun e else genuine_fun e
    then match step c e s with
         | Some s' => match lsees on (skipn (length (trace s)) (trace s')) w eqs with Some (w', q) => Some (s', w', q) | None => None end
         | None => None
         end
    else None
  | AD n k =>
    match skipn n u with
    | p :: u' => match k with
                 | Some k => if answer_to p k then Some (s, Line us (firstn n u ++ u') (d ++ [k]) v, eqs) else None
                 | None => if unanswerable p then Some (s, Line us (firstn n u ++ u') d v, eqs) else None
                 end
    | [] => None
    end
  | AS p => if negb work && offers p then Some (s, Line us u (d ++ [p]) v, eqs) else None
  | AX => if work then None else Some (s, Line us [] d false, eqs)
  end.
Lemma amoves_sound c b m s w eqs s' w' q : reachable c s -> amoves c b m s w eqs = Some (s', w', q) -> all_equal q ->
  all_equal eqs /\ (if b then toil c s w s' w' else attended c s w -> attended c s' w').
Proof.
  intros HR H HE. destruct w as [us u d v]. destruct m; cbn [amoves] in H.
  - destruct (if b then effort_fun e else genuine_fun e) eqn:EG; [|discriminate]. destruct (step c e s) as [s1|] eqn:ES; [|discriminate].
    destruct (step_tcase _ _ _ _ HR ES) as (l & st & w1 & ch & n & q1 & t & _ & ->). rewrite next_trace in H.
    rewrite skipn_app, skipn_all, Nat.sub_diag in H. cbn [skipn app] in H.
    destruct (lsees on l _ eqs) as [[w2 q2]|] eqn:EO; [|discriminate]. injection H as <- <- <-. destruct (lsees_sound _ _ _ _ _ _ EO HE) as [H1 H2]. split; [exact H2|].
    destruct b; [eapply (to_client c s _ e)|intros HJ; eapply (an_client c s _ e); [exact HJ|exact (genuine_sound _ EG)| | |]]; try exact ES; try apply next_trace; try exact H1.
    destruct e; try discriminate EG; exact I.
  - destruct (skipn n u) as [|p u'] eqn:ES; [discriminate|].
    assert (deals (Line us u d v) w' /\ s' = s /\ q = eqs) as (HD & -> & ->).
    { destruct k as [k|]; [destruct (answer_to p k) eqn:EA|destruct (unanswerable p) eqn:EA]; try discriminate H; injection H as <- <- <-; (split; [|auto]); rewrite <- (firstn_skipn n u) at 1; rewrite ES; now constructor. }
    split; [exact HE|]. destruct b; [now apply to_broker|intros HJ; eapply an_broker; [exact HJ|now apply at_deals]].
  - destruct b; [discriminate H|]. cbn [negb andb] in H. destruct (offers p) eqn:EO; [|discriminate H]. injection H as <- <- <-. split; [exact HE|]. intros HJ. eapply an_broker; [exact HJ|now apply at_sends].
  - destruct b; [discriminate H|]. injection H as <- <- <-. split; [exact HE|]. intros HJ. eapply an_broker; [exact HJ|apply at_cut].
Qed.
Lemma amoves_reach c b m s w eqs s' w' q : reachable c s -> amoves c b m s w eqs = Some (s', w', q) -> reachable c s'.
Proof.
  intros HR H. destruct w as [us u d v]. destruct m; cbn [amoves] in H.
  - destruct (if b then effort_fun e else genuine_fun e); [|discriminate]. destruct (step c e s) as [s1|] eqn:ES; [|discriminate]. destruct (lsees _ _ _ _) as [[w2 q2]|]; [|discriminate]. injection H as <- <- <-.
    eapply reachable_step; eassumption.
  - destruct (skipn n u) as [|p u']; [discriminate|]. destruct k as [k|]; [destruct (answer_to p k)|destruct (unanswerable p)]; try discriminate H; now injection H as <- <- <-.
  - destruct (negb b && offers p); [|discriminate H]. now injection H as <- <- <-.
  - destruct b; [discriminate H|]. now injection H as <- <- <-.
Qed.
Fixpoint aplay (c : config) (b : bool) (ms : list amove) (r : sys * line * list (packet * packet)) : option (sys * line * list (packet * packet)) :=
  match ms with [] => Some r | m :: ms' => match amoves c b m (fst (fst r)) (snd (fst r)) (snd r) with Some r' => aplay c b ms' r' | None => None end end.
Lemma aplay_sound c b ms : forall s w eqs s' w' q, reachable c s -> aplay c b ms (s, w, eqs) = Some (s', w', q) -> all_equal q ->
  all_equal eqs /\ (if b then exists n, toils c n s w s' w' else attended c s w -> attended c s' w').
Proof.
  induction ms as [|m ms IH]; intros s w eqs s' w' q HR H HE; cbn [aplay fst snd] in H.
  - injection H as <- <- <-. split; [exact HE|]. destruct b; [exists 0%nat; constructor|auto].
  - destruct (amoves c b m s w eqs) as [[[s1 w1] q1]|] eqn:E; [|discriminate]. destruct (IH _ _ _ _ _ _ (amoves_reach _ _ _ _ _ _ _ _ _ HR E) H HE) as [H1 H2].
    destruct (amoves_sound _ _ _ _ _ _ _ _ _ HR E H1) as [H3 H4]. split; [exact H3|]. destruct b; [|auto]. destruct H2 as [n H2]. exists (S n). econstructor; eassumption.
Qed.
Definition a_play (c : config) (b : bool) (ms : list amove) (r : sys * line) : sys * line * list (packet * packet) :=
  match aplay c b ms (r, []) with Some x => x | None => (r, []) end.
Lemma a_attended c ms : all_equal (snd (a_play c false ms (init c, line0))) ->
  attended c (fst (fst (a_play c false ms (init c, line0)))) (snd (fst (a_play c false ms (init c, line0)))).
Proof.
  unfold a_play. destruct (aplay c false ms (init c, line0, [])) as [[[s w] q]|] eqn:E; intros H; cbn [fst snd] in *; [|constructor].
  apply (aplay_sound _ _ _ _ _ _ _ _ _ (ex_intro _ [] eq_refl) E H). constructor.
Qed.
Lemma a_toils c ms r : reachable c (fst r) -> all_equal (snd (a_play c true ms r)) ->
  exists n, toils c n (fst r) (snd r) (fst (fst (a_play c true ms r))) (snd (fst (a_play c true ms r))).
Proof.
  intros HR. unfold a_play. destruct r as [s0 w0]. cbn [fst snd] in *. destruct (aplay c true ms (s0, w0, [])) as [[[s w] q]|] eqn:E; intros H; cbn [fst snd] in *; [|exists 0%nat; constructor].
  apply (aplay_sound _ _ _ _ _ _ _ _ _ HR E H).
Qed.

Definition ac_connect (on : bool) (oks : list bool) (present : bool) : list amove :=
  [AC on EConnect; AC on (EWrite true); AD 0 (Some (sc_connack present)); AC on (EPacket (sc_connack present)); AC on EHandled; AC on (EWrites oks true); AC on ERun].
Definition ac_do (k : call) : list amove := [AC true (ECall k); AC true (ESend 0); AC true EOutgoing; AC true (EWrite true)].
(* three exchanges, one of them not yet handed over, and a message of QoS 1 from the broker that has not arrived *)
Definition ac_msg : packet := PPublish (Publish false AtLeastOnce false sc_topic (Some 5) no_props sc_payload).
Definition ac_before : list amove :=
  ac_connect true [] false ++ ac_do (sc_pub AtLeastOnce) ++ ac_do (sc_pub ExactlyOnce) ++ [AC true (ECall sc_sub); AS ac_msg].
Definition ac_in (rt : runtime) (p : packet) : list amove := [AC true (EPacket p); AC true EHandled] ++ match rt with Tokio => [] | Smol => [AC true (EWrite true)] end.
Definition ac_work (rt : runtime) : list amove :=
  [AC true (ESend 0); AC true EOutgoing; AC true (EWrite true); AD 2 (Some (lc_suback 3)); AD 1 (Some (PPubRec (sc_ack 2)))] ++
  [AC true (EPacket ac_msg); AC true EHandled; AC true (EWrite true); AD 1 None] ++
  ac_in rt (lc_suback 3) ++ [AC true (EPacket (PPubRec (sc_ack 2))); AC true EHandled; AC true (EWrite true)] ++
  [AD 1 (Some (PPubComp (sc_ack 2))); AD 0 (Some (PPubAck (sc_ack 1)))] ++ ac_in rt (PPubComp (sc_ack 2)) ++ ac_in rt (PPubAck (sc_ack 1)).
Lemma work_case rt : exists k s w s' w', attended (sc rt 10 10 false) s w /\ nt_connected (y_net s) = true /\ toils (sc rt 10 10 false) k s w s' w' /\ at_rest (sc rt 10 10 false) s' w' /\
  ln_live w' = true /\ unbroken (trace s') = true /\ nt_connected (y_net s') = true /\ in_flight (now_ledger (sc rt 10 10 false) s) = [3; 1; 2].
Proof.
  assert (forall c ms ms', all_equal (snd (a_play c false ms (init c, line0))) -> all_equal (snd (a_play c true ms' (fst (a_play c false ms (init c, line0))))) ->
    exists k, attended c (fst (fst (a_play c false ms (init c, line0)))) (snd (fst (a_play c false ms (init c, line0)))) /\
      toils c k (fst (fst (a_play c false ms (init c, line0)))) (snd (fst (a_play c false ms (init c, line0))))
        (fst (fst (a_play c true ms' (fst (a_play c false ms (init c, line0)))))) (snd (fst (a_play c true ms' (fst (a_play c false ms (init c, line0))))))) as K.
  { intros c ms ms' H1 H2. pose proof (a_attended _ _ H1) as X1. destruct (a_toils c ms' (fst (a_play c false ms (init c, line0))) (attended_reachable _ _ _ X1) H2) as [k X2]. exists k. split; [exact X1|exact X2]. }
  destruct rt; [destruct (K (sc Tokio 10 10 false) ac_before (ac_work Tokio)) as (k & H1 & H2)|destruct (K (sc Smol 10 10 false) ac_before (ac_work Smol)) as (k & H1 & H2)].
  1,2,4,5: vm_compute; repeat constructor.
  all: eexists k, _, _, _, _; split; [exact H1|]; split; [vm_compute; reflexivity|]; split; [exact H2|]; pose proof (attended_reachable _ _ _ (toils_attended _ _ _ _ _ _ H1 H2)) as HR.
  all: split; [eapply select_rest; [exact HR|vm_compute; reflexivity|vm_compute; reflexivity|vm_compute; reflexivity|vm_compute; reflexivity|vm_compute; reflexivity|vm_compute; reflexivity]|].
  all: repeat apply conj; vm_compute; reflexivity.
Qed.
(* tokio: connect reports success although a publish was not sent again *)
Definition ac_lost : list amove :=
  ac_connect true [] false ++ ac_do (sc_pub AtLeastOnce) ++ [AX; AC true (EReadErr Io)] ++ ac_connect true [false] true.
Lemma lost_case : exists s w, attended (sc Tokio 10 10 false) s w /\ nt_connected (y_net s) = true /\ at_rest (sc Tokio 10 10 false) s w /\ ln_live w = true /\ In 1 (in_flight (now_ledger (sc Tokio 10 10 false) s)).
Proof.
  assert (attended (sc Tokio 10 10 false) (fst (fst (a_play (sc Tokio 10 10 false) false ac_lost (init (sc Tokio 10 10 false), line0)))) (snd (fst (a_play (sc Tokio 10 10 false) false ac_lost (init (sc Tokio 10 10 false), line0))))) as H by (apply a_attended; vm_compute; repeat constructor).
  eexists _, _. split; [exact H|]. split; [vm_compute; reflexivity|].
  split; [eapply select_rest; [exact (attended_reachable _ _ _ H)|vm_compute; reflexivity|vm_compute; reflexivity|vm_compute; reflexivity|vm_compute; reflexivity|vm_compute; reflexivity|vm_compute; reflexivity]|].
  split; [vm_compute; reflexivity|]. vm_compute. now left.
Qed.
