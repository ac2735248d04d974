(* C73: examples. *)
From Verif Require Import Base VarInt Prims Props Codes Packets BaseFacts Options Session Client System SpecSession SpecPolite SpecSource Cases Scenario PoliteAll PoliteCases SourceAll.

Definition ssee (o : out) (w : source) (eqs : list (packet * packet)) : option (source * list (packet * packet)) :=
  match lsee false o (so_line w) eqs with
  | Some (ln, q) =>
    let off := match o with OConnect => true | _ => false end in
    Some (Source ln (if off then false else so_in w) (so_session w) (so_out w) (if off then [] else so_again w) (so_log w ++ [Client o]), q)
  | None => None
  end.
Fixpoint ssees (l : list out) (w : source) (eqs : list (packet * packet)) : option (source * list (packet * packet)) :=
  match l with [] => Some (w, eqs) | o :: l' => match ssee o w eqs with Some (w', q) => ssees l' w' q | None => None end end.
Lemma ssee_sound o w eqs w' q : ssee o w eqs = Some (w', q) -> all_equal q -> sees o w w' /\ all_equal eqs.
Proof.
  unfold ssee. destruct (lsee false o (so_line w) eqs) as [[ln q0]|] eqn:E; [|discriminate]. intros H HE. injection H as <- <-. destruct (lsee_sound _ _ _ _ _ _ E HE) as [H1 H2].
  split; [|exact H2]. unfold sees. cbn. repeat apply conj; auto. destruct o; auto.
Qed.
Lemma ssees_sound l : forall w eqs w' q, ssees l w eqs = Some (w', q) -> all_equal q -> sees_all l w w' /\ all_equal eqs.
Proof.
  induction l as [|o l IH]; intros w eqs w' q H HE; cbn [ssees] in H.
  - injection H as <- <-. split; [constructor|exact HE].
  - destruct (ssee o w eqs) as [[w1 q1]|] eqn:E; [|discriminate]. destruct (IH _ _ _ _ H HE) as [H1 H2]. destruct (ssee_sound _ _ _ _ _ E H2) as [H3 H4].
    split; [econstructor; eassumption|exact H4].
Qed.

(* SAccept present; SStart x; SAgain: the first message to be sent again; SAck n: the acknowledgement that comes next is
   that of the n-th message; SSend p; SCut *)
Inductive smove := SC (e : event) | SAccept (present : bool) | SStart (x : publish) | SAgain | SAck (n : nat) | SSend (p : packet) | SCut.
Definition starts (x : publish) (out : list (publish * bool)) : bool :=
  match pb_qos x, pb_dup x, pb_pkid x with
  | AtMostOnce, _, _ | _, true, _ | _, _, None => false
  | _, false, Some i => negb (existsb (numbered i) out)
  end.
Definition has_id (x : publish) (i : N) : bool := match pb_pkid x with Some j => j =? i | None => false end.
Definition broker_moves (m : smove) (w : source) : option source :=
  let 'Source (Line us u d v) n h out ag l := w in
  match m with
  | SC _ => None
  | SAccept b =>
    match u, n with
    | PConnect cn :: u', false =>
      if implb b (h && negb (cn_clean_start cn)) then Some (Source (Line us u' (d ++ [sc_connack b]) v) true true (if b then out else []) (if b then out else []) l) else None
    | _, _ => None
    end
  | SStart x => if n && starts x out then Some (Source (Line us u (d ++ [PPublish x]) v) true h (out ++ [(x, false)]) ag (l ++ [Start x])) else None
  | SAgain =>
    match ag, n with
    | (x, b) :: ag', true =>
      match b, pb_pkid x with
      | false, _ => Some (Source (Line us u (d ++ [PPublish (repeated x)]) v) true h out ag' l)
      | true, Some i => Some (Source (Line us u (d ++ [PPubRel (sc_ack i)]) v) true h out ag' l)
      | _, _ => None
      end
    | _, _ => None
    end
  | SAck k =>
    match u, skipn k out, n with
    | PPubAck a :: u', (x, false) :: o2, true =>
      if match pb_qos x with AtLeastOnce => has_id x (ak_id a) | _ => false end then Some (Source (Line us u' d v) true h (firstn k out ++ o2) ag (l ++ [Finish x])) else None
    | PPubRec a :: u', (x, false) :: o2, true =>
      if match pb_qos x with ExactlyOnce => has_id x (ak_id a) | _ => false end then Some (Source (Line us u' (d ++ [PPubRel (sc_ack (ak_id a))]) v) true h (firstn k out ++ (x, true) :: o2) ag l) else None
    | PPubComp a :: u', (x, true) :: o2, true =>
      if has_id x (ak_id a) then Some (Source (Line us u' d v) true h (firstn k out ++ o2) ag (l ++ [Finish x])) else None
    | _, _, _ => None
    end
  | SSend p => if n && negb (withheld p) then Some (Source (Line us u (d ++ [p]) v) true h out ag l) else None
  | SCut => Some (Source (Line us [] d false) false h out [] l)
  end.
Lemma has_id_sound x i : has_id x i = true -> pb_pkid x = Some i.
Proof. unfold has_id. destruct (pb_pkid x); [|discriminate]. intros H. apply N.eqb_eq in H. now subst. Qed.
Lemma broker_sound m w w' : broker_moves m w = Some w' -> source_step w w'.
Proof.
  destruct w as [[us u d v] n h out ag l]. destruct m; cbn [broker_moves]; try discriminate.
  - destruct u as [|[]]; try discriminate. destruct n; [discriminate|]. destruct (implb _ _) eqn:E; [|discriminate]. intros H. injection H as <-.
    destruct present; (apply (so_accept c (ConnAck true RSuccess no_props)) || apply (so_accept c (ConnAck false RSuccess no_props))); cbn; try reflexivity; try discriminate.
    intros _. cbn in E. apply andb_prop in E as [E1 E2]. apply negb_true_iff in E2. auto.
  - destruct n; [|discriminate]. unfold starts. cbn [andb]. destruct (pb_qos x) eqn:Q; [discriminate| |]; (destruct (pb_dup x) eqn:DU; [discriminate|]; destruct (pb_pkid x) as [i|] eqn:EI; [|discriminate]);
      destruct (existsb _ _) eqn:EE; try discriminate; intros H; injection H as <-; eapply so_start; eauto; congruence.
  - destruct ag as [|[x b] ag]; [discriminate|]. destruct n; [|discriminate]. destruct b.
    + destruct (pb_pkid x) as [i|] eqn:EI; [|discriminate]. intros H. injection H as <-. apply (so_resend (x, true) _ _ _ _ _ _ _ [] ag). cbn. exists (Ack i RSuccess no_props). auto.
    + intros H. injection H as <-. apply (so_resend (x, false) _ _ _ _ _ _ _ [] ag). reflexivity.
  - destruct u as [|[]]; try discriminate; (destruct (skipn n0 out) as [|[x []] o2] eqn:ES; try discriminate); (destruct n; [|discriminate]).
    all: match goal with |- (if ?b then _ else _) = _ -> _ => destruct b eqn:EB; [|discriminate] end; intros H; injection H as <-; rewrite <- (firstn_skipn n0 out) at 1; rewrite ES.
    + destruct (pb_qos x) eqn:Q; try discriminate EB. apply so_puback; [exact Q|now apply has_id_sound].
    + destruct (pb_qos x) eqn:Q; try discriminate EB. apply so_pubrec; [exact Q|now apply has_id_sound|reflexivity].
    + apply so_pubcomp. now apply has_id_sound.
  - destruct n; [|discriminate]. destruct (withheld p) eqn:E; [discriminate|]. intros H. injection H as <-. now apply so_send.
  - intros H. injection H as <-. apply so_cut.
Qed.
Definition smoves (c : config) (m : smove) (s : sys) (w : source) (eqs : list (packet * packet)) : option (sys * source * list (packet * packet)) :=
  match m with
  | SC e => match step c e s with
            | Some s' => match ssees (skipn (length (trace s)) (trace s')) w eqs with Some (w', q) => Some (s', w', q) | None => None end
            | None => None
            end
  | _ => match broker_moves m w with Some w' => Some (s, w', eqs) | None => None end
  end.
Lemma smoves_sound c m s w eqs s' w' q : sourced c s w -> smoves c m s w eqs = Some (s', w', q) -> all_equal q -> sourced c s' w' /\ all_equal eqs.
Proof.
  intros HJ H HE. assert (match broker_moves m w with Some w' => Some (s, w', eqs) | None => None end = Some (s', w', q) -> sourced c s' w' /\ all_equal eqs) as HB.
  { destruct (broker_moves m w) eqn:E; [|discriminate]. intros X. injection X as <- <- <-. split; [eapply sr_broker; [exact HJ|eapply broker_sound; exact E]|exact HE]. }
  destruct m; cbn [smoves] in H; try (exact (HB H)). destruct (step c e s) as [s1|] eqn:ES; [|discriminate].
  destruct (step_tcase _ _ _ _ (sourced_reachable _ _ _ HJ) ES) as (l & st & w1 & ch & n & q1 & t & _ & ->). rewrite next_trace in H.
  rewrite skipn_app, skipn_all, Nat.sub_diag in H. cbn [skipn app] in H.
  destruct (ssees l w eqs) as [[w2 q2]|] eqn:EO; [|discriminate]. injection H as <- <- <-. destruct (ssees_sound _ _ _ _ _ EO HE) as [H1 H2].
  split; [|exact H2]. eapply (sr_client c s w e); [exact HJ|exact ES|apply next_trace|exact H1].
Qed.
Lemma smoves_mono c m s w eqs s' w' q : smoves c m s w eqs = Some (s', w', q) -> all_equal q -> all_equal eqs.
Proof.
  intros H HE. assert (match broker_moves m w with Some w' => Some (s, w', eqs) | None => None end = Some (s', w', q) -> all_equal eqs) as HB.
  { destruct (broker_moves m w); [|discriminate]. intros X. now injection X as <- <- <-. }
  destruct m; cbn [smoves] in H; try (exact (HB H)). destruct (step c e s); [|discriminate]. destruct (ssees _ w eqs) as [[w2 q2]|] eqn:EO; [|discriminate]. injection H as <- <- <-. apply (ssees_sound _ _ _ _ _ EO HE).
Qed.
Fixpoint splay (c : config) (ms : list smove) (s : sys) (w : source) (eqs : list (packet * packet)) : option (sys * source * list (packet * packet)) :=
  match ms with [] => Some (s, w, eqs) | m :: ms' => match smoves c m s w eqs with Some (s', w', q) => splay c ms' s' w' q | None => None end end.
Lemma splay_mono c ms : forall s w eqs s' w' q, splay c ms s w eqs = Some (s', w', q) -> all_equal q -> all_equal eqs.
Proof.
  induction ms as [|m ms IH]; intros s w eqs s' w' q H HE; cbn [splay] in H; [now injection H as <- <- <-|].
  destruct (smoves c m s w eqs) as [[[s1 w1] q1]|] eqn:E; [|discriminate]. eapply smoves_mono; [exact E|]. eapply IH; eassumption.
Qed.
Lemma splay_sound c ms : forall s w eqs s' w' q, splay c ms s w eqs = Some (s', w', q) -> all_equal q -> sourced c s w -> sourced c s' w'.
Proof.
  induction ms as [|m ms IH]; intros s w eqs s' w' q H HE HJ; cbn [splay] in H; [now injection H as <- <- <-|].
  destruct (smoves c m s w eqs) as [[[s1 w1] q1]|] eqn:E; [|discriminate].
  pose proof (splay_mono _ _ _ _ _ _ _ _ H HE) as HE1. destruct (smoves_sound _ _ _ _ _ _ _ _ HJ E HE1) as [H1 H2]. eapply IH; eassumption.
Qed.
Definition s_play (c : config) (ms : list smove) : sys * source * list (packet * packet) :=
  match splay c ms (init c) source0 [] with Some r => r | None => (init c, source0, []) end.
Lemma s_sound c ms : all_equal (snd (s_play c ms)) -> sourced c (fst (fst (s_play c ms))) (snd (fst (s_play c ms))).
Proof.
  unfold s_play. destruct (splay c ms (init c) source0 []) as [[[s w] q]|] eqn:E; intros H; cbn [fst snd] in *; [|constructor]. eapply splay_sound; [exact E|exact H|constructor].
Qed.
Ltac s_run c ms := exists (fst (fst (s_play c ms))), (snd (fst (s_play c ms))); split; [apply s_sound; vm_compute; repeat constructor|].

Definition s_connect (present : bool) : list smove :=
  [SC EConnect; SC (EWrite true); SAccept present; SC (EPacket (sc_connack present)); SC EHandled; SC (EWrites [] true); SC ERun].
Definition s_msg (dup : bool) (q : qos) (i : N) : publish := Publish dup q false sc_topic (Some i) no_props sc_payload.
Definition s_in (p : packet) : list smove := [SC (EPacket p); SC EHandled; SC (EWrite true)].
(* both messages are received; the connection breaks before PUBREC and PUBACK arrive, and both exchanges are completed on the next connection *)
Definition s_both : list smove :=
  s_connect false ++ [SStart (s_msg false AtLeastOnce 1); SStart (s_msg false ExactlyOnce 2)] ++ s_in (PPublish (s_msg false AtLeastOnce 1)) ++ s_in (PPublish (s_msg false ExactlyOnce 2)) ++
  [SCut; SC (EReadErr Io)] ++ s_connect true ++ [SAgain; SAgain] ++ s_in (PPublish (s_msg true AtLeastOnce 1)) ++ [SC (EPacket (PPublish (s_msg true ExactlyOnce 2))); SC (EWrite true)] ++
  [SAck 0; SAck 0] ++ s_in (PPubRel (sc_ack 2)) ++ [SAck 0].
Definition finished (l : list moment) : list publish := flat_map (fun m => match m with Finish x => [x] | _ => [] end) l.
Definition handed (l : list moment) : list publish := flat_map (fun m => match m with Client (OHandle (PPublish y)) => [y] | _ => [] end) l.
Lemma both_case rt : exists s w, sourced (sc rt 10 10 false) s w /\ finished (so_log w) = [s_msg false AtLeastOnce 1; s_msg false ExactlyOnce 2] /\
  handed (so_log w) = [s_msg false AtLeastOnce 1; s_msg false ExactlyOnce 2; s_msg true AtLeastOnce 1].
Proof. destruct rt; [s_run (sc Tokio 10 10 false) s_both|s_run (sc Smol 10 10 false) s_both]; vm_compute; split; reflexivity. Qed.
(* the message does not arrive before the connection breaks *)
Definition s_lost : list smove :=
  s_connect false ++ [SStart (s_msg false ExactlyOnce 1); SCut; SC (EReadErr Io)] ++ s_connect true ++ [SAgain; SC (EPacket (PPublish (s_msg true ExactlyOnce 1))); SC (EWrite true); SAck 0] ++
  s_in (PPubRel (sc_ack 1)) ++ [SAck 0].
Lemma never_case rt : exists s w, sourced (sc rt 10 10 false) s w /\ finished (so_log w) = [s_msg false ExactlyOnce 1] /\ handed (so_log w) = [].
Proof. destruct rt; [s_run (sc Tokio 10 10 false) s_lost|s_run (sc Smol 10 10 false) s_lost]; vm_compute; split; reflexivity. Qed.
Lemma in_finished x l : In x (finished l) -> In (Finish x) l.
Proof. unfold finished. intros H. apply in_flat_map in H as (m & H1 & H2). destruct m; try contradiction. destruct H2 as [->|[]]. exact H1. Qed.
Lemma in_handed y l : In (Client (OHandle (PPublish y))) l -> In y (handed l).
Proof. intros H. unfold handed. apply in_flat_map. eexists. split; [exact H|]. now left. Qed.
Lemma never_refuted rt : exists s w x, sourced (sc rt 10 10 false) s w /\ In (Finish x) (so_log w) /\ pb_qos x = ExactlyOnce /\ forall y, ~ In (OHandle (PPublish y)) (trace s).
Proof.
  destruct (never_case rt) as (s & w & H1 & H2 & H3). exists s, w, (s_msg false ExactlyOnce 1). repeat apply conj; auto.
  - apply in_finished. rewrite H2. now left.
  - intros y X. rewrite <- (sourced_log _ _ _ H1) in X. unfold of_client in X. apply in_flat_map in X as (m & X1 & X2). destruct m; try contradiction. destruct X2 as [->|[]]. apply in_handed in X1. rewrite H3 in X1. contradiction.
Qed.
