(* C67: what the stages say about the log; examples. *)
From Coq Require Import Permutation.
From Verif Require Import Base VarInt Prims Props Codes Packets BaseFacts Options Session Client System SpecSession SpecNet SpecWorld SessionFacts SystemFacts AckFacts IdFacts Cases NetFacts NetMore OutFacts Scenario WorldFacts WorldMore WorldAll.

Definition story (i : N) (l : list seen) (t : stage) : Prop :=
  match t with
  | Free => True
  | Asked p => exists l1 l2, l = l1 ++ Saw (OBegin p) :: l2 /\ has_id i p = true /\ Forall (neither i) l2
  | Passed x => exists l1 l2 y l3, l = l1 ++ Saw (OBegin (PPublish x)) :: l2 ++ Pass y :: l3 /\ has_id i (PPublish x) = true /\ same x y /\
      Forall (neither i) l2 /\ Forall (no_request i) l3 /\ (pb_qos x = ExactlyOnce -> Forall (neither i) l3)
  end.
Lemma concerns_neither i e : concerns i e = false -> neither i e.
Proof. destruct e as [[]|]; cbn; auto. Qed.
Lemma neither_no i e : neither i e -> no_request i e.
Proof. destruct e as [[]|]; cbn; auto. Qed.
Lemma story_more i l t e : story i l t -> neither i e -> story i (l ++ [e]) t.
Proof.
  intros H HE. destruct t; cbn [story] in *; [exact I| |].
  - destruct H as (l1 & l2 & -> & H1 & H2). exists l1, (l2 ++ [e]). rewrite <- app_assoc. split; [reflexivity|]. split; [exact H1|]. apply Forall_app. auto.
  - destruct H as (l1 & l2 & y & l3 & -> & H1 & H2 & H3 & H4 & H5). exists l1, l2, y, (l3 ++ [e]). split; [now rewrite <- app_assoc; cbn [app]; rewrite <- app_assoc|].
    repeat split; auto; [apply Forall_app; split; [exact H4|]; constructor; [now apply neither_no|constructor]|]. intros X. apply Forall_app. auto.
Qed.
Lemma follows_story i l t : follows i l t -> story i l t.
Proof.
  induction 1 as [|l t e t' HF IH HN]; [exact I|]. destruct HN; try exact I.
  - exists l, []. auto.
  - destruct IH as (l1 & l2 & -> & H1 & H2). exists l1, l2, y, []. rewrite <- app_assoc. repeat split; auto.
  - destruct IH as (l1 & l2 & z & l3 & -> & H1 & H2 & H3 & H4 & H5). exists l1, l2, z, (l3 ++ [Pass y]).
    split; [now rewrite <- app_assoc; cbn [app]; rewrite <- app_assoc|]. repeat split; auto; [apply Forall_app; split; [exact H4|repeat constructor]|congruence].
  - apply story_more; [exact IH|exact I].
  - apply story_more; [exact IH|now apply concerns_neither].
Qed.
Lemma follows_at i l t l1 e l2 : follows i l t -> l = l1 ++ e :: l2 -> exists t1 t2, follows i l1 t1 /\ next_stage i t1 e t2.
Proof.
  intros H. revert l2. induction H as [|l t e0 t' HF IH HN]; intros l2 E; [destruct l1; discriminate|].
  destruct l2 as [|f l2 _] using rev_ind.
  - apply app_inj_tail in E as [-> ->]. eauto.
  - rewrite app_comm_cons, app_assoc in E. apply app_inj_tail in E as [E _]. eauto.
Qed.
Lemma same_has i x y : same x y -> has_id i (PPublish x) = has_id i (PPublish y).
Proof. intros H. unfold has_id. cbn. now rewrite (same_id _ _ H). Qed.

Lemma world_at c s w i l1 e l2 : config_ok c -> joint c true s w -> wd_log w = l1 ++ e :: l2 -> exists t1 t2, next_stage i t1 e t2 /\ story i l1 t1.
Proof.
  intros HC HJ E. destruct (follows_all c s w i HC HJ) as [t HF]. destruct (follows_at _ _ _ _ _ _ HF E) as (t1 & t2 & H1 & H2). eauto using follows_story.
Qed.
Lemma passed_once c s w i y l1 l2 : config_ok c -> joint c true s w -> wd_log w = l1 ++ Pass y :: l2 -> pb_pkid y = Some i -> pb_qos y = ExactlyOnce ->
  exists x l3 l4, l1 = l3 ++ Saw (OBegin (PPublish x)) :: l4 /\ same x y /\ Forall (neither i) l4.
Proof.
  intros HC HJ E HI HQ. destruct (world_at c s w i l1 _ l2 HC HJ E) as (t1 & t2 & HN & HS). inversion HN; subst.
  - destruct HS as (l3 & l4 & -> & K1 & K2). eauto 10.
  - match goal with H : same _ _ |- _ => apply same_qos in H end. congruence.
  - cbn in *. unfold has_id in *. cbn in *. rewrite HI, N.eqb_refl in *. discriminate.
Qed.
Lemma passed_wanted c s w i y l1 l2 : config_ok c -> joint c true s w -> wd_log w = l1 ++ Pass y :: l2 -> pb_pkid y = Some i ->
  exists x l3 l4, l1 = l3 ++ Saw (OBegin (PPublish x)) :: l4 /\ same x y /\ Forall (no_request i) l4.
Proof.
  intros HC HJ E HI. destruct (world_at c s w i l1 _ l2 HC HJ E) as (t1 & t2 & HN & HS). inversion HN; subst.
  - destruct HS as (l3 & l4 & -> & K1 & K2). exists x, l3, l4. repeat split; auto. eapply Forall_impl; [|exact K2]. apply neither_no.
  - destruct HS as (l3 & l4 & z & l5 & -> & K1 & K2 & K3 & K4 & K5). exists x, l3, (l4 ++ Pass z :: l5). split; [reflexivity|]. split; [assumption|].
    apply Forall_app. split; [eapply Forall_impl; [|exact K3]; apply neither_no|]. constructor; [exact I|exact K4].
  - cbn in *. unfold has_id in *. cbn in *. rewrite HI, N.eqb_refl in *. discriminate.
Qed.
Lemma has_some i x : has_id i (PPublish x) = true -> pb_pkid x = Some i.
Proof. intros H. now apply has_id_spec in H. Qed.
Lemma completed c s w a l1 l2 : config_ok c -> joint c true s w -> wd_log w = l1 ++ Saw (ORead (PPubComp a)) :: l2 -> done_once (ak_id a) l1.
Proof.
  intros HC HJ E. destruct (world_at c s w (ak_id a) l1 _ l2 HC HJ E) as (t1 & t2 & HN & HS). inversion HN; subst.
  - destruct HS as (l3 & l4 & z & l5 & -> & K1 & K2 & K3 & K4 & K5). exists x, z, l3, l4, l5. repeat split; auto. now apply has_some.
  - cbn in *. rewrite N.eqb_refl in *. discriminate.
Qed.
Lemma received_once c s w a l1 l2 : config_ok c -> joint c true s w -> wd_log w = l1 ++ Saw (ORead (PPubRec a)) :: l2 -> rec_accepts (ak_rc a) = true -> done_once (ak_id a) l1.
Proof.
  intros HC HJ E HA. destruct (world_at c s w (ak_id a) l1 _ l2 HC HJ E) as (t1 & t2 & HN & HS). inversion HN; subst.
  - destruct HS as (l3 & l4 & z & l5 & -> & K1 & K2 & K3 & K4 & K5). exists x, z, l3, l4, l5. repeat split; auto. now apply has_some.
  - cbn in *. rewrite HA, N.eqb_refl in *. discriminate.
Qed.
Lemma acked c s w a l1 l2 : config_ok c -> joint c true s w -> wd_log w = l1 ++ Saw (ORead (PPubAck a)) :: l2 -> rec_accepts (ak_rc a) = true ->
  exists x y l3 l4 l5, l1 = l3 ++ Saw (OBegin (PPublish x)) :: l4 ++ Pass y :: l5 /\ pb_pkid x = Some (ak_id a) /\ pb_qos x = AtLeastOnce /\ same x y /\
    Forall (no_request (ak_id a)) l4 /\ Forall (no_request (ak_id a)) l5.
Proof.
  intros HC HJ E HA. destruct (world_at c s w (ak_id a) l1 _ l2 HC HJ E) as (t1 & t2 & HN & HS). inversion HN; subst.
  - destruct HS as (l3 & l4 & z & l5 & -> & K1 & K2 & K3 & K4 & K5). exists x, z, l3, l4, l5. repeat split; auto; [now apply has_some|]. eapply Forall_impl; [|exact K3]. apply neither_no.
  - congruence.
  - cbn in *. rewrite N.eqb_refl in *. discriminate.
Qed.

(* ---- playing a case --------------------------------------------------------------------------------- *)
(* the last component: packets that must be equal *)
Definition see_fun (o : out) (arrives on : bool) (w : world) (eqs : list (packet * packet)) : option (world * list (packet * packet)) :=
  let 'World us u d v n h r st l := w in
  let l' := l ++ [Saw o] in
  match o with
  | OConnect => if us then None else Some (World false [] [] true false h r st l', eqs)
  | OWrite _ p => Some (World us (push v p u) d v n h r st l', eqs)
  | OWriteFail _ p => Some (World us (push (v && arrives) p u) d (v && on) n h r st l', eqs)
  | OAnswer k => match d with p :: d' => Some (World us u d' v n h r (st && negb (told p)) (l ++ [Saw (OAnswer p)]), (k, p) :: eqs) | [] => None end
  | ORead k => match d with p :: d' => Some (World us u d' v n h r st (l ++ [Saw (ORead p)]), (k, p) :: eqs) | [] => None end
  | OConnectEnd None => Some (World true u d v n h r st l', eqs)
  | ORunEnd _ => Some (World false u d v n h r st l', eqs)
  | _ => Some (World us u d v n h r st l', eqs)
  end.
Fixpoint sees (l : list out) (arrives on : bool) (w : world) (eqs : list (packet * packet)) : option (world * list (packet * packet)) :=
  match l with [] => Some (w, eqs) | o :: l' => match see_fun o arrives on w eqs with Some (w', q) => sees l' arrives on w' q | None => None end end.
Definition equal_all (eqs : list (packet * packet)) : Prop := Forall (fun x => fst x = snd x) eqs.
Lemma see_sound o a on w eqs w' q : see_fun o a on w eqs = Some (w', q) -> equal_all q -> observed o w w' /\ equal_all eqs.
Proof.
  destruct w as [us u d v n h r st l]. intros H HE. destruct o; cbn [see_fun] in H;
    try (injection H as <- <-; split; [now constructor|exact HE]).
  - destruct us; [discriminate|]. injection H as <- <-. split; [constructor|exact HE].
  - destruct r0; injection H as <- <-; (split; [now constructor|exact HE]).
  - destruct d as [|k d]; [discriminate|]. injection H as <- <-. inversion HE; subst. cbn in *. subst. split; [constructor|assumption].
  - destruct d as [|k d]; [discriminate|]. injection H as <- <-. inversion HE; subst. cbn in *. subst. split; [constructor|assumption].
Qed.
Lemma sees_sound l a on : forall w eqs w' q, sees l a on w eqs = Some (w', q) -> equal_all q -> observes l w w' /\ equal_all eqs.
Proof.
  induction l as [|o l IH]; intros w eqs w' q H HE; cbn [sees] in H.
  - injection H as <- <-. split; [constructor|exact HE].
  - destruct (see_fun o a on w eqs) as [[w1 q1]|] eqn:E; [|discriminate]. destruct (IH _ _ _ _ H HE) as [H1 H2]. destruct (see_sound _ _ _ _ _ _ _ E H2) as [H3 H4].
    split; [econstructor; eassumption|exact H4].
Qed.

(* the broker's moves in the examples *)
Inductive bmove := BAccept (present : bool) | BPass1 | BPass2 | BAgain2 | BRelease | BCut | BForget.
Definition good (i : N) : ack := Ack i RSuccess no_props.
Definition bmoves (fair : bool) (m : bmove) (w : world) : option world :=
  let 'World us u d v n h r st l := w in
  match m, u with
  | BAccept b, PConnect cn :: u' =>
    if negb n && (negb b || (h && negb (cn_clean_start cn) && (negb fair || negb st)))
    then Some (World us u' (d ++ [sc_connack b]) v true true (if b then r else []) (if b then st else st || h) l) else None
  | BPass1, PPublish x :: u' =>
    match pb_qos x, pb_pkid x, n with AtLeastOnce, Some i, true => Some (World us u' (d ++ [PPubAck (good i)]) v true h r st (l ++ [Pass x])) | _, _, _ => None end
  | BPass2, PPublish x :: u' =>
    match pb_qos x, pb_pkid x, n with
    | ExactlyOnce, Some i, true => if mem i r then None else Some (World us u' (d ++ [PPubRec (good i)]) v true h (i :: r) st (l ++ [Pass x]))
    | _, _, _ => None end
  | BAgain2, PPublish x :: u' =>
    match pb_qos x, pb_pkid x, n with
    | ExactlyOnce, Some i, true => if mem i r then Some (World us u' (d ++ [PPubRec (good i)]) v true h r st l) else None
    | _, _, _ => None end
  | BRelease, PPubRel b :: u' => if n then Some (World us u' (d ++ [PPubComp (good (ak_id b))]) v true h (drop_id (ak_id b) r) st l) else None
  | BCut, _ => Some (World us [] d false false h r st l)
  | BForget, _ => if n then None else Some (World us u d v false false [] (st || h) l)
  | _, _ => None
  end.
Lemma mem_in i l : mem i l = true <-> In i l.
Proof. apply existsb_in. Qed.
Lemma bmoves_sound fair m w w' : bmoves fair m w = Some w' -> broker fair w w'.
Proof.
  destruct w as [us u d v n h r st l]. intros H. destruct m; cbn [bmoves] in H.
  - destruct u as [|[] u]; try discriminate. destruct (negb n && _) eqn:E; [|discriminate]. injection H as <-. apply andb_true_iff in E as [E1 E2]. destruct n; [discriminate|].
    apply (br_accept fair c (ConnAck present RSuccess no_props)); [reflexivity|]. cbn. intros ->. cbn in E2. apply andb_true_iff in E2 as [E2 E3]. apply andb_true_iff in E2 as [E2 E4].
    split; [exact E2|]. split; [now destruct (cn_clean_start c)|]. intros ->. cbn in E3. now destruct st.
  - destruct u as [|[] u]; try discriminate. destruct (pb_qos p) eqn:E1; try discriminate. destruct (pb_pkid p) as [i|] eqn:E2; [|discriminate]. destruct n; [|discriminate]. injection H as <-.
    now apply (br_pass1 fair p i).
  - destruct u as [|[] u]; try discriminate. destruct (pb_qos p) eqn:E1; try discriminate. destruct (pb_pkid p) as [i|] eqn:E2; [|discriminate]. destruct n; [|discriminate].
    destruct (mem i r) eqn:E3; [discriminate|]. injection H as <-. apply (br_pass2 fair p i); auto. rewrite <- mem_in. congruence.
  - destruct u as [|[] u]; try discriminate. destruct (pb_qos p) eqn:E1; try discriminate. destruct (pb_pkid p) as [i|] eqn:E2; [|discriminate]. destruct n; [|discriminate].
    destruct (mem i r) eqn:E3; [|discriminate]. injection H as <-. apply (br_again2 fair p i); auto. now rewrite <- mem_in.
  - destruct u as [|[] u]; try discriminate. destruct n; [|discriminate]. injection H as <-. now apply br_release.
  - injection H as <-. apply br_cut.
  - destruct n; [discriminate|]. injection H as <-. apply br_forget.
Qed.

Inductive move := MC (e : event) | MF (arrives on : bool) (e : event) | MB (m : bmove).
Definition client_move (c : config) (e : event) (a on : bool) (s : sys) (w : world) (eqs : list (packet * packet)) : option (sys * world * list (packet * packet)) :=
  match step c e s with
  | Some s' => match sees (skipn (length (trace s)) (trace s')) a on w eqs with Some (w', q) => Some (s', w', q) | None => None end
  | None => None
  end.
Definition one (c : config) (fair : bool) (m : move) (s : sys) (w : world) (eqs : list (packet * packet)) : option (sys * world * list (packet * packet)) :=
  match m with
  | MB b => match bmoves fair b w with Some w' => Some (s, w', eqs) | None => None end
  | MC e => client_move c e true true s w eqs
  | MF a on e => client_move c e a on s w eqs
  end.
Fixpoint play (c : config) (fair : bool) (ms : list move) (s : sys) (w : world) (eqs : list (packet * packet)) : option (sys * world * list (packet * packet)) :=
  match ms with [] => Some (s, w, eqs) | m :: ms' => match one c fair m s w eqs with Some (s', w', q) => play c fair ms' s' w' q | None => None end end.
Lemma client_move_sound c fair e a on s w eqs s' w' q : joint c fair s w -> client_move c e a on s w eqs = Some (s', w', q) -> equal_all q -> joint c fair s' w' /\ equal_all eqs.
Proof.
  intros HJ H HE. unfold client_move in H. destruct (step c e s) as [s1|] eqn:ES; [|discriminate].
  destruct (step_tcase _ _ _ _ (joint_reachable _ _ _ _ HJ) ES) as (l & st & w1 & ch & n & q1 & t & _ & ->). rewrite next_trace in H.
  rewrite skipn_app, skipn_all, Nat.sub_diag in H. cbn [skipn app] in H.
  destruct (sees l a on w eqs) as [[w2 q2]|] eqn:EO; [|discriminate]. injection H as <- <- <-. destruct (sees_sound _ _ _ _ _ _ _ EO HE) as [H1 H2].
  split; [|exact H2]. eapply j_client; [exact HJ|exact ES|apply next_trace|exact H1].
Qed.
Lemma play_mono c fair : forall ms s w eqs s' w' q, play c fair ms s w eqs = Some (s', w', q) -> equal_all q -> equal_all eqs.
Proof.
  assert (forall e a on s w eqs s' w' q, client_move c e a on s w eqs = Some (s', w', q) -> equal_all q -> equal_all eqs) as HC.
  { intros e a on s w eqs s' w' q H HE. unfold client_move in H. destruct (step c e s); [|discriminate]. destruct (sees _ a on w eqs) as [[w2 q2]|] eqn:EO; [|discriminate].
    injection H as <- <- <-. apply (sees_sound _ _ _ _ _ _ _ EO HE). }
  induction ms as [|m ms IH]; intros s w eqs s' w' q H HE; cbn [play] in H; [now injection H as <- <- <-|].
  destruct (one c fair m s w eqs) as [[[s1 w1] q1]|] eqn:E; [|discriminate]. specialize (IH _ _ _ _ _ _ H HE).
  destruct m; cbn [one] in E; [eapply HC; eassumption|eapply HC; eassumption|]. destruct (bmoves _ _ _); [|discriminate]. now injection E as <- <- <-.
Qed.
Lemma play_sound c fair : forall ms s w eqs s' w' q, joint c fair s w -> play c fair ms s w eqs = Some (s', w', q) -> equal_all q -> joint c fair s' w'.
Proof.
  induction ms as [|m ms IH]; intros s w eqs s' w' q HJ H HE; cbn [play] in H; [now injection H as <- <- <-|].
  destruct (one c fair m s w eqs) as [[[s1 w1] q1]|] eqn:E; [|discriminate]. eapply IH; [|exact H|exact HE]. pose proof (play_mono _ _ _ _ _ _ _ _ _ H HE) as HE1.
  destruct m; cbn [one] in E.
  - exact (proj1 (client_move_sound _ _ _ _ _ _ _ _ _ _ _ HJ E HE1)).
  - exact (proj1 (client_move_sound _ _ _ _ _ _ _ _ _ _ _ HJ E HE1)).
  - destruct (bmoves fair m w) as [w2|] eqn:EB; [|discriminate]. injection E as <- <- <-. eapply j_broker; [exact HJ|]. now apply bmoves_sound with (m := m).
Qed.

(* connect and run; a request; the broker passes it on, but the acknowledgement is lost *)
Definition wc_connect (present : bool) : list move :=
  [MC EConnect; MC (EWrite true); MB (BAccept present); MC (EPacket (sc_connack present)); MC EHandled; MC (EWrites [] true)].
Definition wc_send : list move := [MC ERun; MC (ECall (sc_pub ExactlyOnce)); MC (ESend 0); MC EOutgoing; MC (EWrite true); MB BPass2].
Definition wc_lost : list move := [MB BCut; MC (EReadErr Io)].
Definition wc_finish : list move :=
  [MC ERun; MC (EPacket (PPubRec (good 1))); MC EHandled; MC (EWrite true); MB BRelease; MC (EPacket (PPubComp (good 1))); MC EHandled].
Definition wc_good : list move := wc_connect false ++ wc_send ++ wc_lost ++ wc_connect true ++ [MB BAgain2] ++ wc_finish.
(* the session is given up, and the client is not told *)
Definition wc_bad : list move :=
  wc_connect false ++ wc_send ++ wc_lost ++ [MB BForget; MC EConnect; MC (EWrite true); MB (BAccept false)] ++ [MB BCut; MC (EReadErr Io)] ++ wc_connect true ++ [MB BPass2].
Definition wc_run (rt : runtime) (fair : bool) (ms : list move) := play (sc rt 10 10 false) fair ms (init (sc rt 10 10 false)) world0 [].
Definition is_pass (e : seen) : bool := match e with Pass _ => true | _ => false end.
Definition is_ask (e : seen) : bool := match e with Saw (OBegin _) => true | _ => false end.

Lemma good_case rt : exists s w l1 l2 l3 x y, joint (sc rt 10 10 false) true s w /\ pb_pkid y = Some 1 /\ pb_qos y = ExactlyOnce /\ same x y /\
  wd_log w = l1 ++ Saw (OBegin (PPublish x)) :: l2 ++ Pass y :: l3 ++ [Saw (ORead (PPubComp (good 1))); Saw (OHandle (PPubComp (good 1))); Saw OHandled] /\
  filter is_pass (wd_log w) = [Pass y] /\ In (Saw (OWrite FromResend (dup (PPublish x)))) l3.
Proof.
  destruct (wc_run rt true wc_good) as [[[s w] q]|] eqn:E; [|destruct rt; vm_compute in E; discriminate].
  assert (equal_all q) as HQ by (destruct rt; vm_compute in E; injection E as <- <- <-; repeat constructor).
  exists s, w. pose proof (play_sound _ _ _ _ _ _ _ _ _ (j_init _ _) E HQ) as HJ. destruct rt; vm_compute in E; injection E as <- <- <-.
  all: match type of HJ with joint _ _ _ (World _ _ _ _ _ _ _ _ ?l) =>
    match l with context [Saw (OBegin (PPublish ?x)) :: ?m] => match m with context [Pass ?y :: ?n] =>
      let k1 := eval vm_compute in (length l - length m - 1)%nat in let k2 := eval vm_compute in (length m - length n - 1)%nat in let k3 := eval vm_compute in (length n - 3)%nat in
      exists (firstn k1 l), (firstn k2 m), (firstn k3 n), x, y end end end.
  all: split; [exact HJ|]; clear HJ; repeat split; try reflexivity; try (left; reflexivity).
  all: cbn; repeat (first [left; reflexivity|right]).
Qed.
Lemma bad_case rt : exists s w l1 l2 l3 l4 x y z, joint (sc rt 10 10 false) false s w /\ pb_pkid y = Some 1 /\ pb_qos y = ExactlyOnce /\ same x y /\ same x z /\
  wd_log w = l1 ++ Saw (OBegin (PPublish x)) :: l2 ++ Pass y :: l3 ++ Pass z :: l4 /\ Forall (neither 1) l2 /\ Forall (neither 1) l3.
Proof.
  destruct (wc_run rt false wc_bad) as [[[s w] q]|] eqn:E; [|destruct rt; vm_compute in E; discriminate].
  assert (equal_all q) as HQ by (destruct rt; vm_compute in E; injection E as <- <- <-; repeat constructor).
  exists s, w. pose proof (play_sound _ _ _ _ _ _ _ _ _ (j_init _ _) E HQ) as HJ. destruct rt; vm_compute in E; injection E as <- <- <-.
  all: match type of HJ with joint _ _ _ (World _ _ _ _ _ _ _ _ ?l) =>
    match l with context [Saw (OBegin (PPublish ?x)) :: ?m] => match m with context [Pass ?y :: ?n] => match n with context [Pass ?z :: ?o] =>
      let k1 := eval vm_compute in (length l - length m - 1)%nat in let k2 := eval vm_compute in (length m - length n - 1)%nat in
      let k3 := eval vm_compute in (length n - length o - 1)%nat in exists (firstn k1 l), (firstn k2 m), (firstn k3 n), o, x, y, z end end end end.
  all: split; [exact HJ|]; clear HJ; split; [reflexivity|]; split; [reflexivity|]; split; [left; reflexivity|]; split; [right; reflexivity|]; split; [reflexivity|].
  all: split; cbn [firstn]; repeat constructor.
Qed.
Lemma bad_witness : exists c s w l1 l2 l3 l4 x y z, config_ok c /\ joint c false s w /\ pb_pkid y = Some 1 /\ pb_qos y = ExactlyOnce /\ same x y /\ same x z /\
  wd_log w = l1 ++ Saw (OBegin (PPublish x)) :: l2 ++ Pass y :: l3 ++ Pass z :: l4 /\ Forall (neither 1) l2 /\ Forall (neither 1) l3.
Proof. exists (sc Tokio 10 10 false). destruct (bad_case Tokio) as (s & w & l1 & l2 & l3 & l4 & x & y & z & H). exists s, w, l1, l2, l3, l4, x, y, z. split; [now vm_compute|exact H]. Qed.
