(* C77: what holds for packets holds for bytes, and the cases. *)
From Verif Require Import Base VarInt Prims Props Codes Packets BaseFacts Options Session Client System SpecSession SpecNet SpecCodec SpecRead SpecOut SpecEnd SmolStream TokioRead Wire SpecWire SpecWorld SpecBytes
  SessionFacts WireFacts WireMore WorldFacts WorldAll WorldLog BytesFacts BytesMore BytesWorld BytesPlay Scenario LoopCases OutCases ReadCases.

Definition saw (l : list seen) : list out := flat_map (fun e => match e with Saw o => [o] | _ => [] end) l.
Lemma note_log l : forall w, saw (wd_log (fold_left note l w)) = saw (wd_log w) ++ l.
Proof.
  induction l as [|o l IH]; intros w; cbn [fold_left]; [now rewrite app_nil_r|]. rewrite IH. unfold note. cbn [wd_log]. unfold saw at 1. rewrite flat_map_app. cbn. now rewrite <- app_assoc.
Qed.
Lemma linked_log c chk fair g i k w : linked_up c chk fair g i k w -> saw (wd_log w) = trace (w_sys i).
Proof.
  assert (forall k w w', broker fair (at_broker k w) w' -> saw (wd_log w') = saw (wd_log w)) as HB.
  { intros k0 w0 w' H. change (wd_log w0) with (wd_log (at_broker k0 w0)). destruct H; cbn [wd_log]; trivial; unfold saw; rewrite flat_map_app; cbn; apply app_nil_r. }
  induction 1 as [|x i k w i' l k' H IH HA HX HS HL HF HT|ch rest us u q v i w i' H IH HS|p b rest us q d v i w H IH HP HE|i k w w' bs H IH HBr HK HSe|i k w w' bs H IH HBr HK HSe].
  - reflexivity.
  - now rewrite note_log, HL, IH.
  - rewrite IH. cbn [wstep] in HS. destruct (negb us); injection HS as <-; reflexivity.
  - exact IH.
  - now rewrite (HB _ _ _ HBr).
  - now rewrite (HB _ _ _ HBr).
Qed.
Lemma linked_reachable c chk fair g i k w : linked_up c chk fair g i k w -> wreachable c chk i.
Proof.
  induction 1 as [|x i k w i' l k' H IH HA HX HS HL HF HT|ch rest us u q v i w i' H IH HS|p b rest us q d v i w H IH HP HE|i k w w' bs H IH HBr HK HSe|i k w w' bs H IH HBr HK HSe]; trivial.
  - exists []. reflexivity.
  - exact (wreachable_step _ _ _ _ _ IH HS).
  - exact (wreachable_step _ _ _ _ _ IH HS).
Qed.
(* smol does not lose what it has read *)
Lemma smol_gentle c chk fair g i k w : cf_rt c = Smol -> linked_up c chk fair g i k w -> linked_up c chk fair true i k w.
Proof.
  intros ER H. induction H as [|x i k w i' l k' H IH HA HX HS HL HF HT|ch rest us u q v i w i' H IH HS|p b rest us q d v i w H IH HP HE|i k w w' bs H IH HBr HK HSe|i k w w' bs H IH HBr HK HSe].
  - constructor.
  - eapply lu_client; eauto. intros _. eapply smol_untorn; [exact ER|]. eapply wreachable_step; [|exact HS]. now apply linked_reachable in H.
  - eapply lu_arrive; eauto.
  - eapply lu_decode; eauto.
  - eapply lu_broker; eauto.
  - eapply lu_close; eauto.
Qed.
(* the same log over packets *)
Lemma linked_packets c chk fair g i k w : config_ok c -> built c -> g = true \/ cf_rt c = Smol -> linked_up c chk fair g i k w ->
  exists w0, joint c fair (w_sys i) w0 /\ wd_log w0 = wd_log w.
Proof.
  intros HC HB HG H. assert (linked_up c chk fair true i k w) as H1 by (destruct HG as [-> |HG]; [exact H|now apply smol_gentle with g]).
  destruct (linked_joint _ _ _ _ _ _ HC HB H1) as (u & d & HJ & _). exists (whole k w u d). split; [exact HJ|reflexivity].
Qed.
Lemma linked_once c chk g i0 k w i y l1 l2 : config_ok c -> built c -> g = true \/ cf_rt c = Smol -> linked_up c chk true g i0 k w -> wd_log w = l1 ++ Pass y :: l2 -> pb_pkid y = Some i -> pb_qos y = ExactlyOnce ->
  exists x l3 l4, l1 = l3 ++ Saw (OBegin (PPublish x)) :: l4 /\ same x y /\ Forall (neither i) l4.
Proof. intros HC HB HG H E. destruct (linked_packets _ _ _ _ _ _ _ HC HB HG H) as (w0 & HJ & EL). rewrite <- EL in E. now apply passed_once with (s := w_sys i0) (w := w0) (c := c) (l2 := l2). Qed.
Lemma linked_wanted c chk g i0 k w i y l1 l2 : config_ok c -> built c -> g = true \/ cf_rt c = Smol -> linked_up c chk true g i0 k w -> wd_log w = l1 ++ Pass y :: l2 -> pb_pkid y = Some i ->
  exists x l3 l4, l1 = l3 ++ Saw (OBegin (PPublish x)) :: l4 /\ same x y /\ Forall (no_request i) l4.
Proof. intros HC HB HG H E. destruct (linked_packets _ _ _ _ _ _ _ HC HB HG H) as (w0 & HJ & EL). rewrite <- EL in E. now apply passed_wanted with (s := w_sys i0) (w := w0) (c := c) (l2 := l2). Qed.
Lemma linked_completed c chk g i0 k w a l1 l2 : config_ok c -> built c -> g = true \/ cf_rt c = Smol -> linked_up c chk true g i0 k w -> wd_log w = l1 ++ Saw (ORead (PPubComp a)) :: l2 -> done_once (ak_id a) l1.
Proof. intros HC HB HG H E. destruct (linked_packets _ _ _ _ _ _ _ HC HB HG H) as (w0 & HJ & EL). rewrite <- EL in E. now apply completed with (s := w_sys i0) (w := w0) (c := c) (l2 := l2). Qed.
Lemma linked_received c chk g i0 k w a l1 l2 : config_ok c -> built c -> g = true \/ cf_rt c = Smol -> linked_up c chk true g i0 k w -> wd_log w = l1 ++ Saw (ORead (PPubRec a)) :: l2 ->
  rec_accepts (ak_rc a) = true -> done_once (ak_id a) l1.
Proof. intros HC HB HG H E. destruct (linked_packets _ _ _ _ _ _ _ HC HB HG H) as (w0 & HJ & EL). rewrite <- EL in E. now apply received_once with (s := w_sys i0) (w := w0) (c := c) (l2 := l2). Qed.
Lemma linked_acked c chk g i0 k w a l1 l2 : config_ok c -> built c -> g = true \/ cf_rt c = Smol -> linked_up c chk true g i0 k w -> wd_log w = l1 ++ Saw (ORead (PPubAck a)) :: l2 ->
  rec_accepts (ak_rc a) = true ->
  exists x y l3 l4 l5, l1 = l3 ++ Saw (OBegin (PPublish x)) :: l4 ++ Pass y :: l5 /\ pb_pkid x = Some (ak_id a) /\ pb_qos x = AtLeastOnce /\ same x y /\
    Forall (no_request (ak_id a)) l4 /\ Forall (no_request (ak_id a)) l5.
Proof. intros HC HB HG H E. destruct (linked_packets _ _ _ _ _ _ _ HC HB HG H) as (w0 & HJ & EL). rewrite <- EL in E. now apply acked with (s := w_sys i0) (w := w0) (c := c) (l2 := l2). Qed.
Lemma linked_stages c chk g i0 k w i : config_ok c -> built c -> g = true \/ cf_rt c = Smol -> linked_up c chk true g i0 k w -> exists t, follows i (wd_log w) t.
Proof. intros HC HB HG H. destruct (linked_packets _ _ _ _ _ _ _ HC HB HG H) as (w0 & HJ & <-). now apply follows_all with (s := w_sys i0) (c := c). Qed.

(* ---- the cases ---- *)
(* the moves of the broker in WorldLog.v; LSend: it sends something of its own accord *)
Inductive lmove := LB (m : bmove) | LSend (p : packet).
Definition lmoves (fair : bool) (m : lmove) (w : world) : option world :=
  match m with
  | LB m => bmoves fair m w
  | LSend p =>
    let 'World us u d v n h r st l := w in
    if n && negb (reserved p) then Some (World us u (d ++ [p]) v true h r st l) else None
  end.
Lemma lmoves_sound fair m w w' : lmoves fair m w = Some w' -> broker fair w w'.
Proof.
  destruct m as [m|p]; cbn [lmoves]; intros H; [now apply bmoves_sound in H|]. destruct w as [us u d v n h r st l]. destruct n; [|discriminate]. destruct (reserved p) eqn:E; [discriminate|].
  injection H as <-. now apply br_send.
Qed.
Definition lbroker (fair : bool) (m : lmove) (k : pipe) (w : world) : option (pipe * world) :=
  match lmoves fair m (at_broker k w) with
  | Some w' =>
    if negb (forallb sentb (wd_down w')) then None else
    let bs := map plain_bytes (wd_down w') in
    match m with
    | LB BCut => Some (Pipe (pi_used k) [] [] (pi_down k ++ concat bs) false, w')
    | LB BForget => Some (Pipe (pi_used k) (pi_up k) (wd_up w') (pi_down k ++ concat bs) (wd_live w'), w')
    | _ => if wd_in w' then Some (Pipe (pi_used k) (pi_up k) (wd_up w') (pi_down k ++ concat bs) (wd_live w'), w') else None
    end
  | None => None
  end.
Lemma sent_map ps : forallb sentb ps = true -> Forall2 sent ps (map plain_bytes ps).
Proof. induction ps as [|p ps IH]; cbn [forallb map]; intros H; [constructor|]. apply andb_true_iff in H as [H1 H2]. constructor; [now apply sentb_ok|now apply IH]. Qed.
Lemma lbroker_ok c chk fair g m i k w k' w' : linked_up c chk fair g i k w -> lbroker fair m k w = Some (k', w') -> linked_up c chk fair g i k' w'.
Proof.
  intros H E. unfold lbroker in E. destruct (lmoves fair m (at_broker k w)) as [w1|] eqn:EM; [|discriminate]. destruct (forallb sentb (wd_down w1)) eqn:ES; [|discriminate]. cbn [negb] in E.
  apply sent_map in ES. pose proof (lmoves_sound _ _ _ _ EM) as HB.
  assert (forall x, (if wd_in w1 then Some (Pipe (pi_used k) (pi_up k) (wd_up w1) (pi_down k ++ concat (map plain_bytes (wd_down w1))) (wd_live w1), w1) else None) = Some x ->
    x = (k', w') -> linked_up c chk fair g i k' w') as HK.
  { intros x E1 ->. destruct (wd_in w1) eqn:EI; [|discriminate]. injection E1 as <- <-. eapply lu_broker; eauto. now left. }
  destruct m as [[]|p]; try (exact (HK _ E eq_refl)); injection E as <- <-.
  - eapply lu_close; eauto. destruct k, w. cbn in EM. injection EM as <-. split; [reflexivity|split; reflexivity].
  - eapply lu_broker; eauto. right. destruct k, w. cbn in EM. destruct wd_in; [discriminate|]. injection EM as <-. split; [reflexivity|split; reflexivity].
Qed.
Lemma lplay_sound c chk fair g ms i k w : Forall asked ms -> pplay c chk g note (lbroker fair) ms (winit c chk) pipe0 world0 = Some (i, k, w) -> linked_up c chk fair g i k w.
Proof.
  intros HF H. refine (pplay_sound c chk g note (lbroker fair) (linked_up c chk fair g) _ _ _ _ _ ms _ _ _ _ _ _ (lu_init _ _ _ _) HF H).
  - intros i0 k0 w0 HL. exact (linked_reachable _ _ _ _ _ _ _ HL).
  - intros. eapply lu_client; eauto.
  - intros. eapply lu_arrive; eauto.
  - intros. eapply lu_decode; eauto.
  - intros. eapply lbroker_ok; eauto.
Qed.
Ltac moved := repeat (apply Forall_cons; [first [exact I|apply pub_ok]|]); apply Forall_nil.

(* smol reads the answer to CONNECT in one piece *)
Definition lp_pieces (rt : runtime) (l : list nat) (n : nat) : list (pmove lmove) := match rt with Tokio => flat_map (fun n => [PA n; PC WRead]) l | Smol => [PA n; PC WRead] end.
Definition lp_connect (rt : runtime) (present : bool) : list (pmove lmove) :=
  [PC (WEvent EConnect); PC (WEvent (EWrite true)); PD; PB (LB (BAccept present))] ++ lp_pieces rt [2; 1; 2]%nat 5 ++ [PC (WEvent EHandled); PC (WEvent (EWrites [] true)); PC (WEvent ERun)].
Definition lp_send (q : qos) : list (pmove lmove) := [PC (WEvent (ECall (sc_pub q))); PC (WEvent (ESend 0)); PC (WEvent EOutgoing); PC (WEvent (EWrite true))].
(* PUBREC is lost with the connection; the publish is sent again, not passed on again, and completed.  The packets arrive
   in pieces. *)
Definition lp_good (rt : runtime) : list (pmove lmove) :=
  lp_connect rt false ++ lp_send ExactlyOnce ++ [PD; PB (LB BPass2); PA 3; PC WRead; PB (LB BCut); PA 0; PC WRead] ++
  lp_connect rt true ++ [PD; PB (LB BAgain2); PA 1; PC WRead; PA 3; PC WRead; PC (WEvent EHandled); PC (WEvent (EWrite true)); PD; PB (LB BRelease); PA 2; PC WRead;
    PA 2; PC WRead; PC (WEvent EHandled)].
Definition lp_run (rt : runtime) (g : bool) (ms : list (pmove lmove)) := pplay (lc_cfg rt) false g note (lbroker true) ms (winit (lc_cfg rt) false) pipe0 world0.
Definition log_of (x : option (wire * pipe * world)) : list seen := match x with Some (_, _, w) => wd_log w | None => [] end.
Lemma lp_linked rt g ms : Forall asked ms -> is_some (lp_run rt g ms) = true -> exists i k w, linked_up (lc_cfg rt) false true g i k w /\ wd_log w = log_of (lp_run rt g ms).
Proof.
  intros HF H. destruct (lp_run rt g ms) as [[[i k] w]|] eqn:E; [|discriminate]. exists i, k, w. split; [|reflexivity]. exact (lplay_sound _ _ _ _ _ _ _ _ HF E).
Qed.
Ltac logged EL := rewrite EL; match goal with |- context [log_of ?t] => let L := eval vm_compute in (log_of t) in replace (log_of t) with L by (vm_compute; reflexivity) end; clear EL.
Lemma lp_case rt : exists i k w l1 l2 l3 x y, linked_up (lc_cfg rt) false true true i k w /\ pb_pkid y = Some 1 /\ pb_qos y = ExactlyOnce /\ same x y /\
  wd_log w = l1 ++ Saw (OBegin (PPublish x)) :: l2 ++ Pass y :: l3 ++ [Saw (ORead (PPubComp (WorldLog.good 1))); Saw (OHandle (PPubComp (WorldLog.good 1))); Saw OHandled] /\
  filter is_pass (wd_log w) = [Pass y] /\ In (Saw (OWrite FromResend (dup (PPublish x)))) l3.
Proof.
  destruct (lp_linked rt true (lp_good rt)) as (i & k & w & HJ & EL); [destruct rt; moved|destruct rt; vm_compute; reflexivity|]. exists i, k, w.
  assert (exists l1 l2 l3 x y, pb_pkid y = Some 1 /\ pb_qos y = ExactlyOnce /\ same x y /\
  wd_log w = l1 ++ Saw (OBegin (PPublish x)) :: l2 ++ Pass y :: l3 ++ [Saw (ORead (PPubComp (WorldLog.good 1))); Saw (OHandle (PPubComp (WorldLog.good 1))); Saw OHandled] /\
  filter is_pass (wd_log w) = [Pass y] /\ In (Saw (OWrite FromResend (dup (PPublish x)))) l3) as (l1 & l2 & l3 & x & y & X).
  { clear HJ. destruct rt; logged EL.
    all: match goal with |- exists _ _ _ _ _, _ /\ _ /\ _ /\ ?l = _ /\ _ =>
      match l with context [Saw (OBegin (PPublish ?x)) :: ?m] => match m with context [Pass ?y :: ?n] =>
        let k1 := eval vm_compute in (length l - length m - 1)%nat in let k2 := eval vm_compute in (length m - length n - 1)%nat in let k3 := eval vm_compute in (length n - 3)%nat in
        exists (firstn k1 l), (firstn k2 m), (firstn k3 n), x, y end end end.
    all: split; [reflexivity|]; split; [reflexivity|]; split; [left; reflexivity|]; split; [reflexivity|]; split; [reflexivity|].
    all: cbn; repeat (first [left; reflexivity|right]). }
  exists l1, l2, l3, x, y. split; [exact HJ|exact X].
Qed.

(* A message of QoS 0 whose payload 64 2 0 1 is PUBACK 1.  The client abandons the read after the bytes before it. *)
Definition lp_message : packet := PPublish (Publish false AtMostOnce false [116] None no_props [64; 2; 0; 1]).
Definition lp_torn : list (pmove lmove) :=
  lp_connect Tokio false ++ lp_send AtLeastOnce ++ [PB (LSend lp_message); PA 6; PC WRead] ++ lp_send AtMostOnce ++ [PA 4; PC WRead].
Lemma torn_bytes : exists c i k w a l, config_ok c /\ built c /\ linked_up c false true false i k w /\ wd_log w = l ++ [Saw (ORead (PPubAck a)); Saw (OHandle (PPubAck a))] /\
  rec_accepts (ak_rc a) = true /\ forall y, ~ In (Pass y) (wd_log w).
Proof.
  destruct (lp_linked Tokio false lp_torn) as (i & k & w & HJ & EL); [moved|vm_compute; reflexivity|].
  assert (exists l, wd_log w = l ++ [Saw (ORead (PPubAck (WorldLog.good 1))); Saw (OHandle (PPubAck (WorldLog.good 1)))] /\ forall y, ~ In (Pass y) (wd_log w)) as (l & X1 & X2).
  { clear HJ. logged EL.
    match goal with |- exists _, ?l = _ /\ _ => let k := eval vm_compute in (length l - 2)%nat in exists (firstn k l) end. split; [reflexivity|].
    intros y HI. repeat (destruct HI as [HI|HI]; [discriminate|]). exact HI. }
  exists (lc_cfg Tokio), i, k, w, (WorldLog.good 1), l. split; [split; [split; vm_compute; discriminate|vm_compute; discriminate]|]. split; [apply lc_built|]. split; [exact HJ|]. split; [exact X1|]. split; [reflexivity|exact X2].
Qed.
