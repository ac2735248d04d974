(* Exactly which QoS 2 messages are handed over (C28, C31). *)
From Verif Require Import Base VarInt Prims Props Codes Packets BaseFacts Options Session Client System SpecSession SpecNet SpecTrace SessionFacts SystemFacts NetFacts NetMore TraceFacts TraceMore.

Lemma pubrec_exact c s l1 x i l2 : config_ok c -> reachable c s -> trace s = l1 ++ ORead (PPublish x) :: l2 -> q2 i (PPublish x) ->
  exists pre, (pre = [] /\ (In i (received l1) \/ pb_dup x = true) \/ pre = [OHandle (PPublish x); OHandled] /\ ~ In i (received l1) /\ pb_dup x = false) /\
  (goes (net_of l2) (pre ++ [OWrite FromReply (PPubRec (okay i))]) \/
   exists e, goes (net_of l2) (pre ++ [OWriteFail FromReply (PPubRec (okay i)); ORunEnd (inr e)])).
Proof.
  intros HC HR HT (x' & EX & EQ & EI). injection EX as <-. run_of HC HR HT. apply nrun_split in HN as (q0 & q1 & H0 & HS & HF). apply read_step in HS. cbn [on_read] in HS. rewrite EQ, EI in HS.
  pose proof (nrun_in _ _ _ H0) as EN. destruct (mem i (n_in q0)) eqn:EM; cbn [orb] in HS.
  - exists []. split; [left; split; [reflexivity|left; rewrite <- EN; now apply mem_spec]|]. eapply follow_reply; eassumption.
  - destruct (pb_dup x).
    + exists []. split; [left; auto|]. eapply follow_reply; eassumption.
    + exists [OHandle (PPublish x); OHandled]. split; [right; split; [reflexivity|]; split; [|reflexivity]|eapply follow_deliver_reply; eassumption].
      rewrite <- EN. intros HI. apply mem_spec in HI. congruence.
Qed.
Lemma reply_exact c s l1 p o l2 : config_ok c -> reachable c s -> trace s = l1 ++ o :: l2 -> attempt FromReply p o ->
  exists l0 r m, l1 = l0 ++ ORead r :: m /\ answer r = Some p /\
  (net_of m = [OHandle r; OHandled] /\ (forall i x, r = PPublish x -> q2 i r -> ~ In i (received l0) /\ pb_dup x = false) \/
   net_of m = [] /\ exists i x, r = PPublish x /\ q2 i r /\ (In i (received l0) \/ pb_dup x = true)).
Proof.
  intros HC HR HT HA. destruct (reply_after_handler _ _ _ _ _ _ HC HR HT HA) as (l0 & r & m & E & EA & HM). exists l0, r, m. split; [exact E|]. split; [exact EA|].
  destruct HM as [HM|[HM (i & HQ & HD)]]; [left|right].
  - split; [exact HM|]. intros i x -> HQ. subst l1. rewrite <- app_assoc in HT. cbn [app] in HT.
    destruct (pubrec_exact _ _ _ _ _ _ HC HR HT HQ) as (pre & [[-> _]|(_ & H1 & H2)] & HG); [exfalso|auto].
    rewrite net_app, HM in HG. cbn [app] in HG. destruct HG as [[[t E]|[t E]]|(e & [[t E]|[t E]])]; discriminate E.
  - split; [exact HM|]. pose proof HQ as (x & -> & _). exists i, x. split; [reflexivity|]. split; [exact HQ|]. destruct HD as [HD|(x' & E' & HD)]; [now left|]. injection E' as <-. now right.
Qed.
