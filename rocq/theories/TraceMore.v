(* The facts behind P_Session.v and P_Loop.v. *)
From Coq Require Import Permutation.
From Verif Require Import Base VarInt Prims Props Codes Packets BaseFacts Options Session Client System SpecSession SpecNet SpecTrace SessionFacts SystemFacts AckFacts IdFacts Cases Scenario IdMore NetFacts NetMore TraceFacts.

Lemma tr c s : config_ok c -> reachable c s -> exists q, nrun c (trace s) q.
Proof. intros HC HR. destruct (conforms c s HC HR) as [q HQ]. exists q. exact (k_run _ _ _ HQ). Qed.

Ltac run_of HC HR HT := let q := fresh "q" in let HN := fresh "HN" in destruct (tr _ _ HC HR) as [q HN]; rewrite HT in HN.

(* --- C26 --- *)
Lemma qos1_forward c s l1 x i l2 : config_ok c -> reachable c s -> trace s = l1 ++ ORead (PPublish x) :: l2 ->
  pb_qos x = AtLeastOnce -> pb_pkid x = Some i ->
  goes (net_of l2) [OHandle (PPublish x); OHandled; OWrite FromReply (PPubAck (okay i))] \/
  exists e, goes (net_of l2) [OHandle (PPublish x); OHandled; OWriteFail FromReply (PPubAck (okay i)); ORunEnd (inr e)].
Proof.
  intros HC HR HT EQ EI. run_of HC HR HT. apply nrun_split in HN as (q0 & q1 & _ & HS & HF). apply read_step in HS. cbn [on_read] in HS. rewrite EQ, EI in HS.
  eapply follow_deliver_reply; eassumption.
Qed.
Lemma read_in_net m o : In o m -> by_client o = false -> In o (net_of m).
Proof. intros HI HB. apply filter_In. split; [exact HI|now rewrite HB]. Qed.
Lemma split_two {A} (l1 : list A) a l2 l3 b l4 : l1 ++ a :: l2 = l3 ++ b :: l4 ->
  (exists k, l3 = l1 ++ a :: k /\ l2 = k ++ b :: l4) \/ (l1 = l3 /\ a = b /\ l2 = l4) \/ (exists k, l1 = l3 ++ b :: k /\ l4 = k ++ a :: l2).
Proof.
  revert l3. induction l1 as [|x l1 IH]; intros [|y l3] H; cbn [app] in H.
  - injection H as -> ->. right. left. auto.
  - injection H as -> ->. left. exists l3. auto.
  - injection H as -> <-. right. right. exists l1. auto.
  - injection H as -> H. destruct (IH _ H) as [(k & -> & ->)|[(-> & -> & ->)|(k & -> & ->)]]; [left; exists k|right; left|right; right; exists k]; auto.
Qed.
Lemma qos0_forward c s l1 x l2 : config_ok c -> reachable c s -> trace s = l1 ++ ORead (PPublish x) :: l2 -> pb_qos x = AtMostOnce ->
  goes (net_of l2) [OHandle (PPublish x); OHandled] /\
  (forall m o p m', l2 = m ++ o :: m' -> attempt FromReply p o -> exists r, In (ORead r) m).
Proof.
  intros HC HR HT EQ. run_of HC HR HT. split.
  - apply nrun_split in HN as (q0 & q1 & _ & HS & HF). apply read_step in HS. cbn [on_read] in HS. rewrite EQ, <- (app_nil_r (deliver _)) in HS.
    destruct (follow_deliver _ _ _ _ _ _ HF HS) as [HG|(qs & ls & -> & _)]; [now left|]. do 2 apply goes_cons. apply goes_done.
  - intros m o p m' -> HA. replace (l1 ++ ORead (PPublish x) :: m ++ o :: m') with ((l1 ++ ORead (PPublish x) :: m) ++ o :: m') in HN by now rewrite <- app_assoc.
    destruct (reply_before _ _ p _ _ _ HN HA) as (l0 & r & k & E & EA & _ & HM).
    destruct (split_two _ _ _ _ _ _ E) as [(k1 & -> & ->)|[(-> & ER & ->)|(k1 & -> & ->)]].
    + exists r. apply in_or_app. right. now left.
    + injection ER as <-. cbn [answer] in EA. rewrite EQ in EA. destruct (pb_pkid x); discriminate EA.
    + exfalso. assert (In (ORead (PPublish x)) (net_of (k1 ++ ORead (PPublish x) :: m))) as HI.
      { apply read_in_net; [apply in_or_app; right; now left|reflexivity]. }
      destruct HM as [HM|[HM _]]; rewrite HM in HI; [|destruct HI]. destruct HI as [HI|[HI|[]]]; discriminate HI.
Qed.
Lemma handled_read c s l1 x l2 : config_ok c -> reachable c s -> trace s = l1 ++ OHandle (PPublish x) :: l2 ->
  exists l0 m, l1 = l0 ++ ORead (PPublish x) :: m /\ net_of m = [].
Proof.
  intros HC HR HT. run_of HC HR HT. destruct (handle_before _ _ _ _ _ HN) as (l0 & m & HM & [[-> _]|(_ & a & E & _)]); [eauto|discriminate E].
Qed.
Lemma puback_read c s l1 a o l2 : config_ok c -> reachable c s -> trace s = l1 ++ o :: l2 -> attempt FromReply (PPubAck a) o ->
  exists l0 x m, l1 = l0 ++ ORead (PPublish x) :: m /\ pb_qos x = AtLeastOnce /\ pb_pkid x = Some (ak_id a) /\ a = okay (ak_id a) /\
    net_of m = [OHandle (PPublish x); OHandled].
Proof.
  intros HC HR HT HA. run_of HC HR HT. destruct (reply_before _ _ _ _ _ _ HN HA) as (l0 & r & m & -> & EA & _ & HM).
  destruct r; cbn [answer] in EA; try discriminate EA.
  - destruct (pb_qos p) eqn:EQ, (pb_pkid p) eqn:EI; try discriminate EA. injection EA as <-. exists l0, p, m. repeat split; auto.
    destruct HM as [HM|(_ & x & j & E & E2 & _)]; [exact HM|]. injection E as <-. congruence.
  - destruct (rec_accepts _); discriminate EA.
Qed.

(* --- C31: every reply --- *)
Lemma reply_after_handler c s l1 p o l2 : config_ok c -> reachable c s -> trace s = l1 ++ o :: l2 -> attempt FromReply p o ->
  exists l0 r m, l1 = l0 ++ ORead r :: m /\ answer r = Some p /\
    (net_of m = [OHandle r; OHandled] \/
     net_of m = [] /\ exists i, q2 i r /\ (In i (received l0) \/ exists x, r = PPublish x /\ pb_dup x = true)).
Proof.
  intros HC HR HT HA. run_of HC HR HT. destruct (reply_before _ _ _ _ _ _ HN HA) as (l0 & r & m & -> & EA & _ & HM).
  exists l0, r, m. split; [reflexivity|]. split; [exact EA|]. destruct HM as [HM|(HM & x & i & -> & E1 & E2 & E3)]; [now left|right].
  split; [exact HM|]. exists i. split; [exists x; auto|]. destruct E3; eauto.
Qed.

(* --- C27 --- *)
Lemma unreleased_dec i m : unreleased i m \/ exists o, In o m /\ releases i o = true.
Proof.
  destruct (existsb (releases i) m) eqn:E; [right; now apply existsb_exists in E|left]. intros o HI. destruct (releases i o) eqn:EO; [|reflexivity].
  rewrite <- E. symmetry. apply existsb_exists. eauto.
Qed.
Lemma once c s i p1 p2 l1 m l2 : config_ok c -> reachable c s -> trace s = l1 ++ OHandle p1 :: m ++ OHandle p2 :: l2 -> q2 i p1 -> q2 i p2 ->
  exists o, In o m /\ releases i o = true.
Proof.
  intros HC HR HT HQ1 HQ2. destruct (unreleased_dec i m) as [HU|HU]; [exfalso|exact HU]. run_of HC HR HT.
  destruct (handle_before _ _ _ _ _ HN) as (l0 & m0 & HM0 & [[-> _]|(_ & a & E & _)]); [|destruct HQ1 as (x & -> & _); discriminate E].
  assert (In i (received (l0 ++ ORead p1 :: m0))) as HI.
  { replace (l0 ++ ORead p1 :: m0) with ((l0 ++ [ORead p1]) ++ m0) by now rewrite <- app_assoc.
    apply received_kept; [now apply received_read|now apply unreleased_net]. }
  replace ((l0 ++ ORead p1 :: m0) ++ OHandle p1 :: m ++ OHandle p2 :: l2) with (((l0 ++ ORead p1 :: m0) ++ OHandle p1 :: m) ++ OHandle p2 :: l2) in HN by now rewrite <- app_assoc.
  destruct (handle_before _ _ _ _ _ HN) as (l0' & m' & HM' & [[EL HD]|(_ & a & E & _)]); [|destruct HQ2 as (x & -> & _); discriminate E].
  destruct HQ2 as (x & -> & EQ & EI). destruct (HD i x eq_refl EQ EI) as [HNI _].
  destruct (split_two _ _ _ _ _ _ EL) as [(k & -> & ->)|[(_ & E & _)|(k & E1 & ->)]].
  - apply HNI. apply received_kept; [exact HI|]. intros o [<-|Ho]; [reflexivity|]. apply HU. apply in_or_app. now left.
  - discriminate E.
  - rewrite (net_app k), (net_cons (OHandle p1)) in HM' by reflexivity. destruct (net_of k); discriminate HM'.
Qed.
Lemma pubrec_forward c s l1 p i l2 : config_ok c -> reachable c s -> trace s = l1 ++ ORead p :: l2 -> q2 i p ->
  exists pre, (pre = [] \/ pre = [OHandle p; OHandled]) /\
  (goes (net_of l2) (pre ++ [OWrite FromReply (PPubRec (okay i))]) \/
   exists e, goes (net_of l2) (pre ++ [OWriteFail FromReply (PPubRec (okay i)); ORunEnd (inr e)])).
Proof.
  intros HC HR HT (x & -> & EQ & EI). run_of HC HR HT. apply nrun_split in HN as (q0 & q1 & _ & HS & HF). apply read_step in HS. cbn [on_read] in HS. rewrite EQ, EI in HS.
  destruct (mem i (n_in q0) || pb_dup x).
  - exists []. split; [now left|]. eapply follow_reply; eassumption.
  - exists [OHandle (PPublish x); OHandled]. split; [now right|]. eapply follow_deliver_reply; eassumption.
Qed.
Lemma pubrel_forward c s l1 a l2 : config_ok c -> reachable c s -> trace s = l1 ++ ORead (PPubRel a) :: l2 ->
  goes (net_of l2) [OHandle (PPubRel a); OHandled; OWrite FromReply (PPubComp (okay (ak_id a)))] \/
  exists e, goes (net_of l2) [OHandle (PPubRel a); OHandled; OWriteFail FromReply (PPubComp (okay (ak_id a))); ORunEnd (inr e)].
Proof.
  intros HC HR HT. run_of HC HR HT. apply nrun_split in HN as (q0 & q1 & _ & HS & HF). apply read_step in HS. cbn [on_read] in HS.
  eapply follow_deliver_reply; eassumption.
Qed.

(* --- C28 --- *)
Lemma pubrec_has c s l1 a o l2 : config_ok c -> reachable c s -> trace s = l1 ++ o :: l2 -> attempt FromReply (PPubRec a) o ->
  exists l0 x m, l1 = l0 ++ ORead (PPublish x) :: m /\ q2 (ak_id a) (PPublish x) /\ ~ In (ak_id a) (received l0) /\ unreleased (ak_id a) m /\
    (pb_dup x = false -> exists t, net_of m = OHandle (PPublish x) :: OHandled :: t).
Proof.
  intros HC HR HT HA. run_of HC HR HT. destruct (reply_before _ _ _ _ _ _ HN HA) as (l0 & r & m & -> & EA & _ & HM).
  assert (q2 (ak_id a) r) as HQ.
  { destruct r; cbn [answer] in EA; try discriminate EA; [|destruct (rec_accepts _); discriminate EA].
    destruct (pb_qos p) eqn:EQ, (pb_pkid p) eqn:EI; try discriminate EA. injection EA as <-. exists p. auto. }
  assert (In (ak_id a) (received (l0 ++ ORead r :: m))) as HI.
  { replace (l0 ++ ORead r :: m) with ((l0 ++ [ORead r]) ++ m) by now rewrite <- app_assoc. apply received_kept; [now apply received_read|].
    destruct HM as [HM|[HM _]]; [|now apply unreleased_net]. intros y Hy. destruct (by_client y) eqn:EB; [destruct y; try discriminate EB; reflexivity|].
    pose proof (read_in_net _ _ Hy EB) as HY. rewrite HM in HY. destruct HY as [<-|[<-|[]]]; reflexivity. }
  destruct (received_has _ _ HI) as (l0' & p & m' & EL & HQ' & HNI & HU). destruct HQ' as (x & -> & EQ & EI). exists l0', x, m'. split; [exact EL|]. split; [exists x; auto|].
  split; [exact HNI|]. split; [exact HU|]. intros ED. rewrite EL in HN.
  replace ((l0' ++ ORead (PPublish x) :: m') ++ o :: l2) with (l0' ++ ORead (PPublish x) :: m' ++ o :: l2) in HN by now rewrite <- app_assoc.
  apply nrun_split in HN as (q0 & q1 & H0 & HS & HF). apply read_step in HS. cbn [on_read] in HS. rewrite EQ, EI, ED, (nrun_in _ _ _ H0) in HS.
  destruct (mem (ak_id a) (received l0')) eqn:EM; [apply mem_spec in EM; contradiction|]. cbn [orb] in HS.
  assert (by_client o = false) as HB by (destruct HA as [-> | ->]; reflexivity).
  destruct (follow_deliver _ _ _ _ _ _ HF HS) as [[t E]|(qs & ls & E & _)]; rewrite net_app, (net_cons o) in E by exact HB.
  - destruct (net_of m') as [|y [|z [|w u]]]; cbn [app] in E.
    + injection E as E _. destruct HA as [-> | ->]; discriminate E.
    + injection E as _ E _. destruct HA as [-> | ->]; discriminate E.
    + discriminate E.
    + discriminate E.
  - destruct (net_of m') as [|y [|z u]]; cbn [app] in E.
    + injection E as E _. destruct HA as [-> | ->]; discriminate E.
    + injection E as _ E _. destruct HA as [-> | ->]; discriminate E.
    + injection E as -> -> _. eauto.
Qed.
