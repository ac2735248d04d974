(* The facts behind P_Loop.v, and C29. *)
From Coq Require Import Permutation.
From Verif Require Import Base VarInt Prims Props Codes Packets BaseFacts Options Session Client System SpecSession SpecNet SpecTrace SessionFacts SystemFacts AckFacts IdFacts Cases Scenario IdMore NetFacts NetMore TraceFacts TraceMore ResumeMore.

(* observations that come first in their step *)
Definition leading (o : out) : bool :=
  match o with ORead _ | OAnswer _ | OWrite FromClient _ | OWriteFail FromClient _ | OConnect | ORun | OAccept _ => true | _ => false end.
Lemma tokio_writes_origin o ps oks x : In x (tokio_writes o ps oks) -> exists p, In p ps /\ attempt o p x.
Proof.
  revert oks. induction ps as [|p ps IH]; intros oks; [intros []|]. cbn [tokio_writes]. destruct (match oks with [] => (true, []) | b :: r => (b, r) end) as [b r].
  destruct (write_result Tokio p b); (intros [<-|H]; [exists p; split; [now left|]; unfold attempt; auto|]); destruct (IH _ H) as (y & H1 & H2); exists y; split; auto; now right.
Qed.
Lemma smol_writes_origin o ps ok x : In x (smol_writes o ps ok) -> exists p, In p ps /\ attempt o p x.
Proof.
  unfold smol_writes. intros H. apply in_map_iff in H as (p & E & HP). exists p. split; [exact HP|]. unfold attempt. destruct (smol_write_all ps ok); auto.
Qed.
Lemma lead_one {A} (x o : A) k t : [x] = k ++ o :: t -> k = [].
Proof. destruct k as [|? [|]]; cbn; intros H; [reflexivity|discriminate H|discriminate H]. Qed.
Lemma lead_two (x y o : out) k t : [x; y] = k ++ o :: t -> leading y = false -> leading o = true -> k = [].
Proof. destruct k as [|? [|? [|]]]; cbn; intros H; [reflexivity| |discriminate H|discriminate H]. injection H as _ <- _. congruence. Qed.
Lemma lead_none (l k t : list out) o : l = k ++ o :: t -> (forall x, In x l -> leading x = false) -> leading o = true -> k = [].
Proof. intros -> H HO. rewrite (H o) in HO by (apply in_or_app; right; now left). discriminate. Qed.
Lemma tcase_lead c s e l st w ch n q t k o r : tcase c s e l st w ch n q t -> l = k ++ o :: r -> leading o = true -> k = [].
Proof.
  intros H E HO. destruct H; try (destruct k; discriminate E); try exact (lead_one _ _ _ _ E); try (eapply lead_two; [exact E|reflexivity|exact HO]).
  all: eapply lead_none; [exact E| |exact HO]; intros x Hx; try (apply in_app_or in Hx as [Hx|[<-|[]]]; [|reflexivity]).
  all: first [apply tokio_writes_origin in Hx as (y & _ & [-> | ->])|apply smol_writes_origin in Hx as (y & _ & [-> | ->])]; reflexivity.
Qed.
Lemma at_state c s : reachable c s -> forall l1 o l2, trace s = l1 ++ o :: l2 -> leading o = true ->
  exists s1 e s2 k, reachable c s1 /\ trace s1 = l1 /\ step c e s1 = Some s2 /\ trace s2 = l1 ++ o :: k.
Proof.
  revert s. apply (reachable_ind2 c (fun s => forall l1 o l2, trace s = l1 ++ o :: l2 -> leading o = true ->
    exists s1 e s2 k, reachable c s1 /\ trace s1 = l1 /\ step c e s1 = Some s2 /\ trace s2 = l1 ++ o :: k)).
  - intros l1 o l2 H. destruct l1; discriminate H.
  - intros s e s' HR IH HS l1 o l2 HT HO. destruct (step_tcase _ _ _ _ HR HS) as (l & st & w & ch & n & q & t & HC & ->).
    pose proof HT as HT0. rewrite next_trace in HT. destruct (app_split _ _ _ _ _ HT) as [(k & E)|(k & E1 & E2)].
    + eapply IH; eassumption.
    + pose proof (tcase_lead _ _ _ _ _ _ _ _ _ _ _ _ _ HC E2 HO) as ->. rewrite app_nil_r in E1. subst l1.
      exists s, e, (next s l st w ch n q t), l2. repeat split; auto.
Qed.

(* acknowledgements that are awaited have a place in the table *)
Lemma awaited_on_table c s a : config_ok c -> reachable c s -> y_pc s <> PCrash -> is_ack a = true -> awaited (now_ledger c s) a = true ->
  match a with PPubAck x | PPubRec x => off_table (receive_max (cf_opts c)) (ak_id x) = false | _ => True end.
Proof.
  intros HC HR HS HA HW. pose proof (v_inv _ _ (inv_reachable _ _ HC HR)) as HV. replace (live (y_pc s)) with true in HV by (destruct (y_pc s); try reflexivity; congruence).
  assert (bad_ack (receive_max (cf_opts c)) a = false) as HB.
  { destruct (bad_ack _ a) eqn:EB; [|reflexivity]. exfalso. unfold now_ledger in HW. fold (cleans c) in HW. fold (ledger_at c s) in HW.
    pose proof (i_R _ _ _ _ _ HV eq_refl) as RR.
    assert (exists x, exists y, ak_id y = x /\ off_table (receive_max (cf_opts c)) x = true /\ exists p, In (PPublish p) (lg_sent (ledger_at c s)) /\ pb_pkid p = Some x) as (i & y & _ & EO & p & H1 & H2).
    { rewrite bad_ack_off in EB. destruct a; try discriminate EB; cbn [awaited] in HW; apply existsb_exists in HW as (q & H1 & H2);
        destruct q; try discriminate H2; cbn [answers] in H2; apply has_id_spec in H2; do 2 eexists; (split; [reflexivity|]); eauto. }
    assert (slot (st_pub (y_state s)) i = Some p) as HSL. { apply (r_slot _ _ _ _ RR). split; [now apply in_pubs|exact H2]. }
    unfold slot in HSL. pose proof (r_len _ _ _ _ RR) as HL. unfold off_table in EO. destruct (N.eqb_spec i 0); [discriminate|].
    rewrite (proj2 (nth_error_None (st_pub (y_state s)) (N.to_nat (i - 1)))) in HSL by (cbn [orb] in EO; lia). discriminate. }
  rewrite bad_ack_off in HB. destruct a; auto.
Qed.
Lemma answer_pc c s e s' p k : reachable c s -> step c e s = Some s' -> trace s' = trace s ++ OAnswer p :: k -> y_pc s = PConnRead.
Proof.
  intros HR HS HT. destruct (step_tcase _ _ _ _ HR HS) as (l & st & w & ch & n & q & t & HC & ->). rewrite next_trace in HT. apply app_inv_head in HT.
  destruct HC; try discriminate HT; try assumption; exfalso.
  all: match type of HT with
       | tokio_writes ?a ?b ?c ++ _ = _ => destruct (tokio_writes a b c) as [|y ys] eqn:E; [discriminate HT|]; injection HT as -> _; assert (In (OAnswer p) (tokio_writes a b c)) as HI by (rewrite E; now left); apply tokio_writes_origin in HI as (z & _ & [X|X]); discriminate X
       | smol_writes ?a ?b ?c ++ _ = _ => destruct (smol_writes a b c) as [|y ys] eqn:E; [discriminate HT|]; injection HT as -> _; assert (In (OAnswer p) (smol_writes a b c)) as HI by (rewrite E; now left); apply smol_writes_origin in HI as (z & _ & [X|X]); discriminate X
       | smol_writes ?a ?b ?c = _ => assert (In (OAnswer p) (smol_writes a b c)) as HI by (rewrite HT; now left); apply smol_writes_origin in HI as (z & _ & [X|X]); discriminate X
       end.
Qed.
Lemma old_refused c s since l1 a l2 p i : config_ok c -> reachable c s -> trace s = l1 ++ OAnswer (PConnAck a) :: l2 ->
  ca_rc a = RSuccess -> resumed (op_clean_start (cf_opts c)) a = false ->
  is_ack p = true -> ack_id p = Some i -> awaited (ledger_of (op_clean_start (cf_opts c)) l1) p = true ->
  y_pc s = PSelect since -> (forall r, In (OWrite FromClient r) l2 -> req_id r <> Some i) ->
  exists s', step c (EPacket p) s = Some s' /\
    trace s' = trace s ++ [ORead p; ORunEnd (inr (HandlerErr (Unsolicited i (type_of p))))] /\ y_state s' = y_state s.
Proof.
  intros HC HR HT EC ER HA HI HW HS HN. destruct (at_state _ _ HR _ _ _ HT eq_refl) as (s1 & e & s2 & k & HR1 & HT1 & HS1 & HT2).
  eapply forgotten; try eassumption. eapply awaited_on_table; [exact HC|exact HR1| |exact HA|].
  - rewrite <- HT1 in HT2. rewrite (answer_pc _ _ _ _ _ _ HR1 HS1 HT2). discriminate.
  - unfold now_ledger. now rewrite HT1.
Qed.

(* --- C29 --- *)
Lemma rel_keep clean g o : (match o with ORead _ | OAnswer _ => False | _ => True end) -> lg_rel (ledger_step clean g o) = lg_rel g.
Proof. intros H. destruct g, o; try contradiction; try reflexivity; cbn [ledger_step]; [now destruct (is_some _)|destruct o; reflexivity..]. Qed.
Lemma rel_keeps clean l m : (forall o, In o m -> match o with ORead _ | OAnswer _ => False | _ => True end) ->
  lg_rel (ledger_of clean (l ++ m)) = lg_rel (ledger_of clean l).
Proof.
  induction m as [|o m IH] using rev_ind; intros H; [now rewrite app_nil_r|]. rewrite app_assoc, ledger_of_snoc, rel_keep, IH; [reflexivity| |].
  - intros x Hx. apply H. apply in_or_app. now left.
  - apply H. apply in_or_app. right. now left.
Qed.
Lemma quiet_net m S : net_of m = S -> (forall o, In o S -> match o with ORead _ | OAnswer _ => False | _ => True end) ->
  forall o, In o m -> match o with ORead _ | OAnswer _ => False | _ => True end.
Proof.
  intros HM HS o HI. destruct (by_client o) eqn:E; [destruct o; try discriminate E; exact I|]. apply HS. rewrite <- HM. now apply read_in_net.
Qed.
Lemma request_first c s l1 p o l2 : config_ok c -> reachable c s -> trace s = l1 ++ o :: l2 -> attempt FromClient p o ->
  exists s1, reachable c s1 /\ trace s1 = l1 /\ y_pc s1 = PRequest p.
Proof.
  intros HC HR HT HA. destruct (at_state _ _ HR _ _ _ HT) as (s1 & e & s2 & k & HR1 & HT1 & HS1 & HT2); [destruct HA as [-> | ->]; reflexivity|].
  exists s1. split; [exact HR1|]. split; [exact HT1|]. destruct (step_tcase _ _ _ _ HR1 HS1) as (l & st & w & ch & n & q & t & HK & ->).
  rewrite next_trace, HT1 in HT2. apply app_inv_head in HT2.
  assert (forall x, In x l -> (forall y, ~ attempt FromClient y x) -> x <> o) as HX.
  { intros x _ HX ->. now apply (HX p). }
  assert (In o l) as HI by (rewrite HT2; now left).
  destruct HK; try (destruct HI; fail); try (destruct HA as [-> | ->]; discriminate HT2).
  all: try (destruct HA as [-> | ->]; injection HT2 as -> _; assumption).
  all: try (destruct HA as [-> | ->]; injection HT2 as -> ; assumption).
  all: try (injection HT2 as <- _; destruct HA as [X|X]; try discriminate X; injection X as ->; assumption).
  all: exfalso; try (apply in_app_or in HI as [HI|[<-|[]]]; [|destruct HA as [X|X]; discriminate X]).
  all: first [apply tokio_writes_origin in HI as (y & _ & [-> | ->])|apply smol_writes_origin in HI as (y & _ & [-> | ->])]; destruct HA as [X|X]; discriminate X.
Qed.

Lemma pubrel_written c s l1 org a o l2 : config_ok c -> reachable c s -> trace s = l1 ++ o :: l2 -> attempt org (PPubRel a) o ->
  In (ak_id a) (lg_rel (ledger_of (op_clean_start (cf_opts c)) l1)).
Proof.
  intros HC HR HT HA. fold (cleans c). run_of HC HR HT. destruct org.
  - exfalso. apply nrun_split in HN as (q0 & q1 & _ & HS & _). destruct HA as [-> | ->]; inversion HS as [HB|b f its inn HB HX]; try discriminate HB; inversion HX.
  - exfalso. destruct (request_first _ _ _ _ _ _ HC HR HT HA) as (s1 & HR1 & _ & HP).
    pose proof (i_shape _ _ _ _ _ (pending_request _ _ _ (inv_reachable _ _ HC HR1) HP)) as HSH. inversion HSH as [|? ? HX]. exact HX.
  - destruct (reply_before _ _ _ _ _ _ HN HA) as (l0 & r & m & -> & EA & HW & HM). destruct r; cbn [answer] in EA; try discriminate EA; [destruct (pb_qos p), (pb_pkid p); discriminate EA|].
    destruct (rec_accepts (ak_rc a0)) eqn:EC; [|discriminate EA]. injection EA as <-. cbn [okay ak_id].
    replace (l0 ++ ORead (PPubRec a0) :: m) with ((l0 ++ [ORead (PPubRec a0)]) ++ m) by now rewrite <- app_assoc. rewrite rel_keeps.
    + rewrite ledger_of_snoc. specialize (HW a0 eq_refl). cbn [awaited] in HW. destruct (ledger_of (cleans c) l0) as [op se re lo cl ex er]. cbn [ledger_step lg_sent lg_rel] in *. rewrite HW, EC. cbn [andb].
      apply in_or_app. right. now left.
    + destruct HM as [HM|[HM _]]; eapply quiet_net; try exact HM; [intros y [<-|[<-|[]]]; exact I|intros y []].
  - destruct (resend_before _ _ _ _ _ _ HN HA) as (l0 & a0 & m & -> & EC & _ & HQ & HX).
    replace (l0 ++ OAnswer (PConnAck a0) :: m) with ((l0 ++ [OAnswer (PConnAck a0)]) ++ m) by now rewrite <- app_assoc. rewrite rel_keeps.
    + rewrite ledger_of_snoc in *. destruct (expect_ledger (cleans c) (ledger_of (cleans c) l0) a0 EC) as (E1 & E2 & E3 & _). rewrite E1, E2 in HX. rewrite E3.
      destruct (resumed _ a0); [|destruct HX as [[]|(i & _ & [])]]. destruct HX as [HX|(i & E & HX)]; [|injection E as ->; exact HX].
      exfalso. apply in_map_iff in HX as (y & E & HY). apply filter_In in HY as [_ HY]. destruct y; try discriminate HY. discriminate E.
    + eapply quiet_net; [reflexivity|]. intros y Hy. apply HQ in Hy. destruct y; try exact I; exact Hy.
  - exfalso. apply nrun_split in HN as (q0 & q1 & _ & HS & _). destruct HA as [-> | ->]; inversion HS as [HB|b f its inn HB HX]; try discriminate HB; inversion HX.
Qed.
Lemma nodup_disjoint {A} (a b : list A) x : NoDup (a ++ b) -> In x a -> ~ In x b.
Proof. induction a as [|y a IH]; [intros _ []|]. cbn [app]. intros HN. inversion HN; subst. intros [->|HI] HB; [apply H1; apply in_or_app; now right|now apply IH]. Qed.
Lemma publish_not_released c s l1 org x i o l2 : config_ok c -> reachable c s -> trace s = l1 ++ o :: l2 -> attempt org (PPublish x) o -> pb_pkid x = Some i ->
  ~ In i (lg_rel (ledger_of (op_clean_start (cf_opts c)) l1)).
Proof.
  intros HC HR HT HA EI. fold (cleans c). run_of HC HR HT. destruct org.
  - exfalso. apply nrun_split in HN as (q0 & q1 & _ & HS & _). destruct HA as [-> | ->]; inversion HS as [HB|b f its inn HB HX]; try discriminate HB; inversion HX.
  - destruct (request_first _ _ _ _ _ _ HC HR HT HA) as (s1 & HR1 & HT1 & HP).
    pose proof (pending_request _ _ _ (inv_reachable _ _ HC HR1) HP) as HV. pose proof (proj1 (ids_unique c s1 HC HR1)) as HND.
    unfold now_ledger in HND. fold (cleans c) in HND. rewrite HT1 in HND. unfold in_flight in HND. unfold ledger_at in HV. rewrite HT1 in HV. rewrite app_assoc in HND.
    eapply nodup_disjoint; [exact HND|]. apply in_or_app. left. apply req_ids_in. exists (PPublish x). split; [|exact EI].
    apply (Permutation_in _ (Permutation_sym (i_pend _ _ _ _ _ HV))). cbn [filter]. unfold has_req at 1. cbn [req_id]. rewrite EI. now left.
  - exfalso. destruct (reply_before _ _ _ _ _ _ HN HA) as (l0 & r & m & _ & EA & _). destruct r; cbn [answer] in EA; try discriminate EA; [destruct (pb_qos p), (pb_pkid p); discriminate EA|destruct (rec_accepts _); discriminate EA].
  - destruct (resend_before _ _ _ _ _ _ HN HA) as (l0 & a0 & m & -> & EC & _ & HQ & HX).
    replace (l0 ++ OAnswer (PConnAck a0) :: m) with ((l0 ++ [OAnswer (PConnAck a0)]) ++ m) in * by now rewrite <- app_assoc. rewrite rel_keeps.
    + rewrite ledger_of_snoc in *. destruct (expect_ledger (cleans c) (ledger_of (cleans c) l0) a0 EC) as (E1 & E2 & E3 & _). rewrite E1, E2 in HX. rewrite E3.
      destruct (resumed _ a0); [|destruct HX as [[]|(j & _ & [])]]. destruct HX as [HX|(j & E & HX)]; [|discriminate E].
      rewrite <- !app_assoc in HT. cbn [app] in HT. destruct (at_state _ _ HR _ _ _ HT eq_refl) as (s1 & e & s2 & k & HR1 & HT1 & _ & _).
      pose proof (proj1 (ids_unique c s1 HC HR1)) as HND. unfold now_ledger in HND. fold (cleans c) in HND. rewrite HT1 in HND. unfold in_flight in HND. apply nodup_app_r in HND.
      eapply nodup_disjoint; [exact HND|]. apply in_map_iff in HX as (y & E & HY). apply filter_In in HY as [HY HP]. destruct y; try discriminate HP. cbn [dup] in E.
      apply req_ids_in. exists (PPublish p). split; [exact HY|]. injection E as <-. exact EI.
    + eapply quiet_net; [reflexivity|]. intros y Hy. apply HQ in Hy. destruct y; try exact I; exact Hy.
  - exfalso. apply nrun_split in HN as (q0 & q1 & _ & HS & _). destruct HA as [-> | ->]; inversion HS as [HB|b f its inn HB HX]; try discriminate HB; inversion HX.
Qed.

(* --- C32 --- *)
Lemma flat_map_app2 {A B} (f : A -> list B) a b : flat_map f (a ++ b) = flat_map f a ++ flat_map f b.
Proof. apply flat_map_app. Qed.
Lemma quiet_writes l : (forall x, In x l -> exists org p, (org = FromResend \/ org = FromReply) /\ attempt org p x) -> accepted l = [] /\ tried l = [] /\ written l = [].
Proof.
  induction l as [|x l IH]; intros H; [auto|]. destruct (H x (or_introl eq_refl)) as (org & p & HO & HA). destruct IH as (E1 & E2 & E3); [intros; apply H; now right|].
  unfold accepted, tried, written in *. cbn [flat_map]. rewrite E1, E2, E3. destruct HA as [-> | ->], HO as [-> | ->]; auto.
Qed.
Lemma queue c s : config_ok c -> reachable c s -> accepted (trace s) = tried (trace s) ++ held (y_pc s) ++ y_chan s.
Proof.
  intros HC. revert s. apply sys_ind; [exact HC|reflexivity|]. intros s e l st w ch n q t HR HI IH HT _. rewrite next_trace. cbn [next y_pc y_chan].
  unfold accepted, tried in *. rewrite !flat_map_app2, IH. clear IH.
  assert (forall l, (forall x, In x l -> exists org p, (org = FromResend \/ org = FromReply) /\ attempt org p x) -> flat_map (fun o => match o with OAccept p => [p] | _ => [] end) l = [] /\ flat_map (fun o => match o with OWrite FromClient p | OWriteFail FromClient p => [p] | _ => [] end) l = []) as HQ.
  { intros l0 H0. destruct (quiet_writes l0 H0) as (E1 & E2 & _). auto. }
  assert (forall ps oks, flat_map (fun o => match o with OAccept p => [p] | _ => [] end) (tokio_writes FromResend ps oks) = [] /\ flat_map (fun o => match o with OWrite FromClient p | OWriteFail FromClient p => [p] | _ => [] end) (tokio_writes FromResend ps oks) = []) as HQ1.
  { intros ps oks. apply HQ. intros x Hx. apply tokio_writes_origin in Hx as (y & _ & Hy). eauto. }
  assert (forall org ps ok, org = FromResend \/ org = FromReply -> flat_map (fun o => match o with OAccept p => [p] | _ => [] end) (smol_writes org ps ok) = [] /\ flat_map (fun o => match o with OWrite FromClient p | OWriteFail FromClient p => [p] | _ => [] end) (smol_writes org ps ok) = []) as HQ2.
  { intros org ps ok HO. apply HQ. intros x Hx. apply smol_writes_origin in Hx as (y & _ & Hy). eauto. }
  destruct HT; rewrite ?flat_map_app2; try (destruct (HQ1 ps oks) as [-> ->]); try (destruct (HQ2 FromResend ps ok (or_introl eq_refl)) as [-> ->]); try (destruct (HQ2 FromReply ps ok (or_intror eq_refl)) as [-> ->]);
    try match goal with E : y_pc s = _ |- _ => rewrite E end; cbn [flat_map app held reply_pc opt_list]; rewrite ?app_nil_r, <- ?app_assoc; try reflexivity.
  all: try (destruct (cf_rt c); cbn [reply_pc]; try reflexivity; match goal with |- context [match ?r with Some _ => _ | None => _ end] => destruct r; reflexivity end).
  match goal with E : y_chan _ = _ |- _ => now rewrite E end.
Qed.

(* --- C33 --- *)
Lemma sent_kept clean g o x i : pb_pkid x = Some i -> In (PPublish x) (lg_sent g) ->
  In (PPublish x) (lg_sent (ledger_step clean g o)) \/ finishes clean i o.
Proof.
  intros EI HI. destruct g as [op se re lo cl ex er]. cbn [lg_sent] in HI. destruct o; cbn [ledger_step lg_sent finishes]; auto; try (destruct o; cbn [lg_sent]; auto).
  - destruct (is_some (req_id p)); auto.
  - destruct p; auto. unfold resumed. destruct (ca_rc c); auto. destruct (ca_session_present c && negb clean); cbn [lg_sent]; [|now right]. left. apply filter_In. auto.
  - destruct p; cbn [lg_sent]; auto; try (left; apply filter_In; split; [exact HI|reflexivity]).
    + destruct (ak_id a =? i) eqn:E; [right; lia|left]. apply filter_In. split; [exact HI|]. cbn [answers]. unfold has_id. cbn [req_id]. now rewrite EI, E.
    + destruct (ak_id a =? i) eqn:E; [right; lia|left]. apply filter_In. split; [exact HI|]. cbn [answers]. unfold has_id. cbn [req_id]. now rewrite EI, E.
  - left. destruct (is_some (req_id p)); [apply in_or_app; now left|exact HI].
Qed.
Lemma sent_until clean x i l m : pb_pkid x = Some i -> In (PPublish x) (lg_sent (ledger_of clean l)) ->
  In (PPublish x) (lg_sent (ledger_of clean (l ++ m))) \/
  exists m1 o m2, m = m1 ++ o :: m2 /\ In (PPublish x) (lg_sent (ledger_of clean (l ++ m1))) /\ finishes clean i o.
Proof.
  intros EI HI. induction m as [|o m IH] using rev_ind; [left; now rewrite app_nil_r|]. destruct IH as [IH|(m1 & o1 & m2 & -> & H1 & H2)].
  - rewrite app_assoc, ledger_of_snoc. destruct (sent_kept clean _ o x i EI IH) as [HK|HF]; [now left|]. right. exists m, o, []. auto.
  - right. exists m1, o1, (m2 ++ [o]). rewrite <- app_assoc. auto.
Qed.
Lemma prefix_nth {A} (a b rest : list A) p k : a ++ p :: b = k ++ rest -> (length k <= length a)%nat -> In p rest.
Proof.
  revert a. induction k as [|y k IH]; intros a E HL; [cbn in E; rewrite <- E; apply in_or_app; right; now left|].
  destruct a as [|z a]; [cbn in HL; lia|]. cbn in E, HL. injection E as _ E. eapply IH; [exact E|lia].
Qed.
Lemma kept c s l1 x i l2 : config_ok c -> reachable c s -> trace s = l1 ++ OAccept (PPublish x) :: l2 -> pb_pkid x = Some i ->
  In (PPublish x) (y_chan s) \/ y_pc s = PRequest (PPublish x) \/ In (PPublish x) (lg_sent (now_ledger c s)) \/
  In (OWriteFail FromClient (PPublish x)) l2 \/
  exists m1 o m2, l2 = m1 ++ o :: m2 /\ In (OWrite FromClient (PPublish x)) m1 /\ finishes (op_clean_start (cf_opts c)) i o.
Proof.
  intros HC HR HT EI. pose proof (queue c s HC HR) as HQ.
  destruct (at_state _ _ HR _ _ _ HT eq_refl) as (s1 & e & s2 & k & HR1 & HT1 & _ & _). pose proof (queue c s1 HC HR1) as HQ1. rewrite HT1 in HQ1.
  rewrite HT in HQ. unfold accepted, tried in *. rewrite !flat_map_app2 in HQ. cbn [flat_map app] in HQ. rewrite <- app_assoc in HQ.
  set (A := flat_map _ l1) in *. set (T := flat_map _ l1) in *.
  assert (In (PPublish x) (flat_map (fun o => match o with OWrite FromClient p | OWriteFail FromClient p => [p] | _ => [] end) l2 ++ held (y_pc s) ++ y_chan s)) as HI.
  { eapply prefix_nth; [exact HQ|]. rewrite HQ1. rewrite app_length. lia. }
  apply in_app_or in HI as [HI|HI]; [|apply in_app_or in HI as [HI|HI]; [|auto]].
  - apply in_flat_map in HI as (o & Ho & HI). destruct o; try destruct HI; destruct o; try destruct HI; [subst p|contradiction|subst p|contradiction].
    + apply in_split in Ho as (m1 & m2 & ->). right. right.
      assert (In (PPublish x) (lg_sent (ledger_of (cleans c) (l1 ++ OAccept (PPublish x) :: m1 ++ [OWrite FromClient (PPublish x)])))) as HS.
      { replace (l1 ++ OAccept (PPublish x) :: m1 ++ [OWrite FromClient (PPublish x)]) with ((l1 ++ OAccept (PPublish x) :: m1) ++ [OWrite FromClient (PPublish x)]) by now rewrite <- app_assoc.
        rewrite ledger_of_snoc. destruct (ledger_of (cleans c) (l1 ++ OAccept (PPublish x) :: m1)). cbn [ledger_step SpecSession.lg_sent req_id]. rewrite EI. cbn [is_some]. apply in_or_app. right. now left. }
      destruct (sent_until _ x i _ m2 EI HS) as [HK|(k1 & o & k2 & -> & H1 & H2)].
      * left. unfold now_ledger. rewrite HT. replace (l1 ++ OAccept (PPublish x) :: m1 ++ OWrite FromClient (PPublish x) :: m2) with ((l1 ++ OAccept (PPublish x) :: m1 ++ [OWrite FromClient (PPublish x)]) ++ m2); [exact HK|].
        repeat (rewrite <- ?app_assoc; cbn [app]). reflexivity.
      * right. right. exists (m1 ++ OWrite FromClient (PPublish x) :: k1), o, k2. split; [now rewrite <- app_assoc|]. split; [apply in_or_app; right; now left|exact H2].
    + right. right. right. left. exact Ho.
  - right. left. destruct (y_pc s); try destruct HI; [now subst p|contradiction].
Qed.

(* --- C34, C35 --- *)
Lemma idle_forward c q l q' : nfrom c q l q' -> n_phase q = FIdle -> n_todo q = [] -> n_open q = false ->
  forall k1 o k2, l = k1 ++ o :: k2 -> by_client o = false -> In OConnect k1 \/ o = OConnect \/ o = ORunEnd (inr NoNetwork).
Proof.
  induction 1 as [q|q o q1 l q' HS HF IH]; intros EP ET EO k1 x k2 EL HB; [destruct k1; discriminate EL|].
  destruct k1 as [|y k1]; cbn [app] in EL; injection EL as -> ->.
  - right. inversion HS as [HB2|b f its inn HB2 HA]; subst; [congruence|]. rewrite EP, ET, EO in HA. inversion HA; subst; auto.
  - inversion HS as [HB2|b f its inn HB2 HA]; subst.
    + destruct (IH EP ET EO k1 x k2 eq_refl HB) as [H|H]; [left; now right|now right].
    + rewrite EP, ET, EO in HA. inversion HA; subst.
      * left. now left.
      * destruct (IH eq_refl eq_refl eq_refl k1 x k2 eq_refl HB) as [H|H]; [left; now right|now right].
Qed.
Lemma run_end_state c q r q' : nstep c q (ORunEnd r) q' -> n_phase q' = FIdle /\ n_todo q' = [] /\ n_open q' = false.
Proof. intros H. inversion H as [HB|b f its inn HB HA]; subst; [discriminate HB|]. inversion HA; subst; auto. Qed.
Lemma after_end c s l1 r l2 : config_ok c -> reachable c s -> trace s = l1 ++ ORunEnd r :: l2 ->
  forall k1 o k2, l2 = k1 ++ o :: k2 -> by_client o = false -> In OConnect k1 \/ o = OConnect \/ o = ORunEnd (inr NoNetwork).
Proof.
  intros HC HR HT. run_of HC HR HT. apply nrun_split in HN as (q0 & q1 & _ & HS & HF). apply run_end_state in HS as (E1 & E2 & E3).
  eapply idle_forward; eassumption.
Qed.
Lemma after_disconnect c s l1 d l2 : config_ok c -> reachable c s -> trace s = l1 ++ OWrite FromClient (PDisconnect d) :: l2 ->
  goes (net_of l2) [ORunEnd (inl OutgoingDisconnect)] /\
  forall k1 o k2, l2 = k1 ++ o :: k2 -> is_write o = true -> In OConnect k1.
Proof.
  intros HC HR HT. run_of HC HR HT. apply nrun_split in HN as (q0 & q1 & _ & HS & HF).
  assert (n_todo q1 = [IEnd (inl OutgoingDisconnect)]) as ET.
  { inversion HS as [HB|b f its inn HB HA]; subst; [discriminate HB|]. cbn [n_todo]. inversion HA; subst; auto. }
  destruct (first_net _ _ _ _ HF) as [(E & _)|(m1 & o & m2 & q2 & -> & E & HB & HF2 & g & HA)].
  - split; [rewrite E; apply goes_nil|]. intros k1 o k2 -> HW. exfalso. rewrite net_app, net_cons in E by (destruct o; try discriminate HW; reflexivity). destruct (net_of k1); discriminate E.
  - rewrite ET in HA. apply act_cons in HA as (_ & _ & ET2 & EP2 & -> & EO2). split; [rewrite (net_split _ _ _ E HB); apply goes_cons, goes_done|].
    intros k1 o k2 EL HW. assert (by_client o = false) as HBO by (destruct o; try discriminate HW; reflexivity).
    destruct (split_two _ _ _ _ _ _ EL) as [(k & -> & ->)|[(-> & EX & ->)|(k & -> & ->)]].
    + destruct (idle_forward _ _ _ _ HF2 EP2 ET2 EO2 k o k2 eq_refl HBO) as [H|[->| ->]]; try discriminate HW. apply in_or_app. right. now right.
    + subst o. discriminate HW.
    + exfalso. rewrite net_app, net_cons in E by exact HBO. destruct (net_of k1); discriminate E.
Qed.

Definition closed_item (it : item) : bool :=
  match it with IHandle _ | IHandled | IResend _ | IOpen | INoConnect | IRefused _ => true | _ => false end.
Definition closed_ok (q : nstate) : Prop := n_open q = false /\ n_phase q <> FLoop /\ forallb closed_item (n_todo q) = true.
Lemma spoil_closed l : forallb closed_item l = true -> forallb closed_item (spoil l) = true.
Proof. induction l as [|it l IH]; [reflexivity|]. cbn [forallb spoil map]. intros H. apply andb_prop in H as [H1 H2]. unfold spoil in IH. rewrite (IH H2), andb_true_r. now destruct it. Qed.
Lemma on_answer_closed clean g p inn inn' its : on_answer clean g p inn inn' its -> forallb closed_item its = true.
Proof.
  intros H. inversion H; subst; try reflexivity. unfold deliver, resend_items. cbn [app forallb closed_item andb]. rewrite forallb_app. cbn [forallb closed_item andb]. rewrite andb_true_r.
  apply forallb_forall. intros x Hx. apply in_map_iff in Hx as (y & <- & _). reflexivity.
Qed.
Lemma closed_step c q o q' : closed_ok q -> nstep c q o q' -> o <> OConnectEnd None -> closed_ok q' /\ ~ on_connection o.
Proof.
  intros (EO & EP & ET) HS HN. inversion HS as [HB|b f its inn HB HA]; subst.
  - split; [repeat split; assumption|]. destruct o; try discriminate HB; exact (fun H => H).
  - unfold closed_ok. cbn [n_open n_phase n_todo]. rewrite EO in HA. destruct (n_todo q) as [|it rest] eqn:EQ.
    + destruct (n_phase q) eqn:EPH; inversion HA; subst; try congruence; cbn [on_connection forallb closed_item]; try (repeat split; try congruence; try reflexivity; intros H; exact H).
      * repeat split; try congruence. eapply on_answer_closed; eassumption.
    + cbn [forallb] in ET. apply andb_prop in ET as [ET1 ET2]. destruct it; try discriminate ET1; apply act_cons in HA as (_ & HA).
      * destruct HA as (-> & -> & -> & ->). repeat split; auto.
      * destruct HA as (-> & -> & -> & ->). repeat split; auto.
      * destruct HA as ([[-> ->]|[-> ->]] & -> & ->); repeat split; auto. destruct (cf_rt c); [exact ET2|now apply spoil_closed].
      * destruct HA as (-> & -> & -> & [[-> _]|[(e & ->) ->]]); [congruence|]. repeat split; auto; discriminate.
      * destruct HA as (-> & -> & -> & (e & ->) & ->). repeat split; auto; discriminate.
      * destruct HA as (-> & -> & -> & -> & ->). repeat split; auto; discriminate.
Qed.
Lemma closed_forward c q l q' : nfrom c q l q' -> closed_ok q -> existsb is_opened l = false -> closed_ok q' /\ forall o, In o l -> ~ on_connection o.
Proof.
  induction 1 as [q|q o q1 l q' HS HF IH]; intros HK HE; [split; [exact HK|intros o []]|]. cbn [existsb] in HE. apply orb_false_iff in HE as [HE1 HE2].
  destruct (closed_step _ _ _ _ HK HS) as [HK1 HO]; [intros ->; discriminate HE1|]. destruct (IH HK1 HE2) as [HK2 HL]. split; [exact HK2|].
  intros x [<-|Hx]; [exact HO|now apply HL].
Qed.
Lemma closed_after c s l1 r l2 : config_ok c -> reachable c s -> trace s = l1 ++ ORunEnd r :: l2 -> existsb is_opened l2 = false ->
  (forall o, In o l2 -> ~ on_connection o) /\
  (y_pc s = PIdle -> exists s', step c ERun s = Some s' /\ trace s' = trace s ++ [ORunEnd (inr NoNetwork)] /\
     y_state s' = y_state s /\ y_net s' = y_net s /\ y_chan s' = y_chan s /\ y_wait s' = y_wait s /\ y_pc s' = PIdle).
Proof.
  intros HC HR HT HE. destruct (conforms c s HC HR) as [q HQ]. pose proof (k_run _ _ _ HQ) as HN. rewrite HT in HN.
  apply nrun_split in HN as (q0 & q1 & _ & HS & HF). apply run_end_state in HS as (E1 & E2 & E3).
  destruct (closed_forward _ _ _ _ HF) as [HK HL]; [repeat split; [exact E3|rewrite E1; discriminate|now rewrite E2]|exact HE|].
  split; [exact HL|]. intros HP. destruct HK as (EO & _ & _). rewrite (k_open _ _ _ HQ) in EO. cbn [step]. rewrite HP. unfold start_run. rewrite EO.
  eexists. split; [reflexivity|]. split; [unfold trace, log; cbn; now rewrite map_app|]. cbn. auto.
Qed.

(* --- C36 --- *)
Lemma phase_answer c l q : nrun c l q -> (n_phase q = FAnswer -> exists l0 x m, l = l0 ++ OConnect :: m /\ net_of m = [OWrite FromConnect (PConnect x)]) /\
  (n_phase q = FOpening -> n_todo q = [] /\ exists l0 m, l = l0 ++ OConnect :: m /\ net_of m = []).
Proof.
  induction 1 as [|l q o q' HN [IH1 IH2] HS]; [split; discriminate|]. inversion HS as [HB|b f its inn HB HA]; subst; cbn [n_phase n_todo].
  - split; intros E.
    + destruct (IH1 E) as (l0 & x & m & -> & EM). exists l0, x, (m ++ [o]). split; [now rewrite <- app_assoc|]. rewrite net_app, EM, net_cons_client by exact HB. reflexivity.
    + destruct (IH2 E) as (ET & l0 & m & -> & EM). split; [exact ET|]. exists l0, (m ++ [o]). split; [now rewrite <- app_assoc|]. rewrite net_app, EM, net_cons_client by exact HB. reflexivity.
  - split; intros ->.
    + destruct (n_todo q) as [|it rest] eqn:ET.
      * destruct (n_phase q) eqn:EP; inversion HA; subst. destruct (IH2 eq_refl) as (_ & l0 & m & -> & EM). exists l0, x, (m ++ [OWrite FromConnect (PConnect x)]).
        split; [now rewrite <- app_assoc|]. now rewrite net_app, EM.
      * exfalso. destruct (history _ _ _ HN) as (l0 & o1 & m & qs & its0 & -> & _ & _ & HB1 & HA1 & HV); [rewrite ET; discriminate|]. rewrite ET in HV.
        assert (n_phase q = FAnswer) as EP.
        { inversion HA; subst; try reflexivity; try discriminate. }
        rewrite EP in HA1. inversion HA1; subst. apply serves_nil in HV as [_ HV]. discriminate HV.
    + destruct (n_todo q) as [|it rest] eqn:ET.
      * destruct (n_phase q) eqn:EP; inversion HA; subst. split; [reflexivity|]. exists l, []. auto.
      * exfalso. destruct (history _ _ _ HN) as (l0 & o1 & m & qs & its0 & -> & _ & _ & HB1 & HA1 & HV); [rewrite ET; discriminate|]. rewrite ET in HV.
        assert (n_phase q = FOpening) as EP by (inversion HA; subst; try reflexivity; try discriminate).
        destruct (IH2 EP) as (X & _). discriminate X.
Qed.
Lemma opened c s l1 l2 : config_ok c -> reachable c s -> trace s = l1 ++ OConnectEnd None :: l2 ->
  exists l0 x m0 a m, l1 = l0 ++ OConnect :: m0 ++ OAnswer (PConnAck a) :: m /\ net_of m0 = [OWrite FromConnect (PConnect x)] /\
    ca_rc a = RSuccess /\ existsb is_connect_end m = false.
Proof.
  intros HC HR HT. run_of HC HR HT. apply nrun_split in HN as (q0 & q1 & H0 & HS & _).
  assert (n_todo q0 = [IOpen]) as ET.
  { inversion HS as [HB|b f its inn HB HA]; subst; [discriminate HB|]. inversion HA; subst. reflexivity. }
  destruct (history _ _ _ H0) as (l0 & o & m & qs & its & -> & HN & HTS & HB & HA & HV); [rewrite ET; discriminate|]. rewrite ET in HV.
  destruct (serves_incl _ _ _ _ IOpen HV (or_introl eq_refl)) as [HI|[HI|HI]]; try discriminate HI.
  pose proof (script_kinds _ _ _ _ _ _ _ _ _ _ _ HA HI) as (a & -> & EC).
  pose proof (serves_no_end _ _ _ _ HV ltac:(discriminate)) as HE. rewrite no_end_net in HE.
  assert (n_phase qs = FAnswer) as EP by (inversion HA; subst; reflexivity).
  destruct (phase_answer _ _ _ HN) as [H1 _]. destruct (H1 EP) as (l00 & x & m0 & -> & EM). exists l00, x, m0, a, m. split; [now rewrite <- app_assoc|]. auto.
Qed.
Lemma refused c s l1 p e l2 : config_ok c -> reachable c s -> trace s = l1 ++ OAnswer p :: l2 -> refusal p = Some e -> goes (net_of l2) [OConnectEnd (Some e)].
Proof.
  intros HC HR HT HE. run_of HC HR HT. apply nrun_split in HN as (q0 & q1 & _ & HS & HF).
  assert (n_todo q1 = [IRefused e]) as ET.
  { inversion HS as [HB|b f its inn HB HA]; subst; [discriminate HB|]. cbn [n_todo]. inversion HA; subst. match goal with O : on_answer _ _ _ _ _ _ |- _ => inversion O; subst end.
    - destruct p; cbn [refusal] in HE; try (injection HE as <-; reflexivity). exfalso. match goal with X : forall a, _ <> _ |- _ => now apply (X c0) end.
    - cbn [refusal] in HE. destruct (ca_rc a); try (injection HE as <-; reflexivity). discriminate HE.
    - cbn [refusal] in HE. match goal with X : ca_rc _ = RSuccess |- _ => rewrite X in HE end. discriminate HE.
    - cbn [refusal] in HE. match goal with X : ca_rc _ = RSuccess |- _ => rewrite X in HE end. discriminate HE. }
  destruct (follow _ _ _ _ _ _ HF ET) as [->|(o & l3 & q2 & -> & HF2 & g & HA)]; [apply goes_nil|].
  apply act_cons in HA as (_ & _ & _ & _ & -> & _). apply goes_cons, goes_done.
Qed.
Lemma refused_state c s p e : y_pc s = PConnRead -> refusal p = Some e ->
  exists s', step c (EPacket p) s = Some s' /\ trace s' = trace s ++ [OAnswer p; OConnectEnd (Some e)] /\
    y_state s' = y_state s /\ y_net s' = y_net s /\ y_chan s' = y_chan s /\ y_wait s' = y_wait s /\ y_pc s' = PIdle.
Proof.
  intros HP HE. cbn [step]. rewrite HP. unfold connect_answer.
  destruct p; cbn [refusal] in HE; try (injection HE as <-; eexists; split; [reflexivity|]; split; [unfold trace; cbn; rewrite !map_app, <- app_assoc; reflexivity|cbn; auto]).
  destruct (ca_rc c0); try discriminate HE; injection HE as <-; eexists; (split; [reflexivity|]; split; [unfold trace; cbn; rewrite !map_app, <- app_assoc; reflexivity|cbn; auto]).
Qed.

Lemma waiting_from clean l m i : In i (waiting (ledger_of clean (l ++ m))) -> ~ In i (waiting (ledger_of clean l)) -> exists p, In (OWrite FromClient p) m /\ req_id p = Some i.
Proof.
  induction m as [|o m IH] using rev_ind; [rewrite app_nil_r; contradiction|]. rewrite app_assoc, ledger_of_snoc. intros H HN.
  apply waiting_back in H as [H|(p & -> & HP)].
  - destruct (IH H HN) as (p & HI & HP). exists p. split; [apply in_or_app; now left|exact HP].
  - exists p. split; [apply in_or_app; right; now left|exact HP].
Qed.
Lemma completed c s l1 a m org b o l2 : config_ok c -> reachable c s -> trace s = l1 ++ ORead (PPubComp a) :: m ++ o :: l2 ->
  In (ak_id a) (lg_rel (ledger_of (op_clean_start (cf_opts c)) l1)) -> attempt org (PPubRel b) o -> ak_id b = ak_id a ->
  exists p, In (OWrite FromClient p) m /\ req_id p = Some (ak_id a).
Proof.
  intros HC HR HT HI HA EB. destruct (at_state _ _ HR _ _ _ HT eq_refl) as (s1 & e & s2 & k & HR1 & HT1 & _ & _).
  pose proof (proj1 (ids_unique c s1 HC HR1)) as HND. unfold now_ledger in HND. rewrite HT1 in HND. unfold in_flight in HND. apply nodup_app_r in HND.
  assert (trace s = (l1 ++ ORead (PPubComp a) :: m) ++ o :: l2) as HT' by (rewrite HT, <- app_assoc; reflexivity).
  pose proof (pubrel_written _ _ _ _ _ _ _ HC HR HT' HA) as HX. rewrite EB in HX.
  replace (l1 ++ ORead (PPubComp a) :: m) with ((l1 ++ [ORead (PPubComp a)]) ++ m) in HX by now rewrite <- app_assoc.
  eapply waiting_from; [apply in_or_app; right; exact HX|]. rewrite ledger_of_snoc. intros HW. unfold waiting in HW.
  destruct (ledger_of _ l1) as [op se re lo cl ex er]. cbn [ledger_step lg_sent lg_rel] in *. apply in_app_or in HW as [HW|HW].
  - eapply nodup_disjoint; [exact HND|exact HW|exact HI].
  - apply filter_In in HW as [_ HW]. rewrite N.eqb_refl in HW. discriminate.
Qed.
Lemma attempted_prefix c s : config_ok c -> reachable c s -> exists rest, accepted (trace s) = tried (trace s) ++ rest /\
  rest = match y_pc s with PRequest p => [p] | _ => [] end ++ y_chan s.
Proof. intros HC HR. eexists. split; [apply (queue c s HC HR)|]. unfold held. reflexivity. Qed.
Lemma tried_written l : (forall p, ~ In (OWriteFail FromClient p) l) -> tried l = written l.
Proof.
  unfold tried, written. induction l as [|o l IH]; intros H; [reflexivity|]. cbn [flat_map]. rewrite IH by (intros p HI; apply (H p); now right).
  destruct o; try reflexivity. destruct o; try reflexivity. exfalso. apply (H p). now left.
Qed.
Lemma written_prefix c s : config_ok c -> reachable c s -> (forall p, ~ In (OWriteFail FromClient p) (trace s)) ->
  exists rest, accepted (trace s) = written (trace s) ++ rest.
Proof. intros HC HR HF. rewrite <- (tried_written _ HF). eexists. apply (queue c s HC HR). Qed.
(* a failed write is the end of the connection *)
Lemma fail_ends c s l1 p l2 : config_ok c -> reachable c s -> trace s = l1 ++ OWriteFail FromClient p :: l2 ->
  exists e, goes (net_of l2) [ORunEnd (inr e)].
Proof.
  intros HC HR HT. run_of HC HR HT. apply nrun_split in HN as (q0 & q1 & _ & HS & HF).
  assert (n_todo q1 = [IFail]) as ET. { inversion HS as [HB|b f its inn HB HA]; subst; [discriminate HB|]. cbn [n_todo]. inversion HA; subst; auto. }
  destruct (follow _ _ _ _ _ _ HF ET) as [->|(o & l3 & q2 & -> & HF2 & g & HA)]; [exists Io; apply goes_nil|].
  apply act_cons in HA as (_ & _ & _ & _ & (e & ->) & _). exists e. apply goes_cons, goes_done.
Qed.

Lemma flat_map_mid {A B} (f : A -> list B) l1 o l2 : flat_map f (l1 ++ o :: l2) = flat_map f l1 ++ f o ++ flat_map f l2.
Proof. now rewrite flat_map_app. Qed.
Lemma disconnect_queue c s l1 d l2 : config_ok c -> reachable c s -> trace s = l1 ++ OWrite FromClient (PDisconnect d) :: l2 ->
  exists behind, accepted l1 = tried l1 ++ PDisconnect d :: behind /\
    behind ++ accepted l2 = tried l2 ++ match y_pc s with PRequest p => [p] | _ => [] end ++ y_chan s.
Proof.
  intros HC HR HT. destruct (request_first c s l1 (PDisconnect d) _ l2 HC HR HT (or_introl eq_refl)) as (s1 & HR1 & HT1 & HP1).
  pose proof (queue c s1 HC HR1) as H1. rewrite HT1, HP1 in H1. exists (y_chan s1). split; [exact H1|].
  pose proof (queue c s HC HR) as H2. rewrite HT in H2. unfold accepted, tried in *. rewrite !flat_map_mid, H1 in H2. cbn [held app] in H2.
  rewrite <- !app_assoc in H2. apply app_inv_head in H2. cbn [app] in H2. injection H2 as H2. exact H2.
Qed.
