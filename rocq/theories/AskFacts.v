(* C81 *)
From Coq Require Import Permutation.
From Verif Require Import Base VarInt Prims Props Codes Packets BaseFacts Options Session Client System SpecSession SpecNet SpecTrace SpecAsk SessionFacts SystemFacts NetFacts NetMore TraceFacts TraceMore ResumeMore LoopMore OutFacts Cases IdFacts Scenario LoopCases.

Lemma begun_app a b : begun_in (a ++ b) = begun_in a ++ begun_in b.
Proof. apply flat_map_app. Qed.
Lemma fates_app a b : accepted (a ++ b) = accepted a ++ accepted b /\ refused_in (a ++ b) = refused_in a ++ refused_in b /\ dropped_in (a ++ b) = dropped_in a ++ dropped_in b.
Proof. repeat split; apply flat_map_app. Qed.
Lemma build_asks k i : asks k (build k i).
Proof. destruct k as [[]| | |]; cbn; repeat split; auto; discriminate. Qed.
Lemma call_asks c k p pool' r : client_call c k p = Some (pool', r) -> asks k (match r with inl (q, _) => q | inr q => q end).
Proof.
  unfold client_call. intros H. destruct (needs_id k).
  - destruct (pl_ids p) as [|i rest]; [discriminate H|]. destruct (validate _ _) as [e|]; injection H as <- <-; apply build_asks.
  - destruct (validate _ _) as [e|]; injection H as <- <-; apply build_asks.
Qed.

(* what a step does to calls *)
Definition calm_out (o : out) : Prop := match o with OBegin _ | OAccept _ | ORefuse _ _ | OGiveUp _ => False | _ => True end.
Lemma calm_none l : Forall calm_out l -> begun_in l = [] /\ accepted l = [] /\ refused_in l = [] /\ dropped_in l = [].
Proof.
  induction 1 as [|o l HO _ (E1 & E2 & E3 & E4)]; [auto|]. unfold begun_in, accepted, refused_in, dropped_in in *. cbn [flat_map]. rewrite E1, E2, E3, E4. destruct o; try destruct HO; auto.
Qed.
Lemma tokio_calm o ps : forall oks, Forall calm_out (tokio_writes o ps oks).
Proof. induction ps as [|p ps IH]; intros oks; cbn [tokio_writes]; [constructor|]. destruct (match oks with [] => _ | _ => _ end) as [b oks']. destruct (write_result Tokio p b); constructor; try exact I; apply IH. Qed.
Lemma smol_calm o ps ok : Forall calm_out (smol_writes o ps ok).
Proof. unfold smol_writes. apply Forall_forall. intros x Hx. apply in_map_iff in Hx as (p & <- & _). now destruct (smol_write_all ps ok). Qed.
Lemma ask_step c s e l st w ch n q t : tcase c s e l st w ch n q t ->
  Forall2 asks (calls_in [e]) (begun_in l) /\ Permutation (y_wait s ++ begun_in l) (accepted l ++ refused_in l ++ dropped_in l ++ w).
Proof.
  intros HT. assert (calls_in [e] = [] -> Forall calm_out l -> w = y_wait s -> Forall2 asks (calls_in [e]) (begun_in l) /\ Permutation (y_wait s ++ begun_in l) (accepted l ++ refused_in l ++ dropped_in l ++ w)) as X.
  { intros -> HF ->. destruct (calm_none l HF) as (-> & -> & -> & ->). split; [constructor|]. now rewrite app_nil_r. }
  inversion HT; subst; try (apply X; [reflexivity| |reflexivity]; first [quiet_out|apply tokio_calm|apply smol_calm|apply Forall_app; split; [first [apply tokio_calm|apply smol_calm]|quiet_out]]); clear X.
  - cbn. split; [constructor; [|constructor]|apply Permutation_sym, Permutation_cons_append]. match goal with H : client_call _ _ _ = _ |- _ => exact (call_asks _ _ _ _ _ H) end.
  - cbn. split; [constructor; [|constructor]|reflexivity]. match goal with H : client_call _ _ _ = _ |- _ => exact (call_asks _ _ _ _ _ H) end.
  - cbn. split; [constructor|]. rewrite app_nil_r. match goal with H : pick _ _ = _ |- _ => exact (SystemFacts.pick_perm _ _ _ _ H) end.
  - cbn. split; [constructor|]. rewrite app_nil_r. match goal with H : pick _ _ = _ |- _ => exact (SystemFacts.pick_perm _ _ _ _ H) end.
  - cbn. split; [constructor|]. match goal with H : y_wait s = [] |- _ => rewrite H end. constructor.
Qed.
Lemma asked_all c es : forall s, exec c es (init c) = Some s ->
  Forall2 asks (calls_in es) (begun_in (trace s)) /\ Permutation (begun_in (trace s)) (accepted (trace s) ++ refused_in (trace s) ++ dropped_in (trace s) ++ y_wait s).
Proof.
  induction es as [|e es IH] using rev_ind; intros s H; [injection H as <-; split; constructor|].
  apply exec_snoc in H as (s1 & H & HS). assert (reachable c s1) as HR by (now exists es). destruct (IH _ H) as [I1 I2].
  destruct (step_tcase c e s1 s HR HS) as (l & st & w & ch & n & q & t & HT & ->). destruct (ask_step _ _ _ _ _ _ _ _ _ _ HT) as [A1 A2]. rewrite next_trace, begun_app.
  destruct (fates_app (trace s1) l) as (-> & -> & ->). split.
  - unfold calls_in in *. rewrite flat_map_app. now apply Forall2_app.
  - cbn [next y_wait]. rewrite I2. rewrite <- !app_assoc, A2.
    set (a := accepted _). set (r := refused_in _). set (d := dropped_in _). set (a' := accepted _). set (r' := refused_in _). set (d' := dropped_in _).
    apply Permutation_app_head. rewrite !app_assoc. apply Permutation_app_tail. rewrite <- !app_assoc.
    transitivity (a' ++ r ++ d ++ r' ++ d'); [|apply Permutation_app_head, Permutation_app_head; rewrite !app_assoc; apply Permutation_app_tail, Permutation_app_comm].
    rewrite !app_assoc. do 2 apply Permutation_app_tail. rewrite <- app_assoc. apply Permutation_sym. rewrite <- app_assoc, (app_assoc r d a'). apply Permutation_app_comm.
Qed.
Lemma written_asked c es s p : config_ok c -> exec c es (init c) = Some s -> In p (tried (trace s)) -> exists k, In (ECall k) es /\ asks k p.
Proof.
  intros HC HE HI. assert (reachable c s) as HR by (now exists es). destruct (asked_all _ _ _ HE) as [H1 H2]. destruct (attempted_prefix c s HC HR) as (rest & EA & _).
  assert (In p (begun_in (trace s))) as HB by (apply (Permutation_in _ (Permutation_sym H2)), in_or_app; left; rewrite EA; apply in_or_app; now left).
  clear - H1 HB. remember (calls_in es) as ks eqn:EK. assert (forall k, In k ks -> In (ECall k) es) as HK.
  { intros k Hk. subst ks. apply in_flat_map in Hk as (e & He & Hk). destruct e; try destruct Hk as [<-|[]]; try destruct Hk. exact He. }
  clear EK. induction H1 as [|k q ks ps HA _ IH]; [destruct HB|]. destruct HB as [->|HB]; [exists k; split; [apply HK; now left|exact HA]|]. apply IH; [exact HB|]. intros x Hx. apply HK. now right.
Qed.
Lemma sent_written clean l p : In p (lg_sent (ledger_of clean l)) -> In (OWrite FromClient p) l.
Proof.
  induction l as [|o l IH] using rev_ind; [intros []|]. rewrite ledger_of_snoc. intros H. apply in_or_app. destruct (ledger_of clean l) as [op se re lo cl ex er]. cbn [lg_sent] in IH.
  assert (In p se -> In (OWrite FromClient p) l \/ In (OWrite FromClient p) [o]) as X by (intros Y; left; now apply IH). cbn [ledger_step] in H.
  destruct o as [| | | | | | | | |a|a| | |[] q|[] q|]; cbn [lg_sent] in H; auto.
  - destruct (is_some (req_id p0)); cbn [lg_sent] in H; auto.
  - destruct a; cbn [lg_sent] in H; auto. destruct (ca_rc c); cbn [lg_sent] in H; auto. destruct (_ && _); cbn [lg_sent] in H; [|destruct H]. apply filter_In in H. tauto.
  - destruct a; cbn [lg_sent] in H; try (apply filter_In in H); tauto.
  - destruct (is_some (req_id q)); auto. apply in_app_iff in H as [H|[->|[]]]; auto. right. now left.
Qed.
Lemma resent_asked c es s p l1 o l2 : config_ok c -> exec c es (init c) = Some s -> trace s = l1 ++ o :: l2 -> attempt FromResend p o ->
  (exists i, p = PPubRel (okay i)) \/ exists k q, In (ECall k) es /\ asks k q /\ p = dup q /\ In (OWrite FromClient q) l1.
Proof.
  intros HC HE HT HA. assert (reachable c s) as HR by (now exists es). pose proof HT as HT'. run_of HC HR HT'. destruct (resend_before _ _ _ _ _ _ HN HA) as (l0 & a & m & E & EC & _ & _ & [HX|(i & -> & _)]); [right|left; eauto].
  rewrite ledger_of_snoc in HX. destruct (expect_ledger (cleans c) (ledger_of (cleans c) l0) a EC) as (E1 & _). rewrite E1 in HX. destruct (resumed _ a); [|destruct HX].
  apply in_map_iff in HX as (y & <- & HQ). apply filter_In in HQ as [HQ _]. apply sent_written in HQ.
  assert (In (OWrite FromClient y) l1) as HQ1 by (rewrite E; apply in_or_app; now left).
  destruct (written_asked c es s y HC HE) as (k & HK & HAs); [|exists k, y; auto]. apply in_flat_map. exists (OWrite FromClient y). split; [|now left]. rewrite HT. apply in_or_app. now left.
Qed.
