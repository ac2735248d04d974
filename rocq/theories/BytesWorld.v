(* C77: client and broker over bytes do what they do over packets. *)
From Verif Require Import Base VarInt Prims Props Codes Packets BaseFacts Options Session Client System SpecSession SpecNet SpecTrace SpecCodec SpecRead SpecOut SpecEnd SmolStream TokioRead Wire SpecWire SpecPolite SpecWorld SpecBytes
  VarIntFacts EncFacts CodecFacts CodecMore InjFacts SessionFacts SystemFacts Cases NetFacts LoopMore ReadFacts ReadMore WireFacts WireMore Witness OptionsMore OutFacts OutMore EndMore BytesFacts BytesMore.

(* ---- for any broker ---- *)
Lemma ctrans_step c chk i i' : ctrans c chk i i' -> w_sys i' = w_sys i \/ exists e, step c e (w_sys i) = Some (w_sys i').
Proof. intros H. destruct H; cbn [w_sys]; eauto. Qed.
Lemma arrive_bytes c chk i i' us ch d rest : nt_connected (y_net (w_sys i)) = us -> onway i d (ch ++ rest) -> wstep c chk (WArrive (negb us) ch) i = Some i' ->
  w_sys i' = w_sys i /\ onway i' d rest.
Proof.
  intros HU [H1 H2] HS. cbn [wstep] in HS. unfold connecting, current in *. destruct us; cbn [negb] in HS; injection HS as <-; (split; [reflexivity|]); (split; [exact H1|]); unfold connecting, current;
    cbn [w_sys w_net w_new]; intros HC; specialize (H2 HC); rewrite HU in *; destruct H2 as (E1 & bs & E2 & E3); (split; [exact E1|]); exists bs; (split; [exact E2|]); cbn [Wire.arrive sr_all]; now rewrite <- app_assoc.
Qed.
Lemma sent_encodes p b : sent p b -> packet_ok p /\ encodes p b.
Proof. intros ([HP _] & _ & _ & body & H1 & H2 & _ & ->). split; [exact HP|]. now exists body. Qed.
Lemma sent_all ps bs : Forall2 sent ps bs -> all_bytes (concat bs).
Proof.
  induction 1 as [|p b ps bs HS _ IH]; [constructor|]. cbn [concat]. apply all_bytes_app. split; [|exact IH]. destruct (sent_encodes _ _ HS) as [HP HE]. now apply encodes_bytes with p.
Qed.
Lemma send_bytes i d f ps bs : onway i d f -> Forall2 sent ps bs -> onway i (d ++ ps) (f ++ concat bs).
Proof.
  intros [H1 H2] HS. split; [exact H1|]. intros HC. destruct (H2 HC) as (E1 & cs & E2 & E3). split; [exact E1|]. exists (cs ++ bs).
  split; [rewrite app_assoc; now apply Forall2_app|]. now rewrite app_assoc, E3, concat_app.
Qed.
(* how the client got here *)
Definition run_to (c : config) (chk : bool) (i : wire) : Prop := exists xs, Forall wire_ok xs /\ wexec c chk xs (winit c chk) = Some i.
Lemma run_to_reachable c chk i : run_to c chk i -> wreachable c chk i.
Proof. intros (xs & _ & H). now exists xs. Qed.
Lemma run_to_step c chk x i i' : run_to c chk i -> wire_ok x -> wstep c chk x i = Some i' -> run_to c chk i'.
Proof. intros (xs & HF & H) HX HS. exists (xs ++ [x]). split; [apply Forall_app; auto|]. rewrite wexec_app, H. cbn [wexec]. now rewrite HS. Qed.
Lemma run_to_writable c chk i : config_ok c -> built c -> run_to c chk i -> Forall (writable (cf_rt c)) (trace (w_sys i)).
Proof. intros HC HB (xs & HF & H). destruct (wire_events _ _ _ _ HF H) as (es & HE & HO & _). now apply all_writable with es. Qed.

Record along (c : config) (chk : bool) (i : wire) (k : pipe) (u d : list packet) : Prop := {
  al_run : run_to c chk i;
  al_used : nt_connected (y_net (w_sys i)) = pi_used k;
  al_all : all_bytes (pi_down k);
  al_up : upward u k;
  al_down : onway i d (pi_down k) }.
Lemma along_init c chk : along c chk (winit c chk) pipe0 [] [].
Proof.
  constructor; try reflexivity; try (now constructor).
  - exists []. split; [constructor|reflexivity].
  - exists [], [], []. repeat apply conj; auto using stuck_nil.
Qed.
Lemma reads_all rt l k k' : felt_all rt l k k' -> all_bytes (pi_down k) -> all_bytes (pi_down k').
Proof. induction 1 as [|o l k k1 k' HO _ IH]; auto. intros H. apply IH. destruct HO; auto. constructor. Qed.
Lemma along_client c chk x i i' k k' l u d : config_ok c -> built c -> along c chk i k u d -> is_arrival x = false -> wire_ok x -> wstep c chk x i = Some i' ->
  trace (w_sys i') = trace (w_sys i) ++ l -> felt_all (cf_rt c) l k k' -> sr_torn (w_net i') = false ->
  exists u' d', along c chk i' k' u' d' /\ notices l (Line (pi_used k) u d (pi_live k)) (Line (pi_used k') u' d' (pi_live k')) /\
    (w_sys i' = w_sys i \/ exists e, step c e (w_sys i) = Some (w_sys i')).
Proof.
  intros HC HB [A1 A2 A3 A4 A5] HA HX HS HL HF HT. pose proof (wstep_ctrans _ _ _ _ _ HA HS) as HCT. pose proof (run_to_step _ _ _ _ _ A1 HX HS) as HR.
  destruct (client_bytes _ _ _ _ _ _ _ _ (run_to_reachable _ _ _ A1) HCT HL A2 HF A5 HT) as (E & d' & HRd & HO).
  pose proof (run_to_writable _ _ _ HC HB HR) as HW. rewrite HL in HW. apply Forall_app in HW as [_ HW].
  destruct (felt_notices _ _ _ _ _ _ HF HW HRd u A4) as (u' & HN & HU). exists u', d'. split; [constructor; auto; now apply reads_all with (cf_rt c) l k|]. split; [exact HN|now apply ctrans_step with chk].
Qed.
Lemma along_arrive c chk ch rest us b q v i i' u d : along c chk i (Pipe us b q (ch ++ rest) v) u d -> wstep c chk (WArrive (negb us) ch) i = Some i' ->
  w_sys i' = w_sys i /\ along c chk i' (Pipe us b q rest v) u d.
Proof.
  intros [A1 A2 A3 A4 A5] HS. cbn [pi_used pi_down] in *. apply all_bytes_app in A3 as [A3 A3']. destruct (arrive_bytes _ _ _ _ _ _ _ _ A2 A5 HS) as [E HO]. split; [exact E|].
  constructor; cbn [pi_used pi_down]; auto; [|now rewrite E]. now apply run_to_step with (WArrive (negb us) ch) i.
Qed.
Lemma along_decode c chk p b rest us q dn v i u d : along c chk i (Pipe us (b ++ rest) q dn v) u d -> packet_ok p -> encodes p b -> along c chk i (Pipe us rest (q ++ [p]) dn v) u d.
Proof. intros [A1 A2 A3 A4 A5] HP HE. constructor; auto. now apply upward_decode with b. Qed.
(* the broker goes on, with the queue q' *)
Lemma along_keep c chk i k u d q' v' ps bs : along c chk i k u d -> (pi_live k = false -> v' = false) -> Forall2 sent ps bs ->
  exists us, u = pi_queue k ++ us /\ along c chk i (Pipe (pi_used k) (pi_up k) q' (pi_down k ++ concat bs) v') (q' ++ us) (d ++ ps).
Proof.
  intros [A1 A2 A3 (us & cs & cut & E1 & E2 & E3 & E4 & E5 & E6) A5] HV HS. exists us. split; [exact E1|]. constructor; cbn [pi_used pi_down]; auto.
  - apply all_bytes_app. split; [exact A3|now apply sent_all with ps].
  - exists us, cs, cut. cbn [pi_queue pi_up pi_live]. repeat apply conj; auto. destruct E6; auto.
  - now apply send_bytes.
Qed.
Lemma along_close c chk i k u d ps bs : along c chk i k u d -> Forall2 sent ps bs -> along c chk i (Pipe (pi_used k) [] [] (pi_down k ++ concat bs) false) [] (d ++ ps).
Proof.
  intros [A1 A2 A3 _ A5] HS. constructor; cbn [pi_used pi_down]; auto.
  - apply all_bytes_app. split; [exact A3|now apply sent_all with ps].
  - exists [], [], []. repeat apply conj; auto using stuck_nil.
  - now apply send_bytes.
Qed.

(* ---- the broker of SpecWorld.v ---- *)
Definition whole (k : pipe) (w : world) (u d : list packet) : world :=
  World (pi_used k) u d (pi_live k) (wd_in w) (wd_session w) (wd_rcv w) (wd_stale w) (wd_log w).
Lemma push_arrive b p u : push b p u = SpecPolite.arrive b p u.
Proof. reflexivity. Qed.
Lemma noticed_observed o k k' u u' d d' w : noticed o (Line (pi_used k) u d (pi_live k)) (Line (pi_used k') u' d' (pi_live k')) -> observed o (whole k w u d) (whole k' (note w o) u' d').
Proof.
  intros H. unfold whole, note. destruct w as [wu wp wd wl wi ws wr wt lg]. cbn [wd_used wd_up wd_down wd_live wd_in wd_session wd_rcv wd_stale wd_log]. inversion H; subst.
  - constructor.
  - constructor.
  - constructor.
  - constructor.
  - constructor.
  - constructor.
  - constructor.
  - destruct o; try contradiction; constructor; assumption.
Qed.
Lemma notices_used l : forall k u d k' u' d' w, notices l (Line (pi_used k) u d (pi_live k)) (Line (pi_used k') u' d' (pi_live k')) ->
  observes l (whole k w u d) (whole k' (fold_left note l w) u' d').
Proof.
  induction l as [|o l IH]; intros k u d k' u' d' w H.
  - assert (pi_used k = pi_used k' /\ u = u' /\ d = d' /\ pi_live k = pi_live k') as (E1 & <- & <- & E2) by (now inversion H). cbn [fold_left]. unfold whole. rewrite E1, E2. constructor.
  - inversion H as [|? ? ? x ? H1 H2]; subst. destruct x as [us u1 d1 v]. cbn [fold_left]. econstructor.
    + apply (noticed_observed o k (Pipe us [] [] [] v) u u1 d d1). exact H1.
    + apply IH. exact H2.
Qed.
Lemma broker_more fair k w w' us d : broker fair (at_broker k w) w' -> keeps (at_broker k w) w' ->
  (whole (Pipe (pi_used k) (pi_up k) (wd_up w') [] (wd_live w')) w' (wd_up w' ++ us) (d ++ wd_down w') = whole k w (pi_queue k ++ us) d \/
   broker fair (whole k w (pi_queue k ++ us) d) (whole (Pipe (pi_used k) (pi_up k) (wd_up w') [] (wd_live w')) w' (wd_up w' ++ us) (d ++ wd_down w'))) /\
  (pi_live k = false -> wd_live w' = false).
Proof.
  intros H HK. unfold at_broker, whole in *. destruct k as [ku kp kq kd kl]. destruct w as [wu wp wd wl wi ws wr wt lg].
  cbn [pi_used pi_up pi_queue pi_down pi_live wd_used wd_up wd_down wd_live wd_in wd_session wd_rcv wd_stale wd_log] in *.
  inversion H; subst; cbn [pi_used pi_up pi_queue pi_down pi_live wd_used wd_up wd_down wd_live wd_in wd_session wd_rcv wd_stale wd_log app] in *; (split; [|auto]).
  - right. now constructor.
  - exfalso. destruct HK as [HK|(_ & _ & HK)]; discriminate HK.
  - right. eapply br_pass1; eauto.
  - right. eapply br_refuse1; eauto.
  - right. eapply br_pass2; eauto.
  - right. eapply br_again2; eauto.
  - right. eapply br_refuse2; eauto.
  - right. now constructor.
  - right. rewrite app_nil_r. now constructor.
  - right. now constructor.
  - left. destruct HK as [HK|(E1 & E2 & E3)]; [discriminate HK|]. cbn [wd_in wd_live wd_up] in *. subst. now rewrite app_nil_r.
  - right. rewrite app_nil_r. constructor.
Qed.
Lemma broker_close fair k w w' us d c s : broker fair (at_broker k w) w' -> shuts w' -> joint c fair s (whole k w (pi_queue k ++ us) d) ->
  joint c fair s (whole (Pipe (pi_used k) [] [] [] false) w' [] (d ++ wd_down w')).
Proof.
  intros H (K1 & K2 & K3) HJ. unfold at_broker, whole in *. destruct k as [ku kp kq kd kl]. destruct w as [wu wp wd wl wi ws wr wt lg].
  cbn [pi_used pi_up pi_queue pi_down pi_live wd_used wd_up wd_down wd_live wd_in wd_session wd_rcv wd_stale wd_log] in *.
  inversion H; subst; cbn [pi_used pi_up pi_queue pi_down pi_live wd_used wd_up wd_down wd_live wd_in wd_session wd_rcv wd_stale wd_log app] in *; try discriminate K1; subst.
  - eapply j_broker; [exact HJ|]. now constructor.
  - rewrite app_nil_r. eapply j_broker; [exact HJ|]. constructor.
  - rewrite app_nil_r. eapply j_broker; [eapply j_broker; [exact HJ|apply br_forget]|]. apply br_cut.
Qed.

Lemma linked_joint c chk fair i k w : config_ok c -> built c -> linked_up c chk fair true i k w -> exists u d, joint c fair (w_sys i) (whole k w u d) /\ along c chk i k u d.
Proof.
  intros HC HB H. induction H as [|x i k w i' l k' H IH HA HX HS HL HF HT|ch rest us u q v i w i' H IH HS|p b rest us q d v i w H IH HP HE|i k w w' bs H IH HBr HK HSe|i k w w' bs H IH HBr HK HSe].
  - exists [], []. split; [exact (j_init _ _)|apply along_init].
  - destruct IH as (u & d & HJ & HAl). destruct (along_client _ _ _ _ _ _ _ _ _ _ HC HB HAl HA HX HS HL HF (HT eq_refl)) as (u' & d' & HAl' & HN & HSt). exists u', d'. split; [|exact HAl'].
    apply notices_used with (w := w) in HN. destruct HSt as [E|(e & E)]; [|now apply j_client with (w_sys i) (whole k w u d) e l].
    rewrite E in *. assert (l = []) as -> by (rewrite <- (app_nil_r (trace (w_sys i))) in HL at 1; now apply app_inv_head in HL). inversion HF; subst. inversion HN; subst. exact HJ.
  - destruct IH as (u' & d' & HJ & HAl). destruct (along_arrive _ _ _ _ _ _ _ _ _ _ _ _ HAl HS) as [E HAl']. exists u', d'. split; [rewrite E; exact HJ|exact HAl'].
  - destruct IH as (u' & d' & HJ & HAl). exists u', d'. split; [exact HJ|]. now apply along_decode with b.
  - destruct IH as (u & d & HJ & HAl). destruct (al_up _ _ _ _ _ _ HAl) as (us0 & _ & _ & EU & _).
    destruct (broker_more fair k w w' us0 d HBr HK) as [HM HV]. destruct (along_keep _ _ _ _ _ _ (wd_up w') (wd_live w') _ _ HAl HV HSe) as (us & E1 & HAl').
    assert (us0 = us) as -> by (rewrite E1 in EU; now apply app_inv_head in EU). exists (wd_up w' ++ us), (d ++ wd_down w'). split; [|exact HAl']. rewrite E1 in HJ.
    destruct HM as [HM|HM]; [|eapply j_broker; [exact HJ|exact HM]]. rewrite <- HM in HJ. exact HJ.
  - destruct IH as (u & d & HJ & HAl). destruct (al_up _ _ _ _ _ _ HAl) as (us & _ & _ & EU & _). exists [], (d ++ wd_down w'). split; [|now apply along_close with (u := u) (d := d)].
    rewrite EU in HJ. exact (broker_close _ _ _ _ _ _ _ _ HBr HK HJ).
Qed.
