(* C77: what one step of the client does to the bytes on the way and to the packets they stand for. *)
From Verif Require Import Base VarInt Prims Props Codes Packets BaseFacts Options Session Client System SpecSession SpecNet SpecTrace SpecCodec SpecRead SpecOut SpecEnd SmolStream TokioRead Wire SpecWire SpecPolite SpecBytes
  CodecFacts CodecMore InjFacts SessionFacts SystemFacts Cases NetFacts LoopMore ReadFacts ReadMore WireFacts WireMore Witness OptionsMore OutMore EndMore.

(* ---- what is read ---- *)
Definition read_one (o : out) (d d' : list packet) : Prop :=
  match o with OConnect => d' = [] | OAnswer p | ORead p => d = p :: d' | _ => d' = d end.
Inductive reads : list out -> list packet -> list packet -> Prop :=
| rd_nil d : reads [] d d
| rd_cons o l d d' d'' : read_one o d d' -> reads l d' d'' -> reads (o :: l) d d''.
Definition silent (o : out) : bool := match o with OConnect | OAnswer _ | ORead _ => false | _ => true end.
Lemma silent_reads l d : Forall (fun o => silent o = true) l -> reads l d d.
Proof. induction 1 as [|o l HO _ IH]; [constructor|]. econstructor; [|exact IH]. destruct o; try discriminate HO; reflexivity. Qed.
Lemma silent_down rt l k k' : Forall (fun o => silent o = true) l -> felt_all rt l k k' -> pi_down k' = pi_down k.
Proof.
  intros HF H. induction H as [|o l k k' k'' HO _ IH]; [reflexivity|]. inversion HF as [|? ? E HF']; subst. rewrite (IH HF').
  destruct HO; try discriminate E; reflexivity.
Qed.
Lemma tokio_silent o ps oks : Forall (fun o => silent o = true) (tokio_writes o ps oks).
Proof. apply Forall_forall. intros x Hx. apply tokio_writes_origin in Hx as (y & _ & [-> | ->]); reflexivity. Qed.
Lemma smol_silent o ps ok : Forall (fun o => silent o = true) (smol_writes o ps ok).
Proof. apply Forall_forall. intros x Hx. apply smol_writes_origin in Hx as (y & _ & [-> | ->]); reflexivity. Qed.
Lemma tcase_silent c s e l st w ch n q t : tcase c s e l st w ch n q t -> e <> EConnect -> (forall p, e <> EPacket p) -> Forall (fun o => silent o = true) l.
Proof.
  intros H HE HP. destruct H; try congruence; try (exfalso; eapply HP; reflexivity); try (apply Forall_app; split); auto using tokio_silent, smol_silent;
    repeat (apply Forall_cons; [reflexivity|]); apply Forall_nil.
Qed.
Lemma tcase_reads c s p l st w ch n q t : tcase c s (EPacket p) l st w ch n q t ->
  exists o l', l = o :: l' /\ (o = OAnswer p \/ o = ORead p) /\ Forall (fun o => silent o = true) l'.
Proof.
  intros H. inversion H; subst; do 2 eexists; (split; [reflexivity|]); (split; [auto|]); repeat (apply Forall_cons; [reflexivity|]); apply Forall_nil.
Qed.

(* ---- the connection in use ---- *)
Definition used_one (b : bool) (o : out) : bool := match o with OConnectEnd None => true | ORunEnd _ => false | _ => b end.
Lemma felt_used rt l k k' : felt_all rt l k k' -> pi_used k' = fold_left used_one l (pi_used k).
Proof.
  induction 1 as [|o l k k' k'' HO _ IH]; [reflexivity|]. cbn [fold_left]. rewrite IH. f_equal.
  destruct HO as [| | | | |o us u q d v Ho]; try reflexivity. destruct o as [| | | | | |[]| | | | | | | | |]; try reflexivity; contradiction.
Qed.
Lemma used_same l b : Forall (fun o => used_one b o = b) l -> fold_left used_one l b = b.
Proof. induction 1 as [|o l HO _ IH]; [reflexivity|]. cbn. now rewrite HO. Qed.
Lemma tokio_used o ps oks b : fold_left used_one (tokio_writes o ps oks) b = b.
Proof. apply used_same. apply Forall_forall. intros x Hx. apply tokio_writes_origin in Hx as (y & _ & [-> | ->]); reflexivity. Qed.
Lemma smol_used o ps ok b : fold_left used_one (smol_writes o ps ok) b = b.
Proof. apply used_same. apply Forall_forall. intros x Hx. apply smol_writes_origin in Hx as (y & _ & [-> | ->]); reflexivity. Qed.
Lemma tcase_used c s e l st w ch n q t : tcase c s e l st w ch n q t -> nt_connected n = fold_left used_one l (nt_connected (y_net s)).
Proof.
  intros H. destruct H; rewrite ?fold_left_app, ?tokio_used, ?smol_used; cbn [fold_left used_one]; rewrite ?connected_end, ?connected_apply; try reflexivity.
  - destruct (cf_rt c); reflexivity.
  - assumption.
Qed.

Definition opening (q : pc) : bool := match q with PConnWrite | PConnRead | PConnHandle _ | PConnResend _ => true | _ => false end.
Lemma tcase_opening c s e l st w ch n q t : tcase c s e l st w ch n q t -> opening q = true -> e <> EConnect ->
  opening (y_pc s) = true /\ nt_connected n = nt_connected (y_net s).
Proof.
  intros H HO HE. destruct H; try congruence; try discriminate HO; try (destruct (cf_rt c); discriminate HO);
    try (match goal with E : y_pc s = _ |- _ => rewrite E end; rewrite ?connected_apply; auto; fail); auto.
  all: try (destruct reply; destruct (cf_rt c); discriminate HO). all: try (destruct r; destruct (cf_rt c); discriminate HO).
Qed.

(* ---- the bytes to the client ---- *)
Definition current (i : wire) : stream := if nt_connected (y_net (w_sys i)) then w_net i else w_new i.
Definition follows_bytes (r : stream) (d : list packet) (f : bytes) : Prop :=
  sr_torn r = false /\ exists bs, Forall2 sent (sr_got r ++ d) bs /\ sr_all r ++ f = concat bs.
Definition connecting (i : wire) : bool := opening (y_pc (w_sys i)) || nt_connected (y_net (w_sys i)).
Record onway (i : wire) (d : list packet) (f : bytes) : Prop := {
  ow_tidy : opening (y_pc (w_sys i)) = true -> nt_connected (y_net (w_sys i)) = false;
  ow_bytes : connecting i = true -> follows_bytes (current i) d f }.

Inductive ctrans (c : config) (chk : bool) (w : wire) : wire -> Prop :=
| ct_connect s : step c EConnect (w_sys w) = Some s -> ctrans c chk w (Wire s (new_stream chk) (w_net w) (w_dead w))
| ct_drop e s : (e = EOutgoing \/ e = ETimer) -> step c e (w_sys w) = Some s -> ctrans c chk w (Wire s (w_new w) (drop_read (cf_rt c) (w_net w)) (w_dead w))
| ct_event e s : is_read e = false -> e <> EConnect -> step c e (w_sys w) = Some s ->
    ctrans c chk w (Wire s (w_new w) (if opens c e (w_sys w) then w_new w else w_net w) (w_dead w))
| ct_new_more r : y_pc (w_sys w) = PConnRead -> take_chunk (cf_rt c) chk (w_new w) = SMore r -> ctrans c chk w (Wire (w_sys w) r (w_net w) false)
| ct_new_packet p r s : y_pc (w_sys w) = PConnRead -> take_chunk (cf_rt c) chk (w_new w) = SPacket p r -> step c (EPacket p) (w_sys w) = Some s ->
    ctrans c chk w (Wire s r (w_net w) false)
| ct_fail e s : step c (EReadErr e) (w_sys w) = Some s -> ctrans c chk w (Wire s (w_new w) (w_net w) false)
| ct_net_more t r s : y_pc (w_sys w) = PSelect t -> take_chunk (cf_rt c) chk (w_net w) = SMore r -> step c EPartial (w_sys w) = Some s ->
    ctrans c chk w (Wire s (w_new w) r false)
| ct_tokio_more t r : y_pc (w_sys w) = PSelect t -> take_chunk (cf_rt c) chk (w_net w) = SMore r -> ctrans c chk w (Wire (w_sys w) (w_new w) r false)
| ct_net_packet t p r s : y_pc (w_sys w) = PSelect t -> take_chunk (cf_rt c) chk (w_net w) = SPacket p r -> step c (EPacket p) (w_sys w) = Some s ->
    ctrans c chk w (Wire s (w_new w) r false)
| ct_panic : ctrans c chk w (Wire (w_sys w) (w_new w) (w_net w) true).
Lemma wstep_ctrans c chk x w w' : is_arrival x = false -> wstep c chk x w = Some w' -> ctrans c chk w w'.
Proof.
  intros HA. destruct x as [? ch| |e]; [discriminate HA| |]; cbn [wstep].
  - unfold wread. destruct (w_dead w); [discriminate|]. destruct (y_pc (w_sys w)) eqn:EP; try discriminate.
    + unfold read_result. destruct (take_chunk _ _ _) as [|r|p r|e|] eqn:ET; [discriminate| | | |].
      * destruct (cf_rt c) eqn:ER; rewrite ?EP; intros [= <-]; rewrite <- ER in ET; now apply ct_new_more.
      * destruct (step c (EPacket p) (w_sys w)) eqn:ES; [|discriminate]. intros [= <-]. now apply ct_new_packet with p.
      * destruct (step c (EReadErr e) (w_sys w)) eqn:ES; [|discriminate]. intros [= <-]. now apply ct_fail with e.
      * intros [= <-]. cbn. apply ct_panic.
    + unfold read_result. destruct (take_chunk _ _ _) as [|r|p r|e|] eqn:ET; [discriminate| | | |].
      * rewrite EP. destruct (cf_rt c) eqn:ER.
        -- intros [= <-]. rewrite <- ER in ET. now apply ct_tokio_more with since.
        -- destruct (step c EPartial (w_sys w)) eqn:ES; [|discriminate]. intros [= <-]. rewrite <- ER in ET. now apply ct_net_more with since.
      * destruct (step c (EPacket p) (w_sys w)) eqn:ES; [|discriminate]. intros [= <-]. now apply ct_net_packet with since p.
      * destruct (step c (EReadErr e) (w_sys w)) eqn:ES; [|discriminate]. intros [= <-]. now apply ct_fail with e.
      * intros [= <-]. cbn. apply ct_panic.
  - unfold wevents. destruct (is_read e || _) eqn:EI; [discriminate|]. apply orb_false_iff in EI as [EI _]. destruct (step c e (w_sys w)) as [s|] eqn:ES; [|discriminate].
    intros [= <-]. destruct e; try discriminate EI; try (apply ct_event; [reflexivity|discriminate|exact ES]).
    + now apply ct_connect.
    + apply ct_drop with EOutgoing; auto.
    + apply ct_drop with ETimer; auto.
Qed.

Lemma same_bytes r r' d f : sr_all r' = sr_all r -> sr_got r' = sr_got r -> sr_torn r' = false -> follows_bytes r d f -> follows_bytes r' d f.
Proof. intros E1 E2 E3 (_ & bs & HF & E). split; [exact E3|]. exists bs. now rewrite E1, E2. Qed.
Lemma more_bytes rt chk r r' d f : take_chunk rt chk r = SMore r' -> follows_bytes r d f -> follows_bytes r' d f.
Proof.
  intros H HF. destruct (take_keeps rt chk r r' (PPingReq) (or_introl H)) as [E1 E2]. pose proof (take_got _ _ _ _ H) as E3. apply (same_bytes r); auto. rewrite E2. apply HF.
Qed.
Lemma packet_bytes rt chk r r' p d f : good rt r -> take_chunk rt chk r = SPacket p r' -> follows_bytes r d f -> exists d', d = p :: d' /\ follows_bytes r' d' f.
Proof.
  intros HG H (HT & bs & HF & E). pose proof (take_cases rt chk r _ bs f HG HF E HT) as HC. rewrite H in HC.
  destruct HC as (E1 & E2 & ps1 & ps2 & bs1 & bs2 & EP & EB & _ & _ & EG & _). pose proof (take_got1 _ _ _ _ _ H) as EG1. rewrite EG1 in EG. subst ps1.
  rewrite <- app_assoc in EP. apply app_inv_head in EP. exists ps2. split; [exact EP|]. split; [exact E2|]. exists bs. rewrite E1, EG1, <- app_assoc, <- EP. now split.
Qed.

Lemma trace_app (l0 l l' : list out) : l0 ++ l = l0 ++ l' -> l = l'.
Proof. apply app_inv_head. Qed.
Lemma one_read o (p : packet) l d : (o = OAnswer p \/ o = ORead p) -> Forall (fun o => silent o = true) l -> reads (o :: l) (p :: d) d.
Proof. intros HO HF. econstructor; [|now apply silent_reads]. destruct HO as [-> | ->]; reflexivity. Qed.
Lemma one_down rt o (p : packet) l k k' : (o = OAnswer p \/ o = ORead p) -> Forall (fun o => silent o = true) l -> felt_all rt (o :: l) k k' -> pi_down k' = pi_down k.
Proof.
  intros HO HF H. inversion H as [|? ? ? k1 ? H1 H2]; subst. rewrite (silent_down _ _ _ _ HF H2). destruct HO as [-> | ->]; inversion H1; reflexivity.
Qed.

(* one step of the client *)
Lemma client_bytes c chk i i' l k k' d : wreachable c chk i -> ctrans c chk i i' -> trace (w_sys i') = trace (w_sys i) ++ l ->
  nt_connected (y_net (w_sys i)) = pi_used k -> felt_all (cf_rt c) l k k' -> onway i d (pi_down k) -> sr_torn (w_net i') = false ->
  nt_connected (y_net (w_sys i')) = pi_used k' /\ exists d', reads l d d' /\ onway i' d' (pi_down k').
Proof.
  intros HR HT HL HU HF [HTi HB] HTo.
  pose proof (wire_refines _ _ _ HR) as HRS. destruct (wire_good _ _ _ HR) as [HG1 HG2]. destruct (wire_linked _ _ _ HR) as (_ & _ & HRun).
  assert (forall s' e, step c e (w_sys i) = Some s' -> trace s' = trace (w_sys i) ++ l -> exists st w ch n q t, tcase c (w_sys i) e l st w ch n q t /\ s' = next (w_sys i) l st w ch n q t) as HX.
  { intros s' e HS HE. destruct (step_tcase _ _ _ _ HRS HS) as (l0 & st & w & ch & n & q & t & HC & ->). rewrite next_trace in HE. apply app_inv_head in HE. subst l0. exists st, w, ch, n, q, t. auto. }
  assert (trace (w_sys i) = trace (w_sys i) ++ l -> l = []) as HN.
  { intros E. rewrite <- (app_nil_r (trace (w_sys i))) in E at 1. now apply app_inv_head in E. }
  assert (forall s' e, step c e (w_sys i) = Some s' -> trace s' = trace (w_sys i) ++ l -> nt_connected (y_net s') = pi_used k') as HU'.
  { intros s' e HS HE. destruct (HX s' e HS HE) as (st & w & ch & n & q & t & HC & ->). rewrite (felt_used _ _ _ _ HF), <- HU. exact (tcase_used _ _ _ _ _ _ _ _ _ _ HC). }
  destruct HT; cbn [w_sys w_net w_new] in *.
  - (* connect *) split; [eapply HU'; eassumption|]. destruct (HX _ _ H HL) as (st & w & ch & n & q & t & HC & ->). inversion HC; subst.
    inversion HF as [|? ? ? k1 ? H1 H2]; subst. inversion H2; subst. inversion H1; subst; [|contradiction]. exists []. split; [econstructor; [reflexivity|constructor]|].
    cbn [pi_used pi_down] in *. assert (nt_connected (y_net (next (w_sys i) [OConnect] (y_state (w_sys i)) (y_wait (w_sys i)) (y_chan (w_sys i)) (y_net (w_sys i)) PConnWrite (y_now (w_sys i)))) = false) as EC by exact HU.
    split; [intros _; exact EC|]. intros _. unfold current. cbn [w_sys]. rewrite EC. cbn [w_new]. split; [reflexivity|]. exists []. split; [constructor|reflexivity].
  - (* a read is dropped *) split; [eapply HU'; eassumption|]. destruct (HX _ _ H0 HL) as (st & w & ch & n & q & t & HC & ->).
    assert (Forall (fun o => silent o = true) l) as HS by (apply (tcase_silent _ _ _ _ _ _ _ _ _ _ HC); destruct H as [-> | ->]; [discriminate|discriminate|discriminate|discriminate]).
    exists d. split; [now apply silent_reads|]. rewrite (silent_down _ _ _ _ HS HF).
    assert (opening q = false /\ opening (y_pc (w_sys i)) = false) as [EO1 EO2].
    { destruct H as [-> | ->]; inversion HC; subst; match goal with E : y_pc (w_sys i) = _ |- _ => rewrite E end; auto. }
    split; [cbn [w_sys next y_pc]; rewrite EO1; discriminate|]. unfold connecting, current. cbn [w_sys next y_pc y_net w_net w_new]. rewrite EO1. cbn [orb]. intros ECn. rewrite ECn.
    assert (nt_connected (y_net (w_sys i)) = true) as ECs.
    { destruct (tcase_running _ _ _ _ _ _ _ _ _ _ HC HRun) as [_ HY]. destruct (HY ECn) as [E|E]; [|exact E]. destruct H as [-> | ->]; discriminate E. }
    unfold connecting, current in HB. rewrite EO2, ECs in HB. specialize (HB eq_refl). apply (same_bytes (w_net i)); [..|exact HB]; auto; destruct (cf_rt c); reflexivity.
  - (* other events *) split; [eapply HU'; eassumption|]. destruct (HX _ _ H1 HL) as (st & w & ch & n & q & t & HC & ->).
    assert (Forall (fun o => silent o = true) l) as HS by (apply (tcase_silent _ _ _ _ _ _ _ _ _ _ HC); [assumption|]; intros p ->; discriminate H).
    exists d. split; [now apply silent_reads|]. rewrite (silent_down _ _ _ _ HS HF).
    assert (opening q = true -> opening (y_pc (w_sys i)) = true /\ nt_connected n = nt_connected (y_net (w_sys i))) as HOp.
    { intros X. now apply (tcase_opening _ _ _ _ _ _ _ _ _ _ HC). }
    split; [cbn [w_sys next y_pc y_net]; intros X; destruct (HOp X) as [Y ->]; auto|]. unfold connecting, current in *. cbn [w_sys next y_pc y_net w_net w_new]. intros HCo.
    destruct (opens c e (w_sys i)) eqn:EO.
    + assert (opening (y_pc (w_sys i)) = true) as HO by (unfold opens in EO; destruct e; try discriminate EO; destruct (y_pc (w_sys i)); try discriminate EO; reflexivity).
      rewrite HO, (HTi HO) in HB. destruct (nt_connected n); apply HB; reflexivity.
    + destruct (nt_connected n) eqn:ECn.
      * destruct (tcase_running _ _ _ _ _ _ _ _ _ _ HC HRun) as [_ HY]. destruct (HY ECn) as [E|E]; [congruence|]. rewrite E, orb_true_r in HB. now apply HB.
      * rewrite orb_false_r in HCo. destruct (HOp HCo) as [Y1 Y2]. rewrite Y1, <- Y2 in HB. now apply HB.
  - apply HN in HL. subst l. inversion HF; subst. split; [exact HU|]. exists d. split; [constructor|]. assert (opening (y_pc (w_sys i)) = true) as HO by (now rewrite H).
    split; [exact HTi|]. unfold connecting, current in *. cbn [w_sys w_net w_new]. pose proof (HTi HO) as EC. rewrite HO, EC in *. intros _. eapply more_bytes; [exact H0|now apply HB].
  - (* the answer *) split; [eapply HU'; eassumption|]. destruct (HX _ _ H1 HL) as (st & w & ch & n & q & t & HC & ->). destruct (tcase_reads _ _ _ _ _ _ _ _ _ _ HC) as (o & l' & -> & HO & HS).
    assert (opening (y_pc (w_sys i)) = true) as HOp by (now rewrite H). unfold connecting, current in HB. rewrite HOp, (HTi HOp) in HB. specialize (HB eq_refl).
    destruct (packet_bytes _ _ _ _ _ _ _ HG1 H0 HB) as (d' & -> & HB'). exists d'. split; [now apply one_read|]. rewrite (one_down _ _ _ _ _ _ HO HS HF).
    assert (nt_connected n = false) as EC.
    { destruct (tcase_running _ _ _ _ _ _ _ _ _ _ HC HRun) as [_ HY]. destruct (nt_connected n); [|reflexivity]. destruct (HY eq_refl) as [E|E]; [discriminate E|]. rewrite (HTi HOp) in E. discriminate E. }
    split; [intros _; exact EC|]. intros _. unfold current. cbn [w_sys next y_net]. rewrite EC. exact HB'.
  - (* the read fails *) split; [eapply HU'; eassumption|]. destruct (HX _ _ H HL) as (st & w & ch & n & q & t & HC & ->).
    assert (Forall (fun o => silent o = true) l) as HS by (apply (tcase_silent _ _ _ _ _ _ _ _ _ _ HC); discriminate).
    exists d. split; [now apply silent_reads|]. inversion HC; subst.
    + split; [discriminate|]. unfold connecting. cbn [w_sys next y_pc y_net opening orb]. rewrite HTi by (match goal with E : y_pc (w_sys i) = _ |- _ => now rewrite E end). discriminate.
    + split; [discriminate|]. unfold connecting. cbn [w_sys next y_pc y_net opening orb]. rewrite connected_end. discriminate.
  - split; [eapply HU'; eassumption|]. destruct (HX _ _ H1 HL) as (st & w & ch & n & q & t0 & HC & ->).
    assert (Forall (fun o => silent o = true) l) as HS by (apply (tcase_silent _ _ _ _ _ _ _ _ _ _ HC); discriminate).
    exists d. split; [now apply silent_reads|]. rewrite (silent_down _ _ _ _ HS HF). assert (nt_connected (y_net (w_sys i)) = true) as ECs by (apply HRun; now rewrite H).
    inversion HC; subst. split; [intros X; cbn [w_sys next y_pc] in X; destruct (cf_rt c); discriminate X|]. intros _. unfold current, connecting in *. cbn [w_sys next y_net w_net] in *. rewrite ECs, orb_true_r in *.
    eapply more_bytes; [exact H0|now apply HB].
  - apply HN in HL. subst l. inversion HF; subst. split; [exact HU|]. exists d. split; [constructor|]. assert (nt_connected (y_net (w_sys i)) = true) as ECs by (apply HRun; now rewrite H).
    split; [exact HTi|]. intros _. unfold current, connecting in *. cbn [w_sys w_net] in *. rewrite ECs, orb_true_r in *. eapply more_bytes; [exact H0|now apply HB].
  - (* a packet *) split; [eapply HU'; eassumption|]. destruct (HX _ _ H1 HL) as (st & w & ch & n & q & t0 & HC & ->). destruct (tcase_reads _ _ _ _ _ _ _ _ _ _ HC) as (o & l' & -> & HO & HS).
    assert (nt_connected (y_net (w_sys i)) = true) as ECs by (apply HRun; now rewrite H). unfold connecting, current in HB. rewrite ECs, orb_true_r in HB. specialize (HB eq_refl).
    destruct (packet_bytes _ _ _ _ _ _ _ HG2 H0 HB) as (d' & -> & HB'). exists d'. split; [now apply one_read|]. rewrite (one_down _ _ _ _ _ _ HO HS HF).
    assert (opening q = false) as EQ.
    { destruct (opening q) eqn:E; [|reflexivity]. destruct (tcase_opening _ _ _ _ _ _ _ _ _ _ HC E) as [Y _]; [discriminate|]. rewrite H in Y. discriminate Y. }
    split; [cbn [w_sys next y_pc]; rewrite EQ; discriminate|]. unfold connecting, current. cbn [w_sys next y_pc y_net w_net]. rewrite EQ. cbn [orb]. intros ->. exact HB'.
  - apply HN in HL. subst l. inversion HF; subst. split; [exact HU|]. exists d. split; [constructor|]. split; [exact HTi|exact HB].
Qed.
