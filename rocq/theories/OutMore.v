(* Proofs of C57 and C58 *)
From Coq Require Import Permutation.
From Verif Require Import Base VarInt Prims Props Codes Packets BaseFacts SpecCodec SpecOptions Options Session Client System SpecSession SpecNet SpecTrace SpecOut
  Witness Check EncFacts StrictMore InjFacts FrameFacts CodecFacts CodecMore LimitMore OptionsMore SessionFacts SystemFacts Cases NetFacts NetMore TraceFacts LoopMore OutFacts.

(* ---- what is written can be serialised, and CONNECT comes from the options ------------------- *)
Definition written (c : config) (o : out) : Prop :=
  match o with
  | OWrite x p => ser_err (cf_rt c) p = None /\ (x = FromConnect -> exists o', opts_of c o' /\ p = create_connect o')
  | _ => True
  end.
Lemma write_ser rt p ok : write_result rt p ok = None -> ser_err rt p = None.
Proof. unfold write_result. now destruct (ser_err rt p). Qed.
Lemma tokio_writes_ser c o ps : cf_rt c = Tokio -> o <> FromConnect -> forall oks, Forall (written c) (tokio_writes o ps oks).
Proof.
  intros ER HO. induction ps as [|p ps IH]; intros oks; cbn [tokio_writes]; [constructor|].
  destruct (match oks with [] => (true, []) | b :: r => (b, r) end) as [b r]. destruct (write_result Tokio p b) eqn:E; constructor; auto; try exact I.
  split; [rewrite ER; now apply write_ser in E|congruence].
Qed.
Lemma smol_writes_ser c o ps ok : cf_rt c = Smol -> o <> FromConnect -> Forall (written c) (smol_writes o ps ok).
Proof.
  intros ER HO. apply Forall_forall. intros x Hx. unfold smol_writes in Hx. apply in_map_iff in Hx as (p & E & Hp).
  destruct (smol_write_all ps ok) eqn:ES; subst x; [exact I|]. split; [|congruence]. rewrite ER.
  unfold smol_write_all in ES. destruct (find _ ps) as [q|] eqn:EF.
  - apply find_some in EF as [_ EF]. destruct (ser_err Smol q); [discriminate ES|discriminate EF].
  - pose proof (find_none _ _ EF p Hp) as X. cbv beta in X. destruct (ser_err Smol p); [discriminate X|reflexivity].
Qed.
Lemma smol_pc c s ps : reachable c s -> y_pc s = PFlush ps -> cf_rt c = Smol.
Proof.
  revert s ps. refine (fun s ps HR => _ : _). revert ps. pattern s. revert s HR. apply reachable_ind2; [discriminate|].
  intros s e s' HR IH HS ps E. destruct (step_tcase _ _ _ _ HR HS) as (l & st & w & ch & n & q & t & HT & ->). cbn in E. subst q.
  inversion HT; subst; try congruence; eauto.
  - destruct (cf_rt c); [destruct reply; discriminate|reflexivity].
  - destruct (cf_rt c); [discriminate|reflexivity].
  - destruct (cf_rt c); [discriminate|reflexivity].
  - destruct (cf_rt c); [destruct r; discriminate|reflexivity].
Qed.
Lemma tokio_pc c s p : reachable c s -> y_pc s = PReply p -> cf_rt c = Tokio.
Proof.
  revert s p. refine (fun s ps HR => _ : _). revert ps. pattern s. revert s HR. apply reachable_ind2; [discriminate|].
  intros s e s' HR IH HS ps E. destruct (step_tcase _ _ _ _ HR HS) as (l & st & w & ch & n & q & t & HT & ->). cbn in E. subst q.
  inversion HT; subst; try congruence; eauto.
  - destruct (cf_rt c); [reflexivity|discriminate].
  - destruct (cf_rt c); discriminate.
  - destruct (cf_rt c); [reflexivity|discriminate].
  - destruct (cf_rt c); [reflexivity|discriminate].
Qed.
Lemma written_all c s : config_ok c -> reachable c s -> opts_of c (nt_opts (y_net s)) /\ Forall (written c) (trace s).
Proof.
  intros HC. revert s. apply sys_ind; [exact HC|split; [apply opts_same|constructor]|].
  intros s e l st w ch n q t HR _ [A B] HT _. rewrite next_trace, Forall_app. cbn [y_net next].
  assert (forall k, written c (OWriteFail FromConnect k)) as T1 by (intros; exact I).
  inversion HT; subst; (split; [auto using opts_answer, opts_end|split; [exact B|]]); try solve [quiet_out].
  all: try match goal with |- context [match cf_rt ?k with Tokio => _ | Smol => _ end] => destruct (cf_rt k); exact A end.
  all: try match goal with H : y_pc _ = PFlush _ |- _ => pose proof (smol_pc _ _ _ HR H) end.
  all: try match goal with H : y_pc _ = PReply _ |- _ => pose proof (tokio_pc _ _ _ HR H) as HTK; rewrite <- HTK in * end.
  all: try solve [apply Forall_app; split; [first [apply tokio_writes_ser; [assumption|discriminate]|apply smol_writes_ser; [assumption|discriminate]]|quiet_out]].
  all: try solve [apply smol_writes_ser; [assumption|discriminate]].
  all: match goal with H : write_result _ _ _ = None |- _ => apply write_ser in H; apply Forall_cons; [|quiet_out] end.
  all: split; [assumption|try discriminate].
  intros _. eauto.
Qed.

(* ---- C57 ------------------------------------------------------------------------------------ *)
Lemma undeclared cfg ps : props_ok cfg ps -> inb AuthenticationData (c_decl cfg) = false -> inb AssignedClientIdentifier (c_decl cfg) = false ->
  authentication_data ps <> Some [] /\ assigned_client_identifier ps = None.
Proof.
  intros HP E1 E2. split.
  - intros X. assert (get_prop AuthenticationData ps = None) as E. { apply (undeclared_none cfg); [exact HP|]. intros HI. apply inb_in in HI. congruence. }
    cbn in E. rewrite X in E. discriminate E.
  - apply (no_aci cfg); [exact HP|]. intros HI. apply inb_in in HI. congruence.
Qed.
Lemma lawful_plain x p : lawful x p -> x <> FromConnect -> no_empty_auth p /\ no_assigned_id p.
Proof.
  intros [[HO _] HP] HX. unfold no_empty_auth, no_assigned_id.
  destruct x, p; try contradiction; try congruence; cbn [packet_props packet_ok] in *; unfold ack_ok in HO;
    repeat match goal with H : _ /\ _ |- _ => destruct H end;
    try match goal with H : props_ok ?cfg ?ps |- context [?ps] => apply (undeclared cfg ps H); vm_compute; reflexivity end.
  split; [discriminate|reflexivity].
Qed.
Lemma lawful_bytes c es s x p : config_ok c -> built c -> Forall event_ok es -> exec c es (init c) = Some s -> In (OWrite x p) (trace s) ->
  lawful x p /\ encodes p (wire_bytes (cf_rt c) p).
Proof.
  intros HC HB HF HE HI. pose proof (law_exec c HC HB es s HF HE) as HL. assert (reachable c s) as HR by (now exists es).
  destruct (written_all c s HC HR) as [_ HW]. pose proof (lw_trace _ _ HL) as HT. rewrite Forall_forall in HW, HT. specialize (HT _ HI). destruct (HW _ HI) as [HS HN]. cbn in HT.
  split; [exact HT|]. assert (no_empty_auth p /\ no_assigned_id p) as [N1 N2].
  { assert (x = FromConnect \/ x <> FromConnect) as [EX|EX] by (destruct x; auto; right; discriminate); [|now apply (lawful_plain x)].
    destruct (HN EX) as (o' & HO & ->). apply (connect_lawful c o' HB HO). }
  destruct HT as [HT _]. destruct (writes_encodings p HT N1) as [W1 W2]. unfold wire_bytes. destruct (cf_rt c); cbn [ser_err] in HS; auto.
Qed.
Lemma lawful_tried c es s x p : config_ok c -> built c -> Forall event_ok es -> exec c es (init c) = Some s -> In (OWriteFail x p) (trace s) -> lawful x p.
Proof.
  intros HC HB HF HE HI. pose proof (lw_trace _ _ (law_exec c HC HB es s HF HE)) as HT. rewrite Forall_forall in HT. exact (HT _ HI).
Qed.

(* ---- C58: the sequence on each connection ---------------------------------------------------- *)
Definition plain_packet (x : packet * bool) : Prop := is_connect x = false /\ is_disconnect x = false.
Definition alive (k : sending) : Prop := exists x rest, k = x :: rest /\ is_connect x = true /\ is_disconnect x = false /\ Forall plain_packet rest.
Lemma alive_one x : is_connect x = true -> alive [x].
Proof. intros H. exists x, []. repeat apply conj; auto. unfold is_connect, is_disconnect in *. destruct (fst x); congruence. Qed.
Lemma alive_app k l : alive k -> Forall plain_packet l -> alive (k ++ l).
Proof. intros (x & r & -> & A & B & C) H. exists x, (r ++ l). cbn. repeat apply conj; auto. apply Forall_app. auto. Qed.
Lemma alive_calm k : alive k -> Forall (fun x => is_disconnect x = false) k.
Proof. intros (x & r & -> & A & B & C). constructor; [exact B|]. eapply Forall_impl; [|exact C]. intros ? [_ H]. exact H. Qed.
Lemma framed_calm k : Forall (fun x => is_disconnect x = false) k -> forall y a x b, k ++ y = a ++ x :: b -> is_disconnect x = true -> exists a', y = a' ++ x :: b.
Proof.
  intros H y a x b E EX. destruct (IdFacts.app_split _ _ _ _ _ E) as [(t & ->)|(t & -> & E2)]; [|now exists t].
  apply Forall_app in H as [_ H]. inversion H; congruence.
Qed.
Lemma framed_end k y : alive k -> is_connect y = false -> framed (k ++ [y]).
Proof.
  intros HA HY. pose proof (alive_calm _ HA) as HC. destruct HA as (x & r & -> & A & B & C). split.
  - cbn [app]. split; [exact A|]. apply Forall_app. split; [eapply Forall_impl; [|exact C]; intros ? [H _]; exact H|]. constructor; [exact HY|constructor].
  - intros a z b E EZ. destruct (framed_calm _ HC _ _ _ _ E EZ) as (a' & E2). destruct a' as [|? [|]]; cbn in E2; [now injection E2 as <- <-|discriminate E2|discriminate E2].
Qed.
Lemma framed_alive k : alive k -> framed k.
Proof.
  intros HA. pose proof (alive_calm _ HA) as HC. destruct HA as (x & r & -> & A & B & C). split.
  - split; [exact A|]. eapply Forall_impl; [|exact C]; intros ? [H _]; exact H.
  - intros a z b E EZ. rewrite <- (app_nil_r (x :: r)) in E. destruct (framed_calm _ HC _ _ _ _ E EZ) as (a' & E2). now destruct a'.
Qed.
Lemma framed_nil : framed [].
Proof. split; [exact I|]. intros a x b E. now destruct a. Qed.
Lemma framed_connect x : is_connect x = true -> framed [x].
Proof. intros H. apply framed_alive. now apply alive_one. Qed.

(* the writes of one kind *)
Definition whole (k : sending) : Prop := Forall (fun x => snd x = true) k.
Lemma whole_stops k : whole k -> forall l, Forall (fun x : packet * bool => snd x = false) l -> stops (k ++ l).
Proof.
  intros HK l HL. exists (map fst k), (map fst l). rewrite !map_map. f_equal; symmetry.
  - induction HK as [|[p b] k E HK IH]; [reflexivity|]. cbn in *. subst. now f_equal.
  - induction HL as [|[p b] k2 E HK2 IH]; [reflexivity|]. cbn in *. subst. now f_equal.
Qed.
Definition wrote (o : out) : sending := match o with OWrite _ p => [(p, true)] | OWriteFail _ p => [(p, false)] | _ => [] end.
Definition is_write (o : out) : bool := match o with OWrite _ _ | OWriteFail _ _ => true | _ => false end.
Definition lines_all (n : lines) (l : list out) : lines := fold_left lines_step l n.
Lemma lines_app l1 l2 : lines_of (l1 ++ l2) = lines_all (lines_of l1) l2.
Proof. unfold lines_of, lines_all. now rewrite fold_left_app. Qed.
Lemma lines_new cl us k l : forallb is_write l = true -> lines_all (Lines cl us (Some k)) l = Lines cl us (Some (k ++ flat_map wrote l)).
Proof.
  revert k. induction l as [|o l IH]; intros k H; cbn [lines_all fold_left flat_map]; [now rewrite app_nil_r|]. cbn in H. apply andb_true_iff in H as [H1 H2].
  fold (lines_all (lines_step (Lines cl us (Some k)) o) l). destruct o; try discriminate H1; cbn [lines_step put ln_new ln_closed ln_used]; rewrite IH by exact H2; rewrite <- app_assoc; reflexivity.
Qed.
Lemma lines_used cl k l : forallb is_write l = true -> lines_all (Lines cl (Some k) None) l = Lines cl (Some (k ++ flat_map wrote l)) None.
Proof.
  revert k. induction l as [|o l IH]; intros k H; cbn [lines_all fold_left flat_map]; [now rewrite app_nil_r|]. cbn in H. apply andb_true_iff in H as [H1 H2].
  fold (lines_all (lines_step (Lines cl (Some k) None) o) l). destruct o; try discriminate H1; cbn [lines_step put ln_new ln_closed ln_used]; rewrite IH by exact H2; rewrite <- app_assoc; reflexivity.
Qed.
Lemma lines_all_app n l1 l2 : lines_all n (l1 ++ l2) = lines_all (lines_all n l1) l2.
Proof. apply fold_left_app. Qed.
Lemma tokio_is_write o ps oks : forallb is_write (tokio_writes o ps oks) = true.
Proof. apply forallb_forall. intros x Hx. apply LoopMore.tokio_writes_origin in Hx as (p & _ & [-> | ->]); reflexivity. Qed.
Lemma smol_is_write o ps ok : forallb is_write (smol_writes o ps ok) = true.
Proof. apply forallb_forall. intros x Hx. apply LoopMore.smol_writes_origin in Hx as (p & _ & [-> | ->]); reflexivity. Qed.
Definition bare (p : packet) : Prop := plain_packet (p, true).
Lemma bare_any p b : bare p -> plain_packet (p, b).
Proof. exact (fun H => H). Qed.
Lemma wrote_bare l (ps : list packet) o : (forall x, In x l -> exists p, In p ps /\ attempt o p x) -> Forall bare ps -> Forall plain_packet (flat_map wrote l).
Proof.
  intros H HB. apply Forall_forall. intros y Hy. apply in_flat_map in Hy as (x & Hx & Hy). destruct (H x Hx) as (p & Hp & HA). rewrite Forall_forall in HB. specialize (HB p Hp).
  destruct HA as [-> | ->]; destruct Hy as [<-|[]]; exact HB.
Qed.

(* writes that fail do so at the end, except when tokio sends again *)
Definition strict (c : config) (s : sys) : Prop := cf_rt c = Smol \/ forall p, ~ In (OWriteFail FromResend p) (trace s).
Definition loops (q : pc) : bool :=
  match q with PIdle | PConnWrite | PConnRead | PConnHandle _ | PConnResend _ | PCrash => false | _ => true end.
Definition done_ok (c : config) (s : sys) (k : sending) : Prop := framed k /\ (strict c s -> stops k).
Definition live_ok (c : config) (s : sys) (k : sending) : Prop := alive k /\ (strict c s -> whole k).
Definition new_ok (c : config) (s : sys) (q : pc) (o : option sending) : Prop :=
  match q with
  | PConnWrite => o = Some []
  | PConnRead | PConnHandle _ | PConnResend _ => exists k, o = Some k /\ live_ok c s k
  | PCrash => forall k, o = Some k -> done_ok c s k
  | _ => o = None
  end.
Record line (c : config) (s : sys) : Prop := {
  li_closed : Forall (done_ok c s) (ln_closed (lines_of (trace s)));
  li_used : if nt_connected (y_net s) then exists k, ln_used (lines_of (trace s)) = Some k /\ live_ok c s k else ln_used (lines_of (trace s)) = None;
  li_loops : loops (y_pc s) = true -> nt_connected (y_net s) = true;
  li_new : new_ok c s (y_pc s) (ln_new (lines_of (trace s))) }.
Lemma live_done c s k : live_ok c s k -> done_ok c s k.
Proof.
  intros [A B]. split; [now apply framed_alive|]. intros H. rewrite <- (app_nil_r k). apply whole_stops; [auto|constructor].
Qed.
Lemma live_put c s k p : live_ok c s k -> bare p -> live_ok c s (k ++ [(p, true)]).
Proof.
  intros [A B] H. split; [apply alive_app; [exact A|constructor; [exact H|constructor]]|]. intros HS. apply Forall_app. split; [exact (B HS)|]. constructor; [reflexivity|constructor].
Qed.
Lemma live_fail c s k p : live_ok c s k -> is_connect (p, true) = false -> done_ok c s (k ++ [(p, false)]).
Proof.
  intros [A B] H. split; [now apply framed_end|]. intros HS. apply whole_stops; [auto|]. constructor; [reflexivity|constructor].
Qed.
Lemma live_last c s k p : live_ok c s k -> is_connect (p, true) = false -> done_ok c s (k ++ [(p, true)]).
Proof.
  intros [A B] H. split; [now apply framed_end|]. intros HS. rewrite <- (app_nil_r (k ++ _)). apply whole_stops; [|constructor].
  apply Forall_app. split; [exact (B HS)|]. constructor; [reflexivity|constructor].
Qed.
Lemma strict_back c s l st w ch n q t : strict c (next s l st w ch n q t) -> strict c s.
Proof. intros [H|H]; [now left|]. right. intros p HI. apply (H p). rewrite next_trace. apply in_or_app. now left. Qed.
Lemma done_mono c s s' k : (strict c s' -> strict c s) -> done_ok c s k -> done_ok c s' k.
Proof. intros H [A B]. split; auto. Qed.
Lemma live_mono c s s' k : (strict c s' -> strict c s) -> live_ok c s k -> live_ok c s' k.
Proof. intros H [A B]. split; auto. Qed.

(* the packets of replies and of retransmissions, whatever the broker sent *)
Definition lawful_reply (p : packet) : bool :=
  match p with PPubAck _ | PPubRec _ | PPubRel _ | PPubComp _ | PPublish _ => true | _ => false end.
Lemma bare_reply p : lawful_reply p = true -> bare p.
Proof. intros H. split; destruct p; try reflexivity; discriminate H. Qed.

Definition pc_bare (q : pc) : Prop :=
  match q with
  | PHandle (AfterPacket r) => Forall bare (opt_list r)
  | PReply p => bare p
  | PFlush ps => Forall bare ps
  | _ => True
  end.
Lemma reply_bare p st st' r b : handle_incoming_packet p st = (st', HOk (Some r, b)) -> bare r.
Proof.
  intros H. apply bare_reply. destruct p as [c|a|x|a|a|a|a|s|s|u|u| | |d|d]; cbn [handle_incoming_packet] in H; try discriminate H.
  - unfold handle_incoming_publish in H. destruct (pb_qos x); [discriminate H| |]; (destruct (pb_pkid x) as [i|]; [|discriminate H]).
    + injection H as <- <- <-. reflexivity.
    + unfold mbind, add_incoming_pub, ret in H. destruct (set_insert i (st_in st)) as [l' fr]. injection H as <- <- <-. reflexivity.
  - unfold handle_incoming_puback, mbind in H. destruct (remove_outgoing_pub _ _) as [s1 [[old|]|e|]]; cbn [is_some] in H; try discriminate H.
    destruct (make_pkid_available _ _) as [s2 [[]|e|]]; discriminate H.
  - unfold handle_incoming_pubrec, mbind in H. destruct (remove_outgoing_pub (ak_id a) st) as [s1 [[old|]|e|]] eqn:ER; try discriminate H.
    assert (Some (PPubRel (plain_ack (ak_id a))) = Some r) as ER2.
    { unfold add_outgoing_rel, ret in H. destruct (ak_rc a); try discriminate H; destruct (set_insert _ _) as [l' fr]; injection H; intros; now subst. }
    injection ER2 as <-. reflexivity.
  - unfold handle_incoming_pubrel, mbind, remove_incoming_pub, ret in H. destruct (set_remove _ _) as [l' fr]. injection H as <- <- <-. reflexivity.
  - unfold handle_incoming_pubcomp, mbind in H. destruct (remove_outgoing_rel _ _) as [s1 [[|]|e|]]; try discriminate H. destruct (make_pkid_available _ _) as [s2 [[]|e|]]; discriminate H.
  - unfold handle_incoming_suback, mbind in H. destruct (remove_outgoing_sub _ _) as [s1 [[|]|e|]]; try discriminate H. destruct (make_pkid_available _ _) as [s2 [[]|e|]]; discriminate H.
  - unfold handle_incoming_unsuback, mbind in H. destruct (remove_outgoing_unsub _ _) as [s1 [[|]|e|]]; try discriminate H. destruct (make_pkid_available _ _) as [s2 [[]|e|]]; discriminate H.
Qed.
Lemma reply_pc_bare rt r t : Forall bare (opt_list r) -> pc_bare (reply_pc rt r t).
Proof. intros H. destruct rt, r; cbn in *; auto. exact (Forall_inv H). Qed.
Lemma pc_bare_all c s : reachable c s -> pc_bare (y_pc s).
Proof.
  revert s. apply reachable_ind2; [exact I|]. intros s e s' HR IH HS. destruct (step_tcase _ _ _ _ HR HS) as (l & st & w & ch & n & q & t & HT & ->). cbn [y_pc next].
  inversion HT; subst; try exact I; try exact IH.
  - match goal with H : loop_packet ?p = Some ?a |- _ => destruct p; try discriminate H; injection H as <-; exact I end.
  - destruct reply as [r|]; [|constructor]. constructor; [eapply reply_bare; eassumption|constructor].
  - apply reply_pc_bare. destruct reply as [r|]; [|constructor]. constructor; [eapply reply_bare; eassumption|constructor].
  - destruct (cf_rt c); exact I.
  - apply reply_pc_bare. constructor.
  - apply reply_pc_bare. match goal with H : y_pc s = _ |- _ => rewrite H in IH end. exact IH.
Qed.
Lemma expect_pubs clean l : Forall (fun p => is_pub p = true) (lg_expect (ledger_of clean l)).
Proof.
  unfold ledger_of. induction l as [|o l IH] using rev_ind; [constructor|]. rewrite fold_left_app. cbn [fold_left]. destruct (fold_left _ l ledger0) as [op se re lo cl ex er]. cbn [lg_expect] in IH.
  destruct o as [p|p|p e|p| | |r| |r|p|p|p| |x p|x p|]; cbn [ledger_step lg_expect]; try exact IH.
  - destruct (is_some (req_id p)); exact IH.
  - destruct p; try exact IH. destruct (ca_rc c); try exact IH. destruct (ca_session_present c && negb clean); [|constructor]. cbn [lg_expect].
    apply Forall_forall. intros q Hq. apply in_map_iff in Hq as (p & <- & Hp). apply filter_In in Hp as [_ Hp]. now destruct p.
  - destruct p; exact IH.
  - destruct x; exact IH.
  - destruct x; exact IH.
Qed.
Lemma resend_bare c s ps : inv c s -> y_pc s = PConnResend ps -> Forall bare ps.
Proof.
  intros HI E. pose proof (v_expects _ _ HI) as HE. rewrite E in HE. cbn [expects] in HE. destruct HE as (rel & -> & _). apply Forall_app. split.
  - eapply Forall_impl; [|apply expect_pubs]. intros p EP. apply bare_reply. now destruct p.
  - apply Forall_forall. intros p Hp. apply in_map_iff in Hp as (i & <- & _). now apply bare_reply.
Qed.
Lemma request_types c s p : inv c s -> y_pc s = PRequest p -> is_connect (p, true) = false /\ (type_of p <> TDisconnect -> bare p).
Proof.
  intros HI E. pose proof (i_shape _ _ _ _ _ (v_inv _ _ HI)) as HS. unfold pending in HS. rewrite E in HS. cbn [held] in HS. rewrite !Forall_app in HS. destruct HS as (_ & _ & HS).
  apply Forall_inv in HS. destruct p; cbn [request_shape] in HS; try contradiction; (split; [reflexivity|]); intros HN; try (split; reflexivity). now elim HN.
Qed.
Lemma line_next c s l st w ch n q t cl us nw : let s' := next s l st w ch n q t in
  lines_all (lines_of (trace s)) l = Lines cl us nw -> Forall (done_ok c s') cl ->
  (if nt_connected n then exists k, us = Some k /\ live_ok c s' k else us = None) -> (loops q = true -> nt_connected n = true) -> new_ok c s' q nw ->
  line c s'.
Proof.
  intros s' E A B C D. unfold s' in *. constructor; rewrite ?next_trace, ?lines_app, ?E; cbn [ln_closed ln_used ln_new y_pc y_net next]; assumption.
Qed.
Lemma line_all c s : config_ok c -> reachable c s -> line c s.
Proof.
  intros HC. revert s. apply sys_ind; [exact HC| |].
  - constructor; cbn; [constructor|reflexivity|discriminate|reflexivity].
  - intros s e l st w ch n q t HR HI [A B C D] HT _. pose proof (pc_bare_all _ _ HR) as HPB.
    set (s' := next s l st w ch n q t).
    assert (strict c s' -> strict c s) as HS by apply strict_back.
    assert (Forall (done_ok c s') (ln_closed (lines_of (trace s)))) as A'. { eapply Forall_impl; [|exact A]. intros k. now apply done_mono. }
    clear A. rename A' into A.
    assert (if nt_connected (y_net s) then exists k, ln_used (lines_of (trace s)) = Some k /\ live_ok c s' k else ln_used (lines_of (trace s)) = None) as B'.
    { destruct (nt_connected (y_net s)); [|exact B]. destruct B as (k & E & H). exists k. split; [exact E|]. now apply (live_mono c s). }
    clear B. rename B' into B.
    assert (new_ok c s' (y_pc s) (ln_new (lines_of (trace s)))) as D'.
    { destruct (y_pc s); try exact D; cbn [new_ok] in *; try (destruct D as (k & E & H); exists k; split; [exact E|]; now apply (live_mono c s)). intros k E. apply (done_mono c s); auto. }
    clear D. rename D' into D. clear HS.
    destruct (lines_of (trace s)) as [cl us nw] eqn:EL. cbn [ln_closed ln_used ln_new] in A, B, D.
    assert (forall q', y_pc s = q' -> new_ok c s' q' nw) as D' by (intros ? <-; exact D). clear D. rename D' into D.
    assert (forall q', y_pc s = q' -> loops q' = true -> nt_connected (y_net s) = true) as C' by (intros ? <-; exact C). clear C. rename C' into C.
    assert (forall q', y_pc s = q' -> loops q' = true -> exists k, us = Some k /\ live_ok c s' k) as U.
    { intros q' E1 E2. specialize (C q' E1 E2). rewrite C in B. exact B. }
    inversion HT; subst; fold s';
      try match goal with H : y_pc _ = _ |- _ => specialize (D _ H); specialize (C _ H); try specialize (U _ H eq_refl); cbn [new_ok loops] in D, C end.
    all: try (destruct U as (ku & -> & HU)).
    all: try (destruct D as (kn & -> & HN)).
    all: repeat match goal with H : true = true -> _ |- _ => specialize (H eq_refl) end.
    all: try match goal with H : y_pc _ = PRequest _ |- _ => destruct (request_types _ _ _ HI H) as [R1 R2] end.
    all: try match goal with H : y_pc _ = PConnResend _ |- _ => pose proof (resend_bare _ _ _ HI H) as RB end.
    all: try match goal with H : y_pc _ = _ |- _ => rewrite H in HPB; cbn [pc_bare] in HPB end.
    all: try match type of D with ?x = _ => subst x end.
    all: try solve [eapply line_next; [rewrite EL; cbn; reflexivity|..];
      [ rewrite ?app_nil_r; first [exact A|apply Forall_app; split; [exact A|constructor; [|constructor]];
          first [exact (live_done _ _ _ HU)|exact (live_done _ _ _ HN)|apply live_fail; [exact HU|first [exact R1|reflexivity|apply HPB]]|apply live_last; [exact HU|first [exact R1|reflexivity]]]]
      | rewrite ?connected_apply, ?connected_end; cbn; try exact B; try reflexivity; first [exact B|rewrite C; eexists; split; [reflexivity|]; first [exact HU|apply live_put; [exact HU|]]; first [exact HPB|split; reflexivity|apply R2; assumption]|rewrite C in *; exact B]
      | rewrite ?connected_apply, ?connected_end; cbn; try discriminate; try (intros _; exact C); auto
      | cbn [new_ok]; try reflexivity; try exact D; try discriminate; try (eexists; split; [reflexivity|]; exact HN); auto ]].
    1-6: eapply line_next; [rewrite EL; cbn; reflexivity|exact A|exact B|intros HL; exact (C _ eq_refl HL)|exact (D _ eq_refl)].
    + (* run *) eapply line_next; [rewrite EL; cbn; reflexivity|exact A| | |reflexivity]; [destruct (cf_rt c); exact B|intros _; destruct (cf_rt c); assumption].
    + match goal with H : nt_connected _ = false |- _ => rewrite H in B; subst us; eapply line_next; [rewrite EL; cbn; rewrite app_nil_r; reflexivity|exact A|rewrite H; reflexivity|discriminate|reflexivity] end.
    + eapply line_next; [rewrite EL; cbn; reflexivity|exact A|exact B|discriminate|]. eexists. split; [reflexivity|]. split; [now apply alive_one|]. intros _. constructor; [reflexivity|constructor].
    + eapply line_next; [rewrite EL; cbn; reflexivity| |exact B|discriminate|reflexivity]. apply Forall_app. split; [exact A|]. constructor; [|constructor].
      split; [now apply framed_connect|]. intros _. exists [], [create_connect (nt_opts (y_net s))]. reflexivity.
    + eapply line_next; [rewrite EL; cbn; reflexivity|exact A|rewrite connected_apply; exact B|discriminate|]. intros k E. injection E as <-. now apply live_done.
    + eapply line_next; [rewrite EL; cbn; reflexivity| |cbn; eexists; split; [reflexivity|exact HN]|discriminate|reflexivity].
      apply Forall_app. split; [exact A|]. destruct (nt_connected (y_net s)); [destruct B as (k & -> & HB); constructor; [now apply live_done|constructor]|subst us; constructor].
    + assert (live_ok c s' (kn ++ flat_map wrote (tokio_writes FromResend ps oks))) as HN2.
      { destruct HN as [N1 N2]. split; [apply alive_app; [exact N1|]; eapply wrote_bare; [intros x Hx; exact (tokio_writes_origin _ _ _ _ Hx)|exact RB]|].
        intros HS. apply Forall_app. split; [exact (N2 HS)|]. destruct HS as [HS|HS]; [congruence|]. apply Forall_forall. intros y Hy. apply in_flat_map in Hy as (x & Hx & Hy).
        pose proof Hx as Hx2. apply tokio_writes_origin in Hx2 as (p & _ & [-> | ->]); destruct Hy as [<-|[]]; [reflexivity|]. elim (HS p). unfold s'. rewrite next_trace. apply in_or_app. right. apply in_or_app. now left. }
      eapply line_next; [rewrite EL, lines_all_app, lines_new by apply tokio_is_write; cbn; reflexivity| |cbn; eexists; split; [reflexivity|exact HN2]|discriminate|reflexivity].
      apply Forall_app. split; [exact A|]. destruct (nt_connected (y_net s)); [destruct B as (k & -> & HB); constructor; [now apply live_done|constructor]|subst us; constructor].
    + assert (live_ok c s' (kn ++ flat_map wrote (tokio_writes FromResend ps oks))) as HN2.
      { destruct HN as [N1 N2]. split; [apply alive_app; [exact N1|]; eapply wrote_bare; [intros x Hx; exact (tokio_writes_origin _ _ _ _ Hx)|exact RB]|].
        intros HS. apply Forall_app. split; [exact (N2 HS)|]. destruct HS as [HS|HS]; [congruence|]. apply Forall_forall. intros y Hy. apply in_flat_map in Hy as (x & Hx & Hy).
        pose proof Hx as Hx2. apply tokio_writes_origin in Hx2 as (p & _ & [-> | ->]); destruct Hy as [<-|[]]; [reflexivity|]. elim (HS p). unfold s'. rewrite next_trace. apply in_or_app. right. apply in_or_app. now left. }
      eapply line_next; [rewrite EL, lines_all_app, lines_new by apply tokio_is_write; cbn; reflexivity| |exact B|discriminate|reflexivity].
      apply Forall_app. split; [exact A|]. constructor; [now apply live_done|constructor].
    + assert (live_ok c s' (kn ++ flat_map wrote (smol_writes FromResend ps ok))) as HN2.
      { destruct HN as [N1 N2]. split; [apply alive_app; [exact N1|]; eapply wrote_bare; [intros x Hx; exact (smol_writes_origin _ _ _ _ Hx)|exact RB]|].
        intros HS. apply Forall_app. split; [exact (N2 HS)|]. match goal with H : smol_write_all _ _ = None |- _ => rewrite (write_is_smol _ _ H) end.
        apply Forall_forall. intros y Hy. apply in_flat_map in Hy as (x & Hx & Hy). apply in_map_iff in Hx as (p & <- & _). destruct Hy as [<-|[]]. reflexivity. }
      eapply line_next; [rewrite EL, lines_all_app, lines_new by apply smol_is_write; cbn; reflexivity| |cbn; eexists; split; [reflexivity|exact HN2]|discriminate|reflexivity].
      apply Forall_app. split; [exact A|]. destruct (nt_connected (y_net s)); [destruct B as (k & -> & HB); constructor; [now apply live_done|constructor]|subst us; constructor].
    + assert (done_ok c s' (kn ++ flat_map wrote (smol_writes FromResend ps ok))) as HN2.
      { destruct HN as [N1 N2]. split; [apply framed_alive, alive_app; [exact N1|]; eapply wrote_bare; [intros x Hx; exact (smol_writes_origin _ _ _ _ Hx)|exact RB]|].
        intros HS. apply whole_stops; [exact (N2 HS)|]. match goal with H : smol_write_all _ _ = Some _ |- _ => rewrite (write_is_smol_fail _ _ _ H) end.
        apply Forall_forall. intros y Hy. apply in_flat_map in Hy as (x & Hx & Hy). apply in_map_iff in Hx as (p & <- & _). destruct Hy as [<-|[]]. reflexivity. }
      eapply line_next; [rewrite EL, lines_all_app, lines_new by apply smol_is_write; cbn; reflexivity| |exact B|discriminate|reflexivity].
      apply Forall_app. split; [exact A|]. constructor; [exact HN2|constructor].
    + eapply line_next; [rewrite EL; cbn; reflexivity|exact A|exact B|intros _; exact C|destruct (cf_rt c), reply; reflexivity].
    + eapply line_next; [rewrite EL; cbn; reflexivity|exact A|exact B|intros _; exact C|destruct (cf_rt c); reflexivity].
    + eapply line_next; [rewrite EL; cbn; reflexivity|exact A|exact B|intros _; exact C|destruct (cf_rt c); reflexivity].
    + eapply line_next; [rewrite EL; cbn; reflexivity|exact A|exact B|intros _; exact C|destruct (cf_rt c), r; reflexivity].
    + eapply line_next; [rewrite EL, lines_used by apply smol_is_write; reflexivity|exact A| |intros _; exact C|reflexivity]. cbn. rewrite C. eexists. split; [reflexivity|].
      destruct HU as [N1 N2]. split; [apply alive_app; [exact N1|]; eapply wrote_bare; [intros x Hx; exact (smol_writes_origin _ _ _ _ Hx)|exact HPB]|].
      intros HS. apply Forall_app. split; [exact (N2 HS)|]. match goal with H : smol_write_all _ _ = None |- _ => rewrite (write_is_smol _ _ H) end.
      apply Forall_forall. intros y Hy. apply in_flat_map in Hy as (x & Hx & Hy). apply in_map_iff in Hx as (p & <- & _). destruct Hy as [<-|[]]. reflexivity.
    + eapply line_next; [rewrite EL, lines_all_app, lines_used by apply smol_is_write; cbn; reflexivity| |reflexivity|discriminate|reflexivity].
      apply Forall_app. split; [exact A|]. constructor; [|constructor]. destruct HU as [N1 N2].
      split; [apply framed_alive, alive_app; [exact N1|]; eapply wrote_bare; [intros x Hx; exact (smol_writes_origin _ _ _ _ Hx)|exact HPB]|].
      intros HS. apply whole_stops; [exact (N2 HS)|]. match goal with H : smol_write_all _ _ = Some _ |- _ => rewrite (write_is_smol_fail _ _ _ H) end.
      apply Forall_forall. intros y Hy. apply in_flat_map in Hy as (x & Hx & Hy). apply in_map_iff in Hx as (p & <- & _). destruct Hy as [<-|[]]. reflexivity.
    + eapply line_next; [rewrite EL; cbn; reflexivity|exact A| |discriminate|intros k E; discriminate E]. rewrite C. eexists. split; [reflexivity|]. apply live_put; [exact HU|]. apply R2.
      intros ET. destruct p; try discriminate ET. match goal with H : handle_outgoing_packet _ _ = _ |- _ => discriminate H end.
Qed.
Lemma sendings_done c s : config_ok c -> reachable c s -> Forall (done_ok c s) (sendings (trace s)).
Proof.
  intros HC HR. destruct (line_all c s HC HR) as [A B C D]. unfold sendings. cbv zeta. rewrite !Forall_app. split; [exact A|]. split.
  - destruct (nt_connected (y_net s)); [destruct B as (k & -> & HB); constructor; [now apply live_done|constructor]|rewrite B; constructor].
  - assert (done_ok c s []) as HE. { split; [apply framed_nil|]. intros _. now exists [], []. }
    destruct (ln_new (lines_of (trace s))) as [k|] eqn:E; [|constructor]. constructor; [|constructor].
    destruct (y_pc s); cbn [new_ok] in D; try discriminate D; try (destruct D as (k' & EK & HK); injection EK as ->; now apply live_done); [injection D as ->; exact HE|now apply D].
Qed.
Lemma all_framed c s k : config_ok c -> reachable c s -> In k (sendings (trace s)) -> framed k.
Proof. intros HC HR HI. pose proof (sendings_done c s HC HR) as H. rewrite Forall_forall in H. apply (H k HI). Qed.
Lemma all_stop c s k : config_ok c -> reachable c s -> In k (sendings (trace s)) -> cf_rt c = Smol \/ (forall p, ~ In (OWriteFail FromResend p) (trace s)) -> stops k.
Proof. intros HC HR HI HS. pose proof (sendings_done c s HC HR) as H. rewrite Forall_forall in H. now apply (H k HI). Qed.

(* ---- the bytes ------------------------------------------------------------------------------- *)
Lemma in_opt {A} (x : A) o : In x (opt_list o) <-> o = Some x.
Proof. destruct o; cbn; split; try tauto; try discriminate; [intros [->|[]]; reflexivity|intros E; injection E as ->; now left]. Qed.
Definition held_by (x : packet * bool) (n : lines) : Prop := exists k, In x k /\ (In k (ln_closed n) \/ ln_used n = Some k \/ ln_new n = Some k).
Lemma held_put x y n : held_by x (put y n) -> held_by x n \/ x = y.
Proof.
  intros (k & HI & HK). destruct n as [cl us nw]. destruct nw as [kn|]; cbn in HK.
  - destruct HK as [HK|[HK|HK]]; [left; exists k; auto|left; exists k; auto|]. injection HK as <-. apply in_app_or in HI as [HI|[<-|[]]]; [left; exists kn; auto|now right].
  - destruct HK as [HK|[HK|HK]]; [left; exists k; auto| |discriminate HK]. destruct us as [ku|]; [|discriminate HK]. injection HK as <-.
    apply in_app_or in HI as [HI|[<-|[]]]; [left; exists ku; auto|now right].
Qed.
Lemma held_trace l p b : held_by (p, b) (lines_of l) -> exists o, In (if b then OWrite o p else OWriteFail o p) l.
Proof.
  unfold lines_of. induction l as [|o l IH] using rev_ind; [intros (k & _ & [[]|[H|H]]); discriminate H|]. rewrite fold_left_app. cbn [fold_left]. intros H.
  assert (held_by (p, b) (fold_left lines_step l lines0) \/ exists o', o = (if b then OWrite o' p else OWriteFail o' p)) as [H'|[o' ->]].
  2:{ apply IH in H' as (o' & H'). exists o'. apply in_or_app. now left. }
  2:{ exists o'. apply in_or_app. right. now left. }
  destruct (fold_left lines_step l lines0) as [cl us nw]. clear IH.
  destruct o; try (left; exact H); cbn [lines_step] in H.
  - destruct H as (k & HI & [HK|[HK|HK]]); cbn in HK; [left; exists k; auto|left; exists k; auto|injection HK as <-; destruct HI].
  - destruct r; destruct H as (k & HI & [HK|[HK|HK]]); cbn in HK; try discriminate HK; left; exists k; (split; [exact HI|]); auto; apply in_app_or in HK as [HK|HK]; auto; apply in_opt in HK; auto.
  - destruct H as (k & HI & [HK|[HK|HK]]); cbn in HK; try discriminate HK; left; exists k; (split; [exact HI|]); apply in_app_or in HK as [HK|HK]; auto; apply in_opt in HK; auto.
  - apply held_put in H as [H|H]; [now left|]. injection H as -> ->. right. now exists o.
  - apply held_put in H as [H|H]; [now left|]. injection H as -> ->. right. now exists o.
Qed.
Lemma sending_trace l k p b : In k (sendings l) -> In (p, b) k -> exists o, In (if b then OWrite o p else OWriteFail o p) l.
Proof.
  intros HK HI. apply held_trace. exists k. split; [exact HI|]. unfold sendings in HK. cbv zeta in HK. rewrite !in_app_iff, !in_opt in HK. tauto.
Qed.

Lemma encodes_nil p : ~ encodes p [].
Proof. intros (body & _ & _ & E). discriminate E. Qed.
(* a reader that knows MQTT 5 gets the packets that were written, however far it reads *)
Lemma parse_prefix ps : Forall packet_ok ps -> forall bs qs cs rest, Forall2 encodes ps bs -> Forall packet_ok qs -> Forall2 encodes qs cs -> concat cs ++ rest = concat bs ->
  exists ps2, ps = qs ++ ps2.
Proof.
  induction 1 as [|p ps HP HF IH]; intros bs qs cs rest HB HQ HC E.
  - inversion HB; subst. cbn in E. apply app_eq_nil in E as [E _]. destruct HC as [|q c qs cs HE HC]; [now exists []|].
    cbn in E. apply app_eq_nil in E as [E _]. subst c. now apply encodes_nil in HE.
  - inversion HB as [|p' b ps' bs' HE1 HB']; subst. destruct HC as [|q c qs cs HE2 HC]; [exists (p :: ps); reflexivity|].
    inversion HQ as [|q' qs' HQ1 HQ2]; subst. cbn [concat] in E. rewrite <- app_assoc in E.
    assert (p = q /\ b = c) as [-> ->].
    { apply app_eq_app in E as (z & [[E1 E2]|[E1 E2]]).
      - subst c. destruct (encodes_inj p q b z HP HQ1 HE1 HE2) as [-> ->]. rewrite app_nil_r. auto.
      - subst b. destruct (encodes_inj q p c z HQ1 HP HE2 HE1) as [-> ->]. rewrite app_nil_r. auto. }
    apply app_inv_head in E. destruct (IH bs' qs cs rest HB' HQ2 HC E) as (ps2 & ->). exists ps2. reflexivity.
Qed.
Lemma sent_parsed c es s k : config_ok c -> built c -> Forall event_ok es -> exec c es (init c) = Some s -> In k (sendings (trace s)) ->
  Forall2 encodes (sent_packets k) (map (wire_bytes (cf_rt c)) (sent_packets k)) /\
  forall qs cs rest, Forall packet_ok qs -> Forall2 encodes qs cs -> concat cs ++ rest = sent_bytes (cf_rt c) k -> exists more, sent_packets k = qs ++ more.
Proof.
  intros HC HB HF HE HK.
  assert (forall p, In p (sent_packets k) -> packet_ok p /\ encodes p (wire_bytes (cf_rt c) p)) as HP.
  { intros p Hp. unfold sent_packets in Hp. apply in_map_iff in Hp as ([p' b] & <- & Hp). apply filter_In in Hp as [Hp EB]. cbn in EB. subst b. cbn [fst].
    destruct (sending_trace _ _ _ _ HK Hp) as (o & HI). destruct (lawful_bytes c es s o p' HC HB HF HE HI) as [[[HO _] _] HN]. auto. }
  assert (Forall2 encodes (sent_packets k) (map (wire_bytes (cf_rt c)) (sent_packets k))) as H2.
  { induction (sent_packets k) as [|p l IH]; cbn [map]; [apply Forall2_nil|]. apply Forall2_cons; [apply HP; now left|]. apply IH. intros q Hq. apply HP. now right. }
  split; [exact H2|]. intros qs cs rest HQ HCS E. eapply parse_prefix; [|exact H2|exact HQ|exact HCS|exact E].
  apply Forall_forall. intros p Hp. now apply HP.
Qed.
