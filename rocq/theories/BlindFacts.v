(* C83 *)
From Verif Require Import Base VarInt Prims Props Codes Packets BaseFacts Options Session Client System SpecSession SpecNet SpecTrace SpecBlind Scenario LoopCases.

Definition set_log (l : list (N * out)) (s : sys) : sys := Sys (y_state s) (y_wait s) (y_chan s) (y_net s) (y_pc s) (y_now s) l.
(* the log is only written *)
Definition onto (l : list (N * out)) (s : sys) : sys := set_log (l ++ y_log s) s.
Lemma log_onto k l s : log k (onto l s) = onto l (log k s).
Proof. unfold log, onto, set_log. cbn. now rewrite app_assoc. Qed.
Lemma end_run_onto rt r l s : end_run rt r (onto l s) = onto l (end_run rt r s).
Proof. unfold end_run. rewrite <- log_onto. reflexivity. Qed.
Lemma end_connect_onto r l s : end_connect r (onto l s) = onto l (end_connect r s).
Proof. unfold end_connect. rewrite <- log_onto. reflexivity. Qed.
Lemma crash_onto l s : crash_now (onto l s) = onto l (crash_now s).
Proof. unfold crash_now. rewrite <- log_onto. reflexivity. Qed.
Lemma reply_onto rt r l s : reply_now rt r (onto l s) = onto l (reply_now rt r s).
Proof. now destruct rt, r. Qed.
Lemma connected_onto l s : connected (onto l s) = onto l (connected s).
Proof. unfold connected. now rewrite <- end_connect_onto. Qed.
Lemma step_onto c e l s : step c e (onto l s) = option_map (onto l) (step c e s).
Proof.
  destruct e; cbn [step]; try reflexivity.
  - (* call *) unfold begin_call. cbn [onto set_log y_state]. destruct (pl_open _); [|reflexivity]. destruct (client_call _ _ _) as [[p' [[pkt e]|pkt]]|]; [| |reflexivity]; cbn [option_map]; f_equal; rewrite <- log_onto; reflexivity.
  - unfold send_call. cbn [onto set_log y_wait y_chan]. destruct (pick _ _) as [[p rest]|]; [|reflexivity]. destruct (_ <? _); [|reflexivity]. cbn [option_map]. f_equal. now rewrite <- log_onto.
  - unfold give_up. cbn [onto set_log y_wait]. destruct (pick _ _) as [[p rest]|]; [|reflexivity]. cbn [option_map]. f_equal. now rewrite <- log_onto.
  - unfold drop_clients. cbn [onto set_log y_wait]. destruct (y_wait s); [|reflexivity]. cbn [option_map]. f_equal. now rewrite <- log_onto.
  - change (y_pc (onto l s)) with (y_pc s). destruct (y_pc s); try reflexivity. cbn [option_map]. f_equal. now rewrite <- log_onto.
  - change (y_pc (onto l s)) with (y_pc s). destruct (y_pc s); try reflexivity. cbn [option_map]. f_equal. unfold start_run. change (y_net (onto l s)) with (y_net s). destruct (nt_connected _); [|now rewrite <- log_onto]. unfold again, log, onto, set_log, set_pc, set_net. cbn. now rewrite app_assoc.
  - change (y_pc (onto l s)) with (y_pc s). destruct (y_pc s); try reflexivity; cbn [option_map]; f_equal.
    + unfold connect_answer. rewrite log_onto. destruct p; try (now rewrite end_connect_onto). destruct (ca_rc c0); try (now rewrite end_connect_onto).
      set (s1 := log _ s). cbn [onto set_log y_now y_net y_state set_net]. destruct (handle_incoming_connack _ _ _) as [st [re|e|]].
      * now rewrite <- log_onto.
      * now rewrite <- end_connect_onto.
      * now rewrite <- crash_onto.
    + unfold incoming. rewrite log_onto. set (s1 := log _ s). cbn [onto set_log y_state].
      destruct p; try (now rewrite <- log_onto); destruct (handle_incoming_packet _ _) as [st [[reply [|]]|e|]]; first [now rewrite <- log_onto|now rewrite <- reply_onto|now rewrite <- end_run_onto|now rewrite <- crash_onto].
  - change (y_pc (onto l s)) with (y_pc s). destruct (y_pc s); try reflexivity. now destruct (cf_rt c).
  - change (y_pc (onto l s)) with (y_pc s). destruct (y_pc s); try reflexivity; cbn [option_map]; f_equal; first [now rewrite <- end_connect_onto|now rewrite <- end_run_onto].
  - change (y_pc (onto l s)) with (y_pc s). destruct (y_pc s); try reflexivity. unfold outgoing. change (y_chan (onto l s)) with (y_chan s). change (y_state (onto l s)) with (y_state s). destruct (y_chan s); [|reflexivity]. destruct (pl_open _); [reflexivity|]. cbn [option_map]. f_equal. now rewrite <- end_run_onto.
  - change (y_pc (onto l s)) with (y_pc s). destruct (y_pc s); try reflexivity. unfold timer, tokio_timer, smol_timer. change (y_net (onto l s)) with (y_net s). change (y_now (onto l s)) with (y_now s).
    destruct (cf_rt c), (_ <? _), (nt_await (y_net s)), (nt_perform (y_net s)); reflexivity.
  - change (y_pc (onto l s)) with (y_pc s). destruct (y_pc s); try reflexivity; cbn [option_map]; f_equal.
    + cbv zeta. rewrite (log_onto [OHandled] l s). destruct re; [reflexivity|exact (connected_onto l _)].
    + unfold handled. rewrite (log_onto [OHandled] l s). destruct a; [now destruct (cf_rt c)|now rewrite <- end_run_onto|now rewrite <- reply_onto].
  - change (y_pc (onto l s)) with (y_pc s). destruct (y_pc s); try reflexivity; cbn [option_map]; f_equal.
    + change (y_net (onto l s)) with (y_net s). destruct (write_result _ _ _); [rewrite <- end_connect_onto|]; now rewrite <- log_onto.
    + unfold reply_written. destruct (write_result _ _ _); [rewrite <- end_run_onto; now rewrite <- log_onto|]. rewrite (log_onto _ l s). reflexivity.
    + unfold flushed. rewrite (log_onto _ l s). destruct (smol_write_all _ _); [now rewrite <- end_run_onto|reflexivity].
    + unfold request_written. rewrite !(log_onto _ l s). destruct (write_result _ _ _); [now rewrite <- end_run_onto|]. set (s1 := log _ s). cbn [onto set_log y_state].
      destruct (handle_outgoing_packet _ _) as [st [[]|e|]]; [|now rewrite <- end_run_onto|now rewrite <- crash_onto]. destruct (type_of p); first [reflexivity|now rewrite <- end_run_onto].
    + unfold ping_written. rewrite !(log_onto _ l s). destruct (write_result _ _ _); [now rewrite <- end_run_onto|reflexivity].
    + unfold bye_written. rewrite !(log_onto _ l s). destruct (write_result _ _ _); now rewrite <- end_run_onto.
  - change (y_pc (onto l s)) with (y_pc s). destruct (y_pc s); try reflexivity; cbn [option_map]; f_equal. unfold connect_resend. rewrite !(log_onto _ l s).
    destruct (cf_rt c); [destruct ok|destruct (smol_write_all _ _)]; first [now rewrite <- connected_onto|now rewrite <- end_connect_onto].
Qed.
Definition core (s : sys) : sys := set_log [] s.
Lemma core_onto s : onto (y_log s) (core s) = s.
Proof. destruct s. unfold onto, core, set_log. cbn. now rewrite app_nil_r. Qed.

(* what is visible of a state *)
Definition vis (s : sys) : sys := set_log (map timed (y_log s)) s.
Lemma vis_log l l' s s' : vis s = vis s' -> map out_seen l = map out_seen l' -> vis (log l s) = vis (log l' s').
Proof.
  destruct s, s'. unfold vis, log, set_log. cbn. intros [=] E. subst. f_equal. rewrite !map_app, !map_map. f_equal; [assumption|]. unfold timed. cbn [fst snd].
  revert E. clear. revert l'. induction l as [|a l IH]; intros [|b l']; try discriminate; [reflexivity|]. cbn. intros [= E1 E2]. rewrite E1. f_equal. now apply IH.
Qed.
Lemma vis_onto l l' s s' : vis s = vis s' -> map timed l = map timed l' -> vis (onto l s) = vis (onto l' s').
Proof. destruct s, s'. unfold vis, onto, set_log. cbn. intros [=] E. subst. f_equal. rewrite !map_app. congruence. Qed.
Lemma seen_handled p st : (match p with PPingResp | PDisconnect _ => False | _ => True end) -> handle_incoming_packet (seen p) st = handle_incoming_packet p st.
Proof.
  destruct p; cbn [seen]; intros HP; try (destruct HP; fail); try reflexivity.
  - now destruct (ca_rc c).
  - cbn [handle_incoming_packet]. unfold handle_incoming_publish. destruct (pb_qos p) eqn:E; cbn [pb_qos pb_pkid pb_dup]; now rewrite ?E.
  - cbn [handle_incoming_packet]. unfold handle_incoming_pubrec, mbind. cbn [ak_id ak_rc]. destruct (remove_outgoing_pub _ _) as [st' [[x|]|e|]]; try reflexivity. now destruct (ak_rc a).
Qed.
Lemma seen_idem p : seen (seen p) = seen p.
Proof. destruct p; try reflexivity; cbn [seen]; [destruct (ca_rc c) eqn:E; cbn [seen ca_rc]; try reflexivity; destruct (server_keep_alive (ca_props c)) as [k|]; reflexivity|destruct (pb_qos p); reflexivity|cbn [ak_id ak_rc]; now destruct (rec_accepts (ak_rc a))]. Qed.
Lemma vis_set_pc q s s' : vis s = vis s' -> vis (set_pc q s) = vis (set_pc q s').
Proof. destruct s, s'. unfold vis, set_pc, set_log. cbn. intros [=]. subst. f_equal. congruence. Qed.
Lemma vis_set_net q s s' : vis s = vis s' -> vis (set_net q s) = vis (set_net q s').
Proof. destruct s, s'. unfold vis, set_net, set_log. cbn. intros [=]. subst. f_equal. congruence. Qed.
Lemma vis_set_state q s s' : vis s = vis s' -> vis (set_state q s) = vis (set_state q s').
Proof. destruct s, s'. unfold vis, set_state, set_log. cbn. intros [=]. subst. f_equal. congruence. Qed.
Lemma vis_fields s s' : vis s = vis s' -> y_state s = y_state s' /\ y_wait s = y_wait s' /\ y_chan s = y_chan s' /\ y_net s = y_net s' /\ y_pc s = y_pc s' /\ y_now s = y_now s' /\ map timed (y_log s) = map timed (y_log s').
Proof. destruct s, s'. unfold vis, set_log. cbn. intros [=]. subst. auto 10. Qed.
Lemma vis_end_run rt r s s' : vis s = vis s' -> vis (end_run rt r s) = vis (end_run rt r s').
Proof. intros H. unfold end_run. apply vis_log; [|reflexivity]. apply vis_set_pc. destruct (vis_fields _ _ H) as (_ & _ & _ & -> & _). now apply vis_set_net. Qed.
Lemma vis_reply rt r s s' : vis s = vis s' -> vis (reply_now rt r s) = vis (reply_now rt r s').
Proof.
  intros H. pose proof (vis_fields _ _ H) as (_ & _ & _ & EN & _ & ET & _). destruct rt, r; cbn [reply_now]; unfold again, smol_flush, smol_push.
  - now apply vis_set_pc.
  - rewrite ET. now apply vis_set_pc.
  - cbn [y_net set_net]. rewrite EN. apply vis_set_pc, vis_set_net. now apply vis_set_net.
  - rewrite EN. now apply vis_set_pc, vis_set_net.
Qed.
Lemma vis_ends r r' s s' : vis s = vis s' -> out_seen (OConnectEnd r) = out_seen (OConnectEnd r') -> vis (end_connect r s) = vis (end_connect r' s').
Proof. intros H E. unfold end_connect. apply vis_log; [now apply vis_set_pc|]. cbn [map]. now rewrite E. Qed.
Lemma vis_crash s s' : vis s = vis s' -> vis (crash_now s) = vis (crash_now s').
Proof. intros H. unfold crash_now. apply vis_log; [now apply vis_set_pc|reflexivity]. Qed.
Lemma vis_answer c p s : vis (connect_answer c (seen p) s) = vis (connect_answer c p s).
Proof.
  assert (vis (log [OAnswer (seen p)] s) = vis (log [OAnswer p] s)) as H by (apply vis_log; [reflexivity|cbn; now rewrite seen_idem]).
  pose proof (vis_fields _ _ H) as (ES & _ & _ & EN & _ & ET & _).
  unfold connect_answer. cbv zeta. revert H ES EN ET. generalize (log [OAnswer (seen p)] s) (log [OAnswer p] s). intros s1 s2 H ES EN ET.
  assert (match p with PConnAck _ => True | _ => vis (end_connect (Some (NotConnAck (seen p))) s1) = vis (end_connect (Some (NotConnAck p)) s2) end) as X.
  { destruct p; try exact I; apply vis_ends; try exact H; cbn [out_seen]; now rewrite seen_idem. }
  destruct p; try exact X; [clear X|cbn [seen] in *; destruct (pb_qos p); exact X].
  cbn [seen]. destruct (ca_rc c0) eqn:ER; cbn [ca_rc]; try (apply vis_ends; [exact H|reflexivity]). rewrite ET, EN.
  set (a := ConnAck _ _ _). replace (apply_connack (cf_rt c) (y_now s2) a (y_net s2)) with (apply_connack (cf_rt c) (y_now s2) c0 (y_net s2)) by (unfold apply_connack, a; cbn [ca_props]; now destruct (server_keep_alive (ca_props c0))).
  replace (handle_incoming_connack (op_clean_start (cf_opts c)) a) with (handle_incoming_connack (op_clean_start (cf_opts c)) c0) by (unfold handle_incoming_connack, a; cbn [ca_rc ca_session_present]; now rewrite ER).
  cbn [y_state set_net]. rewrite ES. destruct (handle_incoming_connack _ _ _) as [st [re|e|]].
  - apply vis_log; [now apply vis_set_pc, vis_set_state, vis_set_net|]. cbn [map out_seen]. do 2 f_equal. unfold a. cbn [seen ca_rc ca_session_present ca_props]. rewrite ER. now destruct (server_keep_alive (ca_props c0)).
  - apply vis_ends; [now apply vis_set_state, vis_set_net|reflexivity].
  - now apply vis_crash, vis_set_state, vis_set_net.
Qed.
Lemma vis_incoming rt p s : vis (incoming rt (seen p) s) = vis (incoming rt p s).
Proof.
  assert (vis (log [ORead (seen p)] s) = vis (log [ORead p] s)) as H by (apply vis_log; [reflexivity|cbn; now rewrite seen_idem]).
  pose proof (vis_fields _ _ H) as (ES & _). unfold incoming. cbv zeta. revert H ES. generalize (log [ORead (seen p)] s) (log [ORead p] s). intros s1 s2 H ES.
  assert (match p with PPingResp | PDisconnect _ => True | _ =>
    vis (let (st, r) := handle_incoming_packet (seen p) (y_state s1) in match r with HErr e => end_run rt (inr (HandlerErr e)) (set_state st s1) | HPanic => crash_now (set_state st s1)
         | HOk (reply, true) => log [OHandle (seen p)] (set_pc (PHandle (AfterPacket reply)) (set_state st s1)) | HOk (reply, false) => reply_now rt reply (set_state st s1) end) =
    vis (let (st, r) := handle_incoming_packet p (y_state s2) in match r with HErr e => end_run rt (inr (HandlerErr e)) (set_state st s2) | HPanic => crash_now (set_state st s2)
         | HOk (reply, true) => log [OHandle p] (set_pc (PHandle (AfterPacket reply)) (set_state st s2)) | HOk (reply, false) => reply_now rt reply (set_state st s2) end) end) as X.
  { assert (match p with PPingResp | PDisconnect _ => False | _ => True end -> handle_incoming_packet (seen p) (y_state s1) = handle_incoming_packet p (y_state s2)) as E by (intros HP; rewrite ES; now apply seen_handled).
    assert (forall x, x = handle_incoming_packet p (y_state s2) -> vis (let (st, r) := x in match r with HErr e => end_run rt (inr (HandlerErr e)) (set_state st s1) | HPanic => crash_now (set_state st s1)
         | HOk (reply, true) => log [OHandle (seen p)] (set_pc (PHandle (AfterPacket reply)) (set_state st s1)) | HOk (reply, false) => reply_now rt reply (set_state st s1) end) =
      vis (let (st, r) := handle_incoming_packet p (y_state s2) in match r with HErr e => end_run rt (inr (HandlerErr e)) (set_state st s2) | HPanic => crash_now (set_state st s2)
         | HOk (reply, true) => log [OHandle p] (set_pc (PHandle (AfterPacket reply)) (set_state st s2)) | HOk (reply, false) => reply_now rt reply (set_state st s2) end)) as Y.
    { intros x ->. destruct (handle_incoming_packet p (y_state s2)) as [st [[reply [|]]|e|]].
      - apply vis_log; [now apply vis_set_pc, vis_set_state|]. cbn. now rewrite seen_idem.
      - now apply vis_reply, vis_set_state.
      - now apply vis_end_run, vis_set_state.
      - now apply vis_crash, vis_set_state. }
    destruct p; try exact I; apply Y, E; exact I. }
  destruct p; try exact X.
  - cbn [seen]. cbn [seen] in X. destruct (ca_rc c); exact X.
  - cbn [seen]. cbn [seen] in X. destruct (pb_qos p); exact X.
  - apply vis_log; [now apply vis_set_pc|reflexivity].
  - apply vis_log; [now apply vis_set_pc|reflexivity].
Qed.
Lemma step_seen c e s : option_map vis (step c (event_seen e) s) = option_map vis (step c e s).
Proof. destruct e; try reflexivity. cbn [event_seen step]. destruct (y_pc s); try reflexivity; cbn [option_map]; f_equal; [apply vis_answer|apply vis_incoming]. Qed.
Lemma vis_core s s' : vis s = vis s' -> core s = core s'.
Proof. intros H. destruct (vis_fields _ _ H) as (E1 & E2 & E3 & E4 & E5 & E6 & _). unfold core, set_log. congruence. Qed.
Lemma step_vis c e e' s s' : event_seen e = event_seen e' -> vis s = vis s' -> option_map vis (step c e s) = option_map vis (step c e' s').
Proof.
  intros HE HV. rewrite <- (step_seen c e), <- (step_seen c e'), HE. set (x := event_seen e'). rewrite <- (core_onto s), <- (core_onto s'), !step_onto, (vis_core _ _ HV).
  destruct (step c x (core s')) as [t|]; [|reflexivity]. cbn [option_map]. f_equal. apply vis_onto; [reflexivity|]. apply (vis_fields _ _ HV).
Qed.
Lemma exec_vis c : forall es es' s s', map event_seen es = map event_seen es' -> vis s = vis s' -> option_map vis (exec c es s) = option_map vis (exec c es' s').
Proof.
  induction es as [|e es IH]; intros [|e' es'] s s' HE HV; try discriminate HE; cbn [exec]; [cbn [option_map]; congruence|]. cbn [map] in HE. injection HE as H1 H2.
  pose proof (step_vis c e e' s s' H1 HV) as X. destruct (step c e s) as [t|], (step c e' s') as [t'|]; try discriminate X; [|reflexivity]. apply IH; [exact H2|]. cbn [option_map] in X. congruence.
Qed.
Lemma blind c es es' s : exec c es (init c) = Some s -> map event_seen es' = map event_seen es -> exists s', exec c es' (init c) = Some s' /\
  y_state s' = y_state s /\ y_wait s' = y_wait s /\ y_chan s' = y_chan s /\ y_net s' = y_net s /\ y_pc s' = y_pc s /\ map timed (y_log s') = map timed (y_log s).
Proof.
  intros H HE. pose proof (exec_vis c es' es (init c) (init c) HE eq_refl) as X. rewrite H in X. destruct (exec c es' (init c)) as [s'|]; [|discriminate X]. exists s'. split; [reflexivity|].
  cbn [option_map] in X. assert (vis s' = vis s) as Y by congruence. apply vis_fields in Y. tauto.
Qed.
Lemma same_writes l l' : map timed l' = map timed l -> filter (fun x => is_write (snd x)) l' = filter (fun x => is_write (snd x)) l.
Proof.
  revert l'. induction l as [|[t o] l IH]; intros [|[t' o'] l'] H; try discriminate H; [reflexivity|]. cbn [map] in H. injection H as H1 H2 H3. unfold timed in *. cbn [fst snd] in *. cbn [filter snd]. rewrite (IH _ H3).
  assert (is_write o' = is_write o /\ (is_write o = true -> o' = o)) as [E1 E2].
  { clear - H2. destruct o' as [| | | | | |[[]|]| | | | | | | | |], o as [| | | | | |[[]|]| | | | | | | | |]; cbn [out_seen] in H2; try discriminate H2; split; try reflexivity; try discriminate; congruence. }
  rewrite E1. destruct (is_write o); [|reflexivity]. rewrite E2 by reflexivity. congruence.
Qed.
Lemma blind_writes c es es' s s' : exec c es (init c) = Some s -> exec c es' (init c) = Some s' -> map event_seen es' = map event_seen es ->
  filter (fun x => is_write (snd x)) (y_log s') = filter (fun x => is_write (snd x)) (y_log s).
Proof. intros H H' HE. destruct (blind c es es' s H HE) as (t & HT & _ & _ & _ & _ & _ & EL). rewrite H' in HT. injection HT as <-. now apply same_writes. Qed.
