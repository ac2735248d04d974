(* All transitions of the system, one line each, in a form that is easy to reason about. *)
From Coq Require Import Permutation.
From Verif Require Import Base VarInt Prims Props Codes Packets BaseFacts Options Session Client System SpecSession SessionFacts SystemFacts AckFacts IdFacts.

Definition end_net (rt : runtime) (n : net) : net :=
  match rt with Smol => set_buf [] (set_await None (set_connected false n)) | Tokio => set_connected false n end.
Definition reply_pc (rt : runtime) (r : option packet) (now : N) : pc :=
  match rt with
  | Tokio => match r with Some p => PReply p | None => PSelect now end
  | Smol => PFlush (opt_list r)
  end.
(* how connect ends when the broker has not accepted *)
Definition answer_err (p : packet) : option cerr :=
  match p with
  | PConnAck a => match ca_rc a with RSuccess => None | r => Some (ConnectionRefused r) end
  | _ => Some (NotConnAck p)
  end.
(* handled by the loop itself, not by the session *)
Definition loop_packet (p : packet) : option after :=
  match p with PPingResp => Some AfterPing | PDisconnect _ => Some AfterDisconnect | _ => None end.

Definition with_last (now : N) (n : net) : net := set_last now n.

(* new observations, session, waiting calls, channel, network, program counter, time *)
Inductive tcase (c : config) (s : sys) : event -> list out -> state -> list packet -> list packet -> net -> pc -> N -> Prop :=
| t_tick d : tcase c s (ETick d) [] (y_state s) (y_wait s) (y_chan s) (y_net s) (y_pc s) (y_now s + d)
| t_refuse k p e pool' : pl_open (st_pool (y_state s)) = true -> client_call (max_packet (cf_opts c)) k (st_pool (y_state s)) = Some (pool', inl (p, e)) ->
    tcase c s (ECall k) [OBegin p; ORefuse p e] (set_pool pool' (y_state s)) (y_wait s) (y_chan s) (y_net s) (y_pc s) (y_now s)
| t_begin k p pool' : pl_open (st_pool (y_state s)) = true -> client_call (max_packet (cf_opts c)) k (st_pool (y_state s)) = Some (pool', inr p) ->
    tcase c s (ECall k) [OBegin p] (set_pool pool' (y_state s)) (y_wait s ++ [p]) (y_chan s) (y_net s) (y_pc s) (y_now s)
| t_send i p rest : pick i (y_wait s) = Some (p, rest) -> len (y_chan s) < CHANNEL_SIZE ->
    tcase c s (ESend i) [OAccept p] (y_state s) rest (y_chan s ++ [p]) (y_net s) (y_pc s) (y_now s)
| t_give_up i p rest : pick i (y_wait s) = Some (p, rest) ->
    tcase c s (EGiveUp i) [OGiveUp p] (y_state s) rest (y_chan s) (y_net s) (y_pc s) (y_now s)
| t_drop : y_wait s = [] ->
    tcase c s EDropClients [ODropClients] (set_pool (Pool (pl_ids (st_pool (y_state s))) (pl_cap (st_pool (y_state s))) false) (y_state s)) [] (y_chan s) (y_net s) (y_pc s) (y_now s)
| t_connect : y_pc s = PIdle -> tcase c s EConnect [OConnect] (y_state s) (y_wait s) (y_chan s) (y_net s) PConnWrite (y_now s)
| t_run : y_pc s = PIdle -> nt_connected (y_net s) = true ->
    tcase c s ERun [ORun] (y_state s) (y_wait s) (y_chan s) (match cf_rt c with Tokio => set_await None (y_net s) | Smol => y_net s end) (PSelect (y_now s)) (y_now s)
| t_run_none : y_pc s = PIdle -> nt_connected (y_net s) = false ->
    tcase c s ERun [ORunEnd (inr NoNetwork)] (y_state s) (y_wait s) (y_chan s) (y_net s) PIdle (y_now s)
| t_conn_write ok : y_pc s = PConnWrite -> write_result (cf_rt c) (create_connect (nt_opts (y_net s))) ok = None ->
    tcase c s (EWrite ok) [OWrite FromConnect (create_connect (nt_opts (y_net s)))] (y_state s) (y_wait s) (y_chan s) (y_net s) PConnRead (y_now s)
| t_conn_fail ok e : y_pc s = PConnWrite -> write_result (cf_rt c) (create_connect (nt_opts (y_net s))) ok = Some e ->
    tcase c s (EWrite ok) [OWriteFail FromConnect (create_connect (nt_opts (y_net s))); OConnectEnd (Some e)] (y_state s) (y_wait s) (y_chan s) (y_net s) PIdle (y_now s)
| t_conn_read_err e : y_pc s = PConnRead ->
    tcase c s (EReadErr e) [OConnectEnd (Some e)] (y_state s) (y_wait s) (y_chan s) (y_net s) PIdle (y_now s)
| t_conn_refused p e : y_pc s = PConnRead -> answer_err p = Some e ->
    tcase c s (EPacket p) [OAnswer p; OConnectEnd (Some e)] (y_state s) (y_wait s) (y_chan s) (y_net s) PIdle (y_now s)
| t_conn_ok a st re : y_pc s = PConnRead -> ca_rc a = RSuccess -> handle_incoming_connack (cleans c) a (y_state s) = (st, HOk re) ->
    tcase c s (EPacket (PConnAck a)) [OAnswer (PConnAck a); OHandle (PConnAck a)] st (y_wait s) (y_chan s) (apply_connack (cf_rt c) (y_now s) a (y_net s)) (PConnHandle re) (y_now s)
| t_conn_err a st e : y_pc s = PConnRead -> ca_rc a = RSuccess -> handle_incoming_connack (cleans c) a (y_state s) = (st, HErr e) ->
    tcase c s (EPacket (PConnAck a)) [OAnswer (PConnAck a); OConnectEnd (Some (HandlerErr e))] st (y_wait s) (y_chan s) (apply_connack (cf_rt c) (y_now s) a (y_net s)) PIdle (y_now s)
| t_conn_panic a st : y_pc s = PConnRead -> ca_rc a = RSuccess -> handle_incoming_connack (cleans c) a (y_state s) = (st, HPanic) ->
    tcase c s (EPacket (PConnAck a)) [OAnswer (PConnAck a); OPanic] st (y_wait s) (y_chan s) (apply_connack (cf_rt c) (y_now s) a (y_net s)) PCrash (y_now s)
| t_conn_handled ps : y_pc s = PConnHandle (Some ps) ->
    tcase c s EHandled [OHandled] (y_state s) (y_wait s) (y_chan s) (y_net s) (PConnResend ps) (y_now s)
| t_conn_handled_none : y_pc s = PConnHandle None ->
    tcase c s EHandled [OHandled; OConnectEnd None] (y_state s) (y_wait s) (y_chan s) (set_connected true (y_net s)) PIdle (y_now s)
| t_resend_tokio ps oks : y_pc s = PConnResend ps -> cf_rt c = Tokio ->
    tcase c s (EWrites oks true) (tokio_writes FromResend ps oks ++ [OConnectEnd None]) (y_state s) (y_wait s) (y_chan s) (set_connected true (set_last (y_now s) (y_net s))) PIdle (y_now s)
| t_resend_tokio_fail ps oks : y_pc s = PConnResend ps -> cf_rt c = Tokio ->
    tcase c s (EWrites oks false) (tokio_writes FromResend ps oks ++ [OConnectEnd (Some Io)]) (y_state s) (y_wait s) (y_chan s) (y_net s) PIdle (y_now s)
| t_resend_smol ps oks ok : y_pc s = PConnResend ps -> cf_rt c = Smol -> smol_write_all ps ok = None ->
    tcase c s (EWrites oks ok) (smol_writes FromResend ps ok ++ [OConnectEnd None]) (y_state s) (y_wait s) (y_chan s) (set_connected true (set_last (y_now s) (y_net s))) PIdle (y_now s)
| t_resend_smol_fail ps oks ok e : y_pc s = PConnResend ps -> cf_rt c = Smol -> smol_write_all ps ok = Some e ->
    tcase c s (EWrites oks ok) (smol_writes FromResend ps ok ++ [OConnectEnd (Some e)]) (y_state s) (y_wait s) (y_chan s) (y_net s) PIdle (y_now s)
| t_read_loop since p a : y_pc s = PSelect since -> loop_packet p = Some a ->
    tcase c s (EPacket p) [ORead p; OHandle p] (y_state s) (y_wait s) (y_chan s) (y_net s) (PHandle a) (y_now s)
| t_read since p st reply : y_pc s = PSelect since -> loop_packet p = None -> handle_incoming_packet p (y_state s) = (st, HOk (reply, true)) ->
    tcase c s (EPacket p) [ORead p; OHandle p] st (y_wait s) (y_chan s) (y_net s) (PHandle (AfterPacket reply)) (y_now s)
| t_read_quiet since p st reply : y_pc s = PSelect since -> loop_packet p = None -> handle_incoming_packet p (y_state s) = (st, HOk (reply, false)) ->
    tcase c s (EPacket p) [ORead p] st (y_wait s) (y_chan s) (y_net s) (reply_pc (cf_rt c) reply (y_now s)) (y_now s)
| t_read_err since p st e : y_pc s = PSelect since -> loop_packet p = None -> handle_incoming_packet p (y_state s) = (st, HErr e) ->
    tcase c s (EPacket p) [ORead p; ORunEnd (inr (HandlerErr e))] st (y_wait s) (y_chan s) (end_net (cf_rt c) (y_net s)) PIdle (y_now s)
| t_read_panic since p st : y_pc s = PSelect since -> loop_packet p = None -> handle_incoming_packet p (y_state s) = (st, HPanic) ->
    tcase c s (EPacket p) [ORead p; OPanic] st (y_wait s) (y_chan s) (y_net s) PCrash (y_now s)
| t_partial since : y_pc s = PSelect since ->
    tcase c s EPartial [] (y_state s) (y_wait s) (y_chan s) (y_net s) (match cf_rt c with Tokio => PSelect since | Smol => PSelect (y_now s) end) (y_now s)
| t_io since e : y_pc s = PSelect since ->
    tcase c s (EReadErr e) [ORunEnd (inr e)] (y_state s) (y_wait s) (y_chan s) (end_net (cf_rt c) (y_net s)) PIdle (y_now s)
| t_take since p rest : y_pc s = PSelect since -> y_chan s = p :: rest ->
    tcase c s EOutgoing [] (y_state s) (y_wait s) rest (y_net s) (PRequest p) (y_now s)
| t_no_clients since : y_pc s = PSelect since -> y_chan s = [] -> pl_open (st_pool (y_state s)) = false ->
    tcase c s EOutgoing [ORunEnd (inr NoOutgoingPacketSender)] (y_state s) (y_wait s) (y_chan s) (end_net (cf_rt c) (y_net s)) PIdle (y_now s)
| t_ping since : y_pc s = PSelect since -> nt_await (y_net s) = None -> nt_perform (y_net s) = true ->
    match cf_rt c with Tokio => tokio_deadline (y_net s) | Smol => smol_deadline since (y_net s) end <= y_now s ->
    tcase c s ETimer [] (y_state s) (y_wait s) (y_chan s) (y_net s) PPing (y_now s)
| t_bye since : y_pc s = PSelect since ->
    (nt_await (y_net s) <> None \/ cf_rt c = Smol /\ nt_perform (y_net s) = false) ->
    match cf_rt c with Tokio => tokio_deadline (y_net s) | Smol => smol_deadline since (y_net s) end <= y_now s ->
    tcase c s ETimer [] (y_state s) (y_wait s) (y_chan s) (y_net s) PBye (y_now s)
| t_handled_ping : y_pc s = PHandle AfterPing ->
    tcase c s EHandled [OHandled] (y_state s) (y_wait s) (y_chan s) (set_await None (y_net s)) (reply_pc (cf_rt c) None (y_now s)) (y_now s)
| t_handled_disconnect : y_pc s = PHandle AfterDisconnect ->
    tcase c s EHandled [OHandled; ORunEnd (inl IncomingDisconnect)] (y_state s) (y_wait s) (y_chan s) (end_net (cf_rt c) (y_net s)) PIdle (y_now s)
| t_handled r : y_pc s = PHandle (AfterPacket r) ->
    tcase c s EHandled [OHandled] (y_state s) (y_wait s) (y_chan s) (y_net s) (reply_pc (cf_rt c) r (y_now s)) (y_now s)
| t_reply p ok : y_pc s = PReply p -> write_result Tokio p ok = None ->
    tcase c s (EWrite ok) [OWrite FromReply p] (y_state s) (y_wait s) (y_chan s) (set_last (y_now s) (y_net s)) (PSelect (y_now s)) (y_now s)
| t_reply_fail p ok e : y_pc s = PReply p -> write_result Tokio p ok = Some e ->
    tcase c s (EWrite ok) [OWriteFail FromReply p; ORunEnd (inr e)] (y_state s) (y_wait s) (y_chan s) (end_net Tokio (y_net s)) PIdle (y_now s)
| t_flush ps ok : y_pc s = PFlush ps -> smol_write_all ps ok = None ->
    tcase c s (EWrite ok) (smol_writes FromReply ps ok) (y_state s) (y_wait s) (y_chan s) (set_last (y_now s) (y_net s)) (PSelect (y_now s)) (y_now s)
| t_flush_fail ps ok e : y_pc s = PFlush ps -> smol_write_all ps ok = Some e ->
    tcase c s (EWrite ok) (smol_writes FromReply ps ok ++ [ORunEnd (inr e)]) (y_state s) (y_wait s) (y_chan s) (end_net Smol (y_net s)) PIdle (y_now s)
| t_request_fail p ok e : y_pc s = PRequest p -> write_result (cf_rt c) p ok = Some e ->
    tcase c s (EWrite ok) [OWriteFail FromClient p; ORunEnd (inr e)] (y_state s) (y_wait s) (y_chan s) (end_net (cf_rt c) (y_net s)) PIdle (y_now s)
| t_request p ok st u : y_pc s = PRequest p -> write_result (cf_rt c) p ok = None -> handle_outgoing_packet p (y_state s) = (st, HOk u) -> type_of p <> TDisconnect ->
    tcase c s (EWrite ok) [OWrite FromClient p] st (y_wait s) (y_chan s) (set_last (y_now s) (y_net s)) (PSelect (y_now s)) (y_now s)
| t_disconnect p ok st u : y_pc s = PRequest p -> write_result (cf_rt c) p ok = None -> handle_outgoing_packet p (y_state s) = (st, HOk u) -> type_of p = TDisconnect ->
    tcase c s (EWrite ok) [OWrite FromClient p; ORunEnd (inl OutgoingDisconnect)] st (y_wait s) (y_chan s) (end_net (cf_rt c) (set_last (y_now s) (y_net s))) PIdle (y_now s)
| t_request_err p ok st e : y_pc s = PRequest p -> write_result (cf_rt c) p ok = None -> handle_outgoing_packet p (y_state s) = (st, HErr e) ->
    tcase c s (EWrite ok) [OWrite FromClient p; ORunEnd (inr (HandlerErr e))] st (y_wait s) (y_chan s) (end_net (cf_rt c) (y_net s)) PIdle (y_now s)
| t_request_panic p ok st : y_pc s = PRequest p -> write_result (cf_rt c) p ok = None -> handle_outgoing_packet p (y_state s) = (st, HPanic) ->
    tcase c s (EWrite ok) [OWrite FromClient p; OPanic] st (y_wait s) (y_chan s) (y_net s) PCrash (y_now s)
| t_pinged ok : y_pc s = PPing -> write_result (cf_rt c) PPingReq ok = None ->
    tcase c s (EWrite ok) [OWrite FromTimer PPingReq] (y_state s) (y_wait s) (y_chan s) (set_await (Some (y_now s)) (set_last (y_now s) (y_net s))) (PSelect (y_now s)) (y_now s)
| t_ping_fail ok e : y_pc s = PPing -> write_result (cf_rt c) PPingReq ok = Some e ->
    tcase c s (EWrite ok) [OWriteFail FromTimer PPingReq; ORunEnd (inr e)] (y_state s) (y_wait s) (y_chan s) (end_net (cf_rt c) (y_net s)) PIdle (y_now s)
| t_byed ok : y_pc s = PBye -> write_result (cf_rt c) bye ok = None ->
    tcase c s (EWrite ok) [OWrite FromTimer bye; ORunEnd (inl KeepAliveTimeout)] (y_state s) (y_wait s) (y_chan s) (end_net (cf_rt c) (y_net s)) PIdle (y_now s)
| t_bye_fail ok e : y_pc s = PBye -> write_result (cf_rt c) bye ok = Some e ->
    tcase c s (EWrite ok) [OWriteFail FromTimer bye; ORunEnd (inr e)] (y_state s) (y_wait s) (y_chan s) (end_net (cf_rt c) (y_net s)) PIdle (y_now s).

(* the packets are buffered only for an instant *)
Definition buf_empty (s : sys) : Prop := nt_buf (y_net s) = [].

Definition next (s : sys) (l : list out) (st : state) (w ch : list packet) (n : net) (q : pc) (t : N) : sys :=
  Sys st w ch n q t (y_log s ++ map (pair (y_now s)) l).

Lemma end_run_next rt r s l0 s0 : s = log l0 s0 -> end_run rt r s = next s0 (l0 ++ [ORunEnd r]) (y_state s0) (y_wait s0) (y_chan s0) (end_net rt (y_net s0)) PIdle (y_now s0).
Proof. intros ->. unfold end_run, next, log, set_net, set_pc. cbn. rewrite map_app, <- app_assoc. now destruct rt. Qed.

Lemma log2 l1 l2 t (x : list (N * out)) : (x ++ map (pair t) l1) ++ map (pair t) l2 = x ++ map (pair t) (l1 ++ l2).
Proof. now rewrite map_app, <- app_assoc. Qed.

Lemma again_smol n r : nt_buf n = [] -> match r with
  | Some p => nt_buf n ++ [p] | None => nt_buf n end = opt_list r.
Proof. intros ->. now destruct r. Qed.

Lemma set_buf_same n : nt_buf n = [] -> set_buf [] n = n.
Proof. destruct n. cbn. now intros ->. Qed.
Lemma set_buf_push n b : nt_buf n = [] -> set_buf [] (set_buf b n) = n.
Proof. destruct n. cbn. now intros ->. Qed.

Lemma reply_now_next rt r s : nt_buf (y_net s) = [] ->
  reply_now rt r s = Sys (y_state s) (y_wait s) (y_chan s) (y_net s) (reply_pc rt r (y_now s)) (y_now s) (y_log s).
Proof.
  intros HB. destruct rt, r; cbn [reply_now reply_pc]; unfold again, smol_flush, smol_push, set_pc, set_net; cbn; try reflexivity.
  - now rewrite set_buf_push, HB.
  - rewrite set_buf_same, HB by exact HB. reflexivity.
Qed.

Ltac fin := unfold connected; unfold next, again, end_connect, crash_now, end_run; unfold log, set_state, set_wait, set_chan, set_net, set_pc, set_now; cbn [y_state y_wait y_chan y_net y_pc y_now y_log]; rewrite ?log2; cbn [app map]; rewrite ?app_nil_r; try reflexivity; try (destruct (cf_rt _); reflexivity).
Ltac use l := exists l; do 6 eexists; split; [econstructor; try eassumption; try reflexivity; try solve [fin]|].

Lemma step_cases c e s s' : buf_empty s -> step c e s = Some s' ->
  exists l st w ch n q t, tcase c s e l st w ch n q t /\ s' = next s l st w ch n q t.
Proof.
  intros HB H. unfold buf_empty in HB. destruct e; cbn [step] in H.
  - injection H as <-. use (@nil out). fin.
  - unfold begin_call in H. destruct (pl_open (st_pool (y_state s))) eqn:EO; [|discriminate].
    destruct (client_call _ _ _) as [[p' [[pkt e]|pkt]]|] eqn:EC; try discriminate; injection H as <-.
    + use [OBegin pkt; ORefuse pkt e]. fin.
    + use [OBegin pkt]. fin.
  - unfold send_call in H. destruct (pick i (y_wait s)) as [[p rest]|] eqn:EP; [|discriminate]. destruct (N.ltb_spec (len (y_chan s)) CHANNEL_SIZE); [|discriminate]. injection H as <-.
    use [OAccept p]. fin.
  - unfold give_up in H. destruct (pick i (y_wait s)) as [[p rest]|] eqn:EP; [|discriminate]. injection H as <-. use [OGiveUp p]. fin.
  - unfold drop_clients in H. destruct (y_wait s) eqn:EW; [|discriminate]. injection H as <-. use [ODropClients]. fin. now rewrite EW.
  - destruct (y_pc s) eqn:EP; try discriminate. injection H as <-. use [OConnect]. fin.
  - destruct (y_pc s) eqn:EP; try discriminate. injection H as <-. unfold start_run. destruct (nt_connected (y_net s)) eqn:EN.
    + use [ORun]. fin.
    + use [ORunEnd (inr NoNetwork)]. fin. now rewrite EP.
  - destruct (y_pc s) eqn:EP; try discriminate; injection H as <-.
    + unfold connect_answer. destruct p; try (match goal with |- context [NotConnAck ?p] => use [OAnswer p; OConnectEnd (Some (NotConnAck p))]; fin end).
      destruct (ca_rc c0) eqn:EC; try (match goal with |- context [ConnectionRefused ?r] => use [OAnswer (PConnAck c0); OConnectEnd (Some (ConnectionRefused r))]; [cbn [answer_err]; now rewrite EC|fin] end).
      cbn [y_state set_net log]. fold (cleans c). destruct (handle_incoming_connack _ _ _) as [st [re|he|]] eqn:EH.
      * use [OAnswer (PConnAck c0); OHandle (PConnAck c0)]. fin.
      * exists [OAnswer (PConnAck c0); OConnectEnd (Some (HandlerErr he))]. do 6 eexists. split; [eapply t_conn_err; eassumption|fin].
      * use [OAnswer (PConnAck c0); OPanic]. fin.
    + unfold incoming.
      assert (loop_packet p = None -> forall st r, handle_incoming_packet p (y_state s) = (st, r) -> exists l st0 w ch n q t, tcase c s (EPacket p) l st0 w ch n q t /\ (
        let s := set_state st (log [ORead p] s) in
        match r with
        | HErr e => end_run (cf_rt c) (inr (HandlerErr e)) s
        | HPanic => crash_now s
        | HOk (reply, true) => log [OHandle p] (set_pc (PHandle (AfterPacket reply)) s)
        | HOk (reply, false) => reply_now (cf_rt c) reply s
        end) = next s l st0 w ch n q t) as HG.
      { intros EL st r EH. cbn zeta. destruct r as [[reply []]|he|].
        - exists [ORead p; OHandle p]. do 6 eexists. split; [eapply t_read; eassumption|fin].
        - exists [ORead p]. do 6 eexists. split; [eapply t_read_quiet; eassumption|]. rewrite reply_now_next by exact HB. fin.
        - exists [ORead p; ORunEnd (inr (HandlerErr he))]. do 6 eexists. split; [eapply t_read_err; eassumption|fin].
        - exists [ORead p; OPanic]. do 6 eexists. split; [eapply t_read_panic; eassumption|fin]. }
      destruct p; try (cbn [y_state log]; match goal with |- context [handle_incoming_packet ?p ?st] => destruct (handle_incoming_packet p st) as [st' r] eqn:EH; exact (HG eq_refl st' r eq_refl) end).
      * use [ORead PPingResp; OHandle PPingResp]. fin.
      * use [ORead (PDisconnect d); OHandle (PDisconnect d)]. fin.
  - destruct (y_pc s) eqn:EP; try discriminate; injection H as <-. use (@nil out). destruct (cf_rt c); fin. rewrite <- EP. now destruct s.
  - destruct (y_pc s) eqn:EP; try discriminate; injection H as <-; [use [OConnectEnd (Some e)]; fin|use [ORunEnd (inr e)]; fin].
  - destruct (y_pc s) eqn:EP; try discriminate. unfold outgoing in H. destruct (y_chan s) eqn:EC.
    + destruct (pl_open (st_pool (y_state s))) eqn:EO; [discriminate|]. injection H as <-. use [ORunEnd (inr NoOutgoingPacketSender)]. fin.
    + injection H as <-. use (@nil out). fin.
  - destruct (y_pc s) eqn:EP; try discriminate. unfold timer, tokio_timer, smol_timer in H.
    assert (match cf_rt c with Tokio => tokio_deadline (y_net s) | Smol => smol_deadline since (y_net s) end <= y_now s /\
      match nt_await (y_net s) with
      | None => if nt_perform (y_net s) then Some (set_pc PPing s) else match cf_rt c with Tokio => None | Smol => Some (set_pc PBye s) end
      | Some _ => Some (set_pc PBye s)
      end = Some s') as [HD HS].
    { destruct (cf_rt c).
      - destruct (N.ltb_spec (y_now s) (tokio_deadline (y_net s))); [discriminate|]. split; [assumption|exact H].
      - destruct (N.ltb_spec (y_now s) (smol_deadline since (y_net s))); [discriminate|]. split; [assumption|exact H]. }
    clear H. destruct (nt_await (y_net s)) eqn:EA; [|destruct (nt_perform (y_net s)) eqn:EF].
    + injection HS as <-. exists []. do 6 eexists. split; [eapply t_bye; [eassumption|left; congruence|exact HD]|]. fin.
    + injection HS as <-. exists []. do 6 eexists. split; [eapply t_ping; eassumption|]. fin.
    + destruct (cf_rt c) eqn:ER; [discriminate|]. injection HS as <-. exists []. do 6 eexists. split; [eapply t_bye; [eassumption|right; auto|rewrite ER; exact HD]|]. fin.
  - destruct (y_pc s) eqn:EP; try discriminate; injection H as <-.
    + destruct re; [use [OHandled]; fin|use [OHandled; OConnectEnd None]; fin].
    + unfold handled. destruct a.
      * exists [OHandled]. do 6 eexists. split; [eapply t_handled_ping; eassumption|]. destruct (cf_rt c); fin.
        unfold smol_flush. fin. cbn [reply_pc opt_list]. rewrite set_buf_same by exact HB. cbn. rewrite HB. reflexivity.
      * use [OHandled; ORunEnd (inl IncomingDisconnect)]. fin.
      * exists [OHandled]. do 6 eexists. split; [eapply t_handled; eassumption|]. rewrite reply_now_next by exact HB. fin.
  - destruct (y_pc s) eqn:EP; try discriminate; injection H as <-.
    + destruct (write_result _ _ _) as [e|] eqn:EW.
      * use [OWriteFail FromConnect (create_connect (nt_opts (y_net s))); OConnectEnd (Some e)]. fin.
      * use [OWrite FromConnect (create_connect (nt_opts (y_net s)))]. fin.
    + unfold reply_written. destruct (write_result _ _ _) as [e|] eqn:EW; [use [OWriteFail FromReply p; ORunEnd (inr e)]; fin|use [OWrite FromReply p]; fin].
    + unfold flushed. destruct (smol_write_all ps ok) as [e|] eqn:EW.
      * use (smol_writes FromReply ps ok ++ [ORunEnd (inr e)]). fin.
      * use (smol_writes FromReply ps ok). fin.
    + unfold request_written. destruct (write_result _ _ _) as [e|] eqn:EW; [use [OWriteFail FromClient p; ORunEnd (inr e)]; fin|].
      cbn [y_state log]. destruct (handle_outgoing_packet p (y_state s)) as [st [u|he|]] eqn:EH.
      * destruct (type_of p) eqn:ET; try (exists [OWrite FromClient p]; do 6 eexists; split; [eapply t_request; try eassumption; congruence|fin]).
        exists [OWrite FromClient p; ORunEnd (inl OutgoingDisconnect)]. do 6 eexists. split; [eapply t_disconnect; eassumption|fin].
      * exists [OWrite FromClient p; ORunEnd (inr (HandlerErr he))]. do 6 eexists. split; [eapply t_request_err; eassumption|fin].
      * exists [OWrite FromClient p; OPanic]. do 6 eexists. split; [eapply t_request_panic; eassumption|fin].
    + unfold ping_written. destruct (write_result _ _ _) as [e|] eqn:EW; [use [OWriteFail FromTimer PPingReq; ORunEnd (inr e)]; fin|use [OWrite FromTimer PPingReq]; fin].
    + unfold bye_written. destruct (write_result _ _ _) as [e|] eqn:EW; [use [OWriteFail FromTimer bye; ORunEnd (inr e)]; fin|use [OWrite FromTimer bye; ORunEnd (inl KeepAliveTimeout)]; fin].
  - destruct (y_pc s) eqn:EP; try discriminate; injection H as <-. unfold connect_resend. destruct (cf_rt c) eqn:ER.
    + destruct ok; eexists; do 6 eexists; (split; [first [eapply t_resend_tokio; eassumption|eapply t_resend_tokio_fail; eassumption]|fin]).
    + destruct (smol_write_all re ok) as [e|] eqn:EW; eexists; do 6 eexists; (split; [first [eapply t_resend_smol; eassumption|eapply t_resend_smol_fail; eassumption]|fin]).
Qed.

Lemma tcase_buf c s e l st w ch n q t : buf_empty s -> tcase c s e l st w ch n q t -> nt_buf n = [].
Proof.
  unfold buf_empty. intros HB H. destruct H; try exact HB; unfold end_net, apply_connack; try (destruct (cf_rt c)); try reflexivity; try exact HB; cbn; try exact HB.
Qed.
Lemma exec_app c es1 es2 s : exec c (es1 ++ es2) s = match exec c es1 s with Some t => exec c es2 t | None => None end.
Proof. revert s. induction es1 as [|e es1 IH]; intros s; cbn [app exec]; [reflexivity|]. destruct (step c e s); [apply IH|reflexivity]. Qed.
Lemma reachable_step c e s s' : reachable c s -> step c e s = Some s' -> reachable c s'.
Proof. intros [es H] HS. exists (es ++ [e]). rewrite exec_app, H. cbn. now rewrite HS. Qed.
Lemma reachable_ind2 c (P : sys -> Prop) : P (init c) -> (forall s e s', reachable c s -> P s -> step c e s = Some s' -> P s') ->
  forall s, reachable c s -> P s.
Proof.
  intros H0 HS s [es H]. revert s H. induction es as [|e es IH] using rev_ind; intros s H.
  - cbn in H. injection H as <-. exact H0.
  - rewrite exec_app in H. destruct (exec c es (init c)) as [t|] eqn:E; [|discriminate]. cbn in H.
    destruct (step c e t) as [t'|] eqn:ES; [|discriminate]. injection H as <-. eapply HS; [|apply IH; reflexivity|exact ES]. now exists es.
Qed.
Lemma reachable_buf c s : reachable c s -> buf_empty s.
Proof.
  revert s. apply reachable_ind2; [reflexivity|]. intros s e s' _ HB HS.
  destruct (step_cases _ _ _ _ HB HS) as (l & st & w & ch & n & q & t & HT & ->). exact (tcase_buf _ _ _ _ _ _ _ _ _ _ HB HT).
Qed.
Lemma next_trace s l st w ch n q t : trace (next s l st w ch n q t) = trace s ++ l.
Proof. unfold trace, next. cbn. now rewrite map_app, map_map, map_id. Qed.

(* induction over reachable states, with the transitions listed above *)
Lemma sys_ind c (P : sys -> Prop) : config_ok c -> P (init c) ->
  (forall s e l st w ch n q t, reachable c s -> inv c s -> P s -> tcase c s e l st w ch n q t -> inv c (next s l st w ch n q t) -> P (next s l st w ch n q t)) ->
  forall s, reachable c s -> P s.
Proof.
  intros HC H0 HS. apply reachable_ind2; [exact H0|]. intros s e s' HR HP H.
  destruct (step_cases _ _ _ _ (reachable_buf _ _ HR) H) as (l & st & w & ch & n & q & t & HT & ->).
  eapply HS; eauto using inv_reachable, reachable_step.
Qed.
Lemma step_tcase c e s s' : reachable c s -> step c e s = Some s' ->
  exists l st w ch n q t, tcase c s e l st w ch n q t /\ s' = next s l st w ch n q t.
Proof. intros HR H. eapply step_cases; [eapply reachable_buf; eassumption|exact H]. Qed.
