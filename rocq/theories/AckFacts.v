(* What the session says to each acknowledgement, and how single steps change pool and ledger. *)
From Coq Require Import Permutation.
From Verif Require Import Base VarInt Prims Props Codes Packets BaseFacts Options Session Client System SpecSession SessionFacts SystemFacts.

Lemma bad_ack_off rmax p : bad_ack rmax p = match p with PPubAck a | PPubRec a => off_table rmax (ak_id a) | _ => false end.
Proof. now destruct p. Qed.

Definition reply_to (p : packet) : option packet :=
  match p with
  | PPubRec a => if rec_accepts (ak_rc a) then Some (PPubRel (Ack (ak_id a) RSuccess no_props)) else None
  | _ => None
  end.
Definition is_rec (p : packet) : bool := match p with PPubRec _ => true | _ => false end.

Lemma set_same_sub st : State (st_pool st) (st_sub st) (st_unsub st) (st_pub st) (st_order st) (st_rel st) (st_in st) = st.
Proof. now destruct st. Qed.

Lemma ack_result rmax st g p st' r :
  R rmax st (lg_sent g) (lg_rel g) -> fine (lg_sent g) (lg_rel g) -> pl_open (st_pool st) = lg_clients g ->
  len (pl_ids (st_pool st)) + len (req_ids (lg_sent g) ++ lg_rel g) <= pl_cap (st_pool st) ->
  handle_incoming_packet p st = (st', r) -> is_ack p = true -> bad_ack rmax p = false ->
  if awaited g p
  then r = (if lg_clients g || is_rec p then HOk (reply_to p, true)
            else match ack_id p with Some i => HErr (PacketIdChannelError i) | None => HPanic end)
  else st' = st /\ match ack_id p with Some i => r = HErr (Unsolicited i (type_of p)) | None => False end.
Proof.
  intros HR HF HO HL H HA HB. destruct g as [op se re lo cl ex er]. cbn [lg_sent lg_rel lg_clients] in *.
  pose proof (fine_nodup _ _ HF) as [HN HN2]. pose proof (proj1 HF) as HI.
  assert (forall k i, existsb (fun p => k p && has_id i p) se = true -> room [i] st) as RM.
  { intros k i E. apply (room_one st (Ledger op se re lo cl ex er) i HL). cbn [lg_sent lg_rel]. apply in_or_app. left.
    apply existsb_exists in E as (q & Hq & E). apply andb_true_iff in E as [_ E]. apply has_id_spec in E. apply in_req_ids. eauto. }
  destruct p as [c|c|x|a|a|a|a|s|s|u|u| | |d|d]; try discriminate HA; cbn [bad_ack awaited lg_sent lg_rel ack_id type_of is_rec reply_to] in *;
    cbn [handle_incoming_packet] in H.
  - (* PUBACK *)
    pose proof (remove_pub_spec _ _ _ _ (ak_id a) HR HF) as RS.
    unfold mbind at 1 in H. unfold handle_incoming_puback, mbind at 1 in H. rewrite HB in RS.
    rewrite (existsb_ext2 _ _ _ (answers_puback a)). fold (found (ak_id a) se). destruct (found (ak_id a) se) eqn:EF.
    + destruct RS as (st1 & y & E1 & E2 & E3 & E4). rewrite E1 in H. cbn [is_some] in H.
      unfold mbind, make_pkid_available in H. rewrite mark_spec in H.
      2:{ unfold room. rewrite E2. apply (RM _ _ EF). }
      rewrite E2, HO in H. destruct cl; injection H as <- <-; reflexivity.
    + rewrite RS in H. injection H as <- <-. auto.
  - (* PUBREC *)
    pose proof (remove_pub_spec _ _ _ _ (ak_id a) HR HF) as RS.
    unfold mbind at 1 in H. unfold handle_incoming_pubrec, mbind at 1 in H. rewrite HB in RS.
    rewrite (existsb_ext2 _ _ _ (answers_pubrec a)). fold (found (ak_id a) se). destruct (found (ak_id a) se) eqn:EF.
    + destruct RS as (st1 & y & E1 & E2 & E3 & E4). rewrite E1 in H. rewrite orb_true_r.
      destruct (ak_rc a); cbn [rec_accepts] in *; unfold mbind, add_outgoing_rel, ret in H; try (injection H as <- <-; reflexivity);
        destruct (set_insert (ak_id a) (st_rel st1)); injection H as <- <-; reflexivity.
    + rewrite RS in H. injection H as <- <-. auto.
  - (* PUBCOMP *)
    pose proof (R_rel _ _ _ _ (ak_id a) HR) as [RR RF].
    unfold mbind at 1 in H. unfold handle_incoming_pubcomp, mbind at 1, remove_outgoing_rel in H.
    destruct (existsb (N.eqb (ak_id a)) re) eqn:EF.
    + destruct (set_remove (ak_id a) (st_rel st)) as [l b] eqn:ES. cbn [fst snd] in RR, RF. subst b.
      unfold mbind, make_pkid_available in H. rewrite mark_spec in H.
      2:{ apply (room_one st (Ledger op se re lo cl ex er) (ak_id a) HL). cbn [lg_sent lg_rel]. apply in_or_app. right. now apply existsb_in. }
      cbn [st_pool] in H. rewrite HO in H. destruct cl; injection H as <- <-; reflexivity.
    + rewrite remove_flag in RF. apply existsb_not_in in RF. rewrite (remove_absent _ _ RF) in H.
      rewrite set_same_sub in H. injection H as <- <-. auto.
  - (* SUBACK *)
    pose proof (R_sub _ _ _ _ (sa_id s) HR HN) as [RR RF].
    unfold mbind at 1 in H. unfold handle_incoming_suback, mbind at 1, remove_outgoing_sub in H.
    rewrite (existsb_ext2 _ _ _ (answers_suback s)). 
    destruct (existsb (fun p => is_sub p && has_id (sa_id s) p) se) eqn:EF.
    + destruct (set_remove (sa_id s) (st_sub st)) as [l b] eqn:ES. cbn [fst snd] in RR, RF. subst b.
      unfold mbind, make_pkid_available in H. rewrite mark_spec in H by exact (RM _ _ EF).
      cbn [st_pool] in H. rewrite HO in H. destruct cl; injection H as <- <-; reflexivity.
    + rewrite remove_flag in RF. apply existsb_not_in in RF. rewrite (remove_absent _ _ RF) in H.
      rewrite set_same_sub in H. injection H as <- <-. auto.
  - (* UNSUBACK *)
    pose proof (R_unsub _ _ _ _ (sa_id u) HR HN) as [RR RF].
    unfold mbind at 1 in H. unfold handle_incoming_unsuback, mbind at 1, remove_outgoing_unsub in H.
    rewrite (existsb_ext2 _ _ _ (answers_unsuback u)). 
    destruct (existsb (fun p => is_unsub p && has_id (sa_id u) p) se) eqn:EF.
    + destruct (set_remove (sa_id u) (st_unsub st)) as [l b] eqn:ES. cbn [fst snd] in RR, RF. subst b.
      unfold mbind, make_pkid_available in H. rewrite mark_spec in H by exact (RM _ _ EF).
      cbn [st_pool] in H. rewrite HO in H. destruct cl; injection H as <- <-; reflexivity.
    + rewrite remove_flag in RF. apply existsb_not_in in RF. rewrite (remove_absent _ _ RF) in H.
      rewrite set_same_sub in H. injection H as <- <-. auto.
Qed.

(* ---- what a step adds to the trace ------------------------------------------------------------ *)
(* one observation that concerns requests at most, and it comes first *)
Definition one_step (l : list out) : Prop :=
  forallb neutral l = true \/ (exists o l', l = o :: l' /\ forallb neutral l' = true) \/
  (exists p e, l = [OBegin p; ORefuse p e]).

Ltac obs l0 := exists l0; split; [try (now tr)|try (left; reflexivity); try (right; left; do 2 eexists; split; [reflexivity|reflexivity])].

Lemma trace_reply_now rt r s : trace (reply_now rt r s) = trace s.
Proof. now destruct rt, r. Qed.

Lemma step_obs c e s s' : step c e s = Some s' -> exists l, trace s' = trace s ++ l /\ one_step l.
Proof.
  intros H. destruct e; cbn [step] in H.
  - injection H as <-. exists []. split; [now rewrite app_nil_r|left; reflexivity].
  - unfold begin_call in H. destruct (pl_open _); [|discriminate]. destruct (client_call _ _ _) as [[p' [[pkt e]|pkt]]|]; try discriminate; injection H as <-.
    + exists [OBegin pkt; ORefuse pkt e]. split; [now tr|]. right; right. eauto.
    + obs [OBegin pkt].
  - unfold send_call in H. destruct (pick i (y_wait s)) as [[p rest]|]; [|discriminate]. destruct (_ <? _); [|discriminate]. injection H as <-. obs [OAccept p].
  - unfold give_up in H. destruct (pick i (y_wait s)) as [[p rest]|]; [|discriminate]. injection H as <-. obs [OGiveUp p].
  - unfold drop_clients in H. destruct (y_wait s); [|discriminate]. injection H as <-. obs [ODropClients].
  - destruct (y_pc s); try discriminate. injection H as <-. obs [OConnect].
  - destruct (y_pc s); try discriminate. injection H as <-. unfold start_run. destruct (nt_connected _); [obs [ORun]|obs [ORunEnd (inr NoNetwork)]].
  - destruct (y_pc s); try discriminate; injection H as <-.
    + unfold connect_answer. destruct p; try (match goal with |- context [NotConnAck ?p] => obs [OAnswer p; OConnectEnd (Some (NotConnAck p))] end).
      destruct (ca_rc c0) eqn:EC; try (match goal with |- context [ConnectionRefused ?r] => obs [OAnswer (PConnAck c0); OConnectEnd (Some (ConnectionRefused r))] end).
      cbn [y_state set_net log]. destruct (handle_incoming_connack _ _ _) as [st [re|he|]].
      * obs [OAnswer (PConnAck c0); OHandle (PConnAck c0)].
      * obs [OAnswer (PConnAck c0); OConnectEnd (Some (HandlerErr he))].
      * obs [OAnswer (PConnAck c0); OPanic].
    + unfold incoming.
      assert (forall st r, exists l, trace (
        let s := set_state st (log [ORead p] s) in
        match r with
        | HErr e => end_run (cf_rt c) (inr (HandlerErr e)) s
        | HPanic => crash_now s
        | HOk (reply, true) => log [OHandle p] (set_pc (PHandle (AfterPacket reply)) s)
        | HOk (reply, false) => reply_now (cf_rt c) reply s
        end) = trace s ++ l /\ one_step l) as HG.
      { intros st r. destruct r as [[reply []]|he|].
        - obs [ORead p; OHandle p]. - obs [ORead p]. rewrite trace_reply_now. now tr.
        - obs [ORead p; ORunEnd (inr (HandlerErr he))]. - obs [ORead p; OPanic]. }
      destruct p; try (cbn [y_state log]; match goal with |- context [handle_incoming_packet ?p ?st] => destruct (handle_incoming_packet p st) as [st' r]; exact (HG st' r) end).
      * obs [ORead PPingResp; OHandle PPingResp].
      * obs [ORead (PDisconnect d); OHandle (PDisconnect d)].
  - destruct (y_pc s); try discriminate; injection H as <-. exists []. split; [|left; reflexivity]. rewrite app_nil_r. now destruct (cf_rt c).
  - destruct (y_pc s); try discriminate; injection H as <-; [obs [OConnectEnd (Some e)]|obs [ORunEnd (inr e)]].
  - destruct (y_pc s); try discriminate. unfold outgoing in H. destruct (y_chan s).
    + destruct (pl_open _); [discriminate|]. injection H as <-. obs [ORunEnd (inr NoOutgoingPacketSender)].
    + injection H as <-. obs (@nil out). now rewrite app_nil_r.
  - destruct (y_pc s); try discriminate. unfold timer, tokio_timer, smol_timer in H.
    destruct (cf_rt c); [destruct (_ <? _); [discriminate|]|destruct (_ <? _); [discriminate|]];
      (destruct (nt_await (y_net s)); [|destruct (nt_perform (y_net s))]); try discriminate; injection H as <-; (obs (@nil out); now rewrite app_nil_r).
  - destruct (y_pc s); try discriminate; injection H as <-.
    + destruct re; [obs [OHandled]|obs [OHandled; OConnectEnd None]].
    + unfold handled. destruct a.
      * destruct (cf_rt c); obs [OHandled].
      * obs [OHandled; ORunEnd (inl IncomingDisconnect)].
      * obs [OHandled]. rewrite trace_reply_now. now tr.
  - destruct (y_pc s); try discriminate; injection H as <-.
    + destruct (write_result _ _ _) as [e|].
      * obs [OWriteFail FromConnect (create_connect (nt_opts (y_net s))); OConnectEnd (Some e)].
      * obs [OWrite FromConnect (create_connect (nt_opts (y_net s)))].
    + unfold reply_written. destruct (write_result _ _ _) as [e|]; [obs [OWriteFail FromReply p; ORunEnd (inr e)]|obs [OWrite FromReply p]].
    + unfold flushed. pose proof (neutral_smol_writes FromReply ps ok ltac:(discriminate)) as HN. destruct (smol_write_all ps ok) as [e|].
      * obs (smol_writes FromReply ps ok ++ [ORunEnd (inr e)]). left. rewrite forallb_app, HN. reflexivity.
      * obs (smol_writes FromReply ps ok). left. exact HN.
    + unfold request_written. destruct (write_result _ _ _) as [e|]; [obs [OWriteFail FromClient p; ORunEnd (inr e)]|].
      cbn [y_state log]. destruct (handle_outgoing_packet _ _) as [st [u|he|]].
      * destruct (type_of p); first [solve [obs [OWrite FromClient p]]|obs [OWrite FromClient p; ORunEnd (inl OutgoingDisconnect)]].
      * obs [OWrite FromClient p; ORunEnd (inr (HandlerErr he))].
      * obs [OWrite FromClient p; OPanic].
    + unfold ping_written. destruct (write_result _ _ _) as [e|]; [obs [OWriteFail FromTimer PPingReq; ORunEnd (inr e)]|obs [OWrite FromTimer PPingReq]].
    + unfold bye_written. destruct (write_result _ _ _) as [e|]; [obs [OWriteFail FromTimer bye; ORunEnd (inr e)]|obs [OWrite FromTimer bye; ORunEnd (inl KeepAliveTimeout)]].
  - destruct (y_pc s); try discriminate; injection H as <-. unfold connect_resend. destruct (cf_rt c).
    + pose proof (neutral_writes FromResend re oks ltac:(discriminate)) as HN. destruct ok.
      * obs (tokio_writes FromResend re oks ++ [OConnectEnd None]). left. rewrite forallb_app, HN; reflexivity.
      * obs (tokio_writes FromResend re oks ++ [OConnectEnd (Some Io)]). left. rewrite forallb_app, HN; reflexivity.
    + pose proof (neutral_smol_writes FromResend re ok ltac:(discriminate)) as HN. destruct (smol_write_all re ok) as [e|].
      * obs (smol_writes FromResend re ok ++ [OConnectEnd (Some e)]). left. rewrite forallb_app, HN; reflexivity.
      * obs (smol_writes FromResend re ok ++ [OConnectEnd None]). left. rewrite forallb_app, HN; reflexivity.
Qed.
