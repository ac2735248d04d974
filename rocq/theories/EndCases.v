(* Concrete executions for P_End.v *)
From Verif Require Import Base VarInt Prims Props Codes Packets BaseFacts SpecCodec SpecOptions Options Session Client System SpecSession SpecNet SpecTrace SpecOut SmolStream TokioRead Wire SpecEnd.
From Verif Require Import CodecFacts SessionFacts IdMore Scenario LoopCases Cases OutFacts OutMore OutCases.
From Verif Require Check.

(* ---- each result ----------------------------------------------------------------------------- *)
Definition ec_off : packet := PDisconnect (Disconnect RNormalDisconnection no_props).
Definition ec_run : list (list event * (status + cerr)) :=
  [(sc_connect false ++ [EPacket ec_off; EHandled], inl IncomingDisconnect);
   (sc_connect false ++ sc_do call_disconnect, inl OutgoingDisconnect);
   (sc_connect false ++ [ETick 60000000000; ETimer; EWrite true; ETick 90000000000; ETimer; EWrite true], inl KeepAliveTimeout);
   ([ERun], inr NoNetwork);
   (sc_connect false ++ [EDropClients; EOutgoing], inr NoOutgoingPacketSender);
   (sc_connect false ++ [EPacket (PPubAck (sc_ack 5))], inr (HandlerErr (Unsolicited 5 TPubAck)));
   (sc_connect false ++ [EReadErr Io], inr Io);
   (sc_connect false ++ [ECall (sc_pub AtMostOnce); ESend 0; EOutgoing; EWrite false], inr Io);
   (sc_connect false ++ [EReadErr DeserializationError], inr DeserializationError)].
Definition ec_connect : list (list event * cerr) :=
  [([EConnect; EWrite true; EPacket (PConnAck (ConnAck false RBanned no_props))], ConnectionRefused RBanned);
   ([EConnect; EWrite true; EPacket PPingResp], NotConnAck PPingResp);
   ([EConnect; EWrite false], Io);
   ([EConnect; EWrite true; EReadErr DeserializationError], DeserializationError);
   (sc_connect false ++ sc_do (sc_pub AtLeastOnce) ++ [EReadErr Io; EDropClients; EConnect; EWrite true; EPacket (sc_connack false)], HandlerErr (PacketIdChannelError 1))].
Definition last_out (l : list out) : option out := match rev l with o :: _ => Some o | [] => None end.
Lemma last_out_split l o : last_out l = Some o -> l = removelast l ++ [o].
Proof. unfold last_out. intros H. destruct l as [|a l] using rev_ind; [discriminate|]. rewrite rev_app_distr in H. injection H as ->. now rewrite removelast_last. Qed.
Ltac realb := repeat (apply Forall_cons; [first [exact I|now left|now right]|]); apply Forall_nil.
Lemma run_cases : forall rt, config_ok (lc_cfg rt) /\ Forall (fun x => Forall real (fst x) /\ exists s l1, exec (lc_cfg rt) (fst x) (init (lc_cfg rt)) = Some s /\ trace s = l1 ++ [ORunEnd (snd x)]) ec_run.
Proof.
  intros rt. split; [destruct rt; cfg|]. unfold ec_run.
  repeat (apply Forall_cons; [cbn [fst snd]; split; [unfold sc_connect, sc_do; cbn [app]; realb|];
    match goal with |- exists s l1, exec ?c ?es _ = _ /\ _ => exists (run_to c es), (removelast (trace (run_to c es))) end;
    (split; [apply run_exec; destruct rt; vm_compute; reflexivity|apply last_out_split; destruct rt; vm_compute; reflexivity])|]). apply Forall_nil.
Qed.
Lemma connect_cases : forall rt, config_ok (lc_cfg rt) /\
  Forall (fun x => Forall real (fst x) /\ exists s l1, exec (lc_cfg rt) (fst x) (init (lc_cfg rt)) = Some s /\ trace s = l1 ++ [OConnectEnd (Some (snd x))]) ec_connect.
Proof.
  intros rt. split; [destruct rt; cfg|]. unfold ec_connect.
  repeat (apply Forall_cons; [cbn [fst snd]; split; [unfold sc_connect, sc_do; cbn [app]; realb|];
    match goal with |- exists s l1, exec ?c ?es _ = _ /\ _ => exists (run_to c es), (removelast (trace (run_to c es))) end;
    (split; [apply run_exec; destruct rt; vm_compute; reflexivity|apply last_out_split; destruct rt; vm_compute; reflexivity])|]). apply Forall_nil.
Qed.

(* ---- a DISCONNECT and a CONNECT that are too large for MQTT: 60 million empty user properties -------------- *)
Definition with_users (u : list (bytes * bytes)) : props :=
  Props None None None None None None None None None None None None None None None None None None None None
    None None u None None None None [].
Definition users (n : nat) : props := with_users (repeat ([], []) n).
Lemma empty_ok : str_ok [].
Proof. split; [exists []; split; [apply Forall_nil|reflexivity]|cbn; discriminate]. Qed.
Lemma users_ok cfg n : In UserProperty (c_decl cfg) -> c_sublist cfg = false -> props_ok cfg (users n).
Proof.
  intros HI HS. split; [intros t v H; destruct t; discriminate H|]. split.
  { cbn [user_properties users with_users]. apply Forall_forall. intros x Hx. apply repeat_spec in Hx. subst x. cbn [fst snd]. split; exact empty_ok. }
  split; [auto|]. split; [constructor|]. split; [intros H; now elim H|]. rewrite HS. discriminate.
Qed.
Lemma sum_in (f : ptype -> N) l t : In t l -> f t <= fold_right N.add 0 (map f l).
Proof. induction l as [|a l IH]; [intros []|]. cbn. intros [->|H]; [lia|]. specialize (IH H). lia. Qed.
Lemma users_sum n : fold_right N.add 0 (map (fun v => 1 + val_len v) (map (fun kv => VPair (fst kv) (snd kv)) (repeat (([], []) : bytes * bytes) n))) = 5 * N.of_nat n.
Proof. induction n as [|n IH]; [reflexivity|]. cbn [repeat map fold_right]. rewrite IH. cbn [val_len fst snd]. unfold str_len. change (len (@nil N)) with 0. lia. Qed.
Lemma users_len cfg n : In UserProperty (c_decl cfg) -> 5 * N.of_nat n <= props_len cfg (users n).
Proof.
  intros HI. unfold props_len. pose proof (sum_in (type_len cfg (users n)) _ _ HI) as H. cbn [type_len items user_properties users with_users] in H. rewrite users_sum in H. exact H.
Qed.
Lemma too_long rt p : MAXVAR < body_len p -> exists x, ser_err rt p = Some x.
Proof.
  intros H. unfold ser_err. destruct rt.
  - destruct (w_err (awrite_packet p)) eqn:E; [eauto|]. apply awrite_ok_len in E. lia.
  - destruct (w_err (write_packet p)) eqn:E; [eauto|]. apply write_ok_len in E. lia.
Qed.
Definition ec_big (n : nat) : disconnect := Disconnect RNormalDisconnection (users n).
Lemma big_len n : 60000000 <= N.of_nat n -> MAXVAR < body_len (PDisconnect (ec_big n)).
Proof.
  intros H. assert (In UserProperty (c_decl disconnect_cfg)) as HI by (cbn; tauto). pose proof (users_len disconnect_cfg n HI) as HL. cbn [body_len]. unfold disconnect_len, disconnect_body, section_len, MAXVAR.
  cbn [dc_rc dc_props ec_big]. replace (props_len disconnect_cfg (users n) =? 0) with false by lia. rewrite orb_true_r. lia.
Qed.
Lemma big_request rt d : exists s, exec (lc_cfg rt) (sc_connect false ++ [ECall (CDisconnect d); ESend 0; EOutgoing]) (init (lc_cfg rt)) = Some s /\ y_pc s = PRequest (PDisconnect d).
Proof. destruct rt; eexists; (split; [vm_compute; reflexivity|reflexivity]). Qed.
Lemma serialise_case : forall rt, exists es s l1 x, config_ok (lc_cfg rt) /\ built (lc_cfg rt) /\ Forall event_ok es /\ Forall real es /\ exec (lc_cfg rt) es (init (lc_cfg rt)) = Some s /\
  trace s = l1 ++ [ORunEnd (inr (SerializationError x))].
Proof.
  intros rt. assert (exists n, 60000000 <= N.of_nat n) as [n Hn] by (exists (N.to_nat 60000000); rewrite N2Nat.id; lia). pose proof (big_len n Hn) as HB.
  destruct (too_long rt _ HB) as [x HX]. destruct (big_request rt (ec_big n)) as (s & HS & HP).
  assert (step (lc_cfg rt) (EWrite true) s = Some (request_written rt (PDisconnect (ec_big n)) true s)) as HW by (cbn [step]; rewrite HP; reflexivity).
  eexists ((sc_connect false ++ [ECall (CDisconnect (ec_big n)); ESend 0; EOutgoing]) ++ [EWrite true]), _, (trace s ++ [OWriteFail FromClient (PDisconnect (ec_big n))]), x.
  split; [destruct rt; cfg|]. split; [apply lc_built|]. split; [|split; [unfold sc_connect; cbn [app]; realb|]].
  - unfold sc_connect. cbn [app]. repeat (apply Forall_cons; [first [exact I|apply connack_fine|idtac]|]); try apply Forall_nil. split; [cbn; tauto|]. apply users_ok; [cbn; tauto|reflexivity].
  - rewrite exec_app, HS. cbn [exec]. rewrite HW. split; [reflexivity|]. unfold request_written, write_result. rewrite HX. unfold end_run, log, trace.
    destruct rt; cbn; rewrite ?map_app; cbn; now rewrite <- app_assoc.
Qed.
Definition ec_will (n : nat) : will := Will AtMostOnce false (users n) [116] [].
Definition ec_cfg (rt : runtime) (n : nat) : config := Config rt (configure [] [SetWill (ec_will n); SetCleanStart false; SetReceiveMax 10; SetSendMax 10]).
Lemma will_long rt n : 60000000 <= N.of_nat n -> MAXVAR < body_len (create_connect (cf_opts (ec_cfg rt n))).
Proof.
  intros H. assert (In UserProperty (c_decl will_cfg)) as HI by (cbn; tauto). pose proof (users_len will_cfg n HI) as HL.
  change (MAXVAR < str_len mqtt_name + 1 + 1 + 2 + section_len connect_cfg (option_props (cf_opts (ec_cfg rt n))) + will_len (ec_will n) + 0 + 0 + str_len []).
  unfold will_len, section_len, MAXVAR. cbn [wl_props ec_will]. lia.
Qed.
Lemma connect_serialise_case : forall rt, exists c es s l1 x, cf_rt c = rt /\ config_ok c /\ built c /\ Forall event_ok es /\ Forall real es /\ exec c es (init c) = Some s /\
  trace s = l1 ++ [OConnectEnd (Some (SerializationError x))].
Proof.
  intros rt. assert (exists n, 60000000 <= N.of_nat n) as [n Hn] by (exists (N.to_nat 60000000); rewrite N2Nat.id; lia). pose proof (will_long rt n Hn) as HB.
  destruct (too_long rt _ HB) as [x HX]. set (p := create_connect (cf_opts (ec_cfg rt n))) in *.
  exists (ec_cfg rt n), [EConnect; EWrite true], (end_connect (Some (SerializationError x)) (log [OWriteFail FromConnect p] (log [OConnect] (set_pc PConnWrite (init (ec_cfg rt n)))))), [OConnect; OWriteFail FromConnect p], x.
  split; [reflexivity|]. split; [split; cbn; lia|]. split.
  { exists [], [SetWill (ec_will n); SetCleanStart false; SetReceiveMax 10; SetSendMax 10]. split; [exact empty_ok|]. split; [|reflexivity].
    repeat (apply Forall_cons; [first [exact I|reflexivity|split; [apply users_ok; [cbn; tauto|reflexivity]|split; [split; [now apply ascii_ok|cbn; discriminate]|split; [constructor|cbn; discriminate]]]]|]). apply Forall_nil. }
  split; [repeat constructor|]. split; [repeat constructor|]. split; [|reflexivity].
  cbn [exec step init y_pc set_pc log]. unfold write_result. change (cf_rt (ec_cfg rt n)) with rt. change (create_connect _) with p. rewrite HX. reflexivity.
Qed.

(* ---- from bytes: CONNACK, then DISCONNECT in two pieces ------------------------------------------- *)
Definition ec_wire : list wevent :=
  [WEvent EConnect; WEvent (EWrite true); WArrive true [32; 3; 0; 0; 0]; WRead; WEvent EHandled; WEvent (EWrites [] true); WEvent ERun;
   WArrive false [224]; WRead; WArrive false [0]; WRead; WEvent EHandled].
Definition ec_end (rt : runtime) : wire := match wexec (lc_cfg rt) false ec_wire (winit (lc_cfg rt) false) with Some w => w | None => winit (lc_cfg rt) false end.
Lemma wire_case : forall rt, Forall wire_ok ec_wire /\ exists w l1, wexec (lc_cfg rt) false ec_wire (winit (lc_cfg rt) false) = Some w /\ trace (w_sys w) = l1 ++ [ORunEnd (inl IncomingDisconnect)].
Proof.
  intros rt. split.
  - unfold ec_wire. repeat (apply Forall_cons; [first [exact I|cbn [wire_ok]; apply Check.bytesb_ok; reflexivity]|]). apply Forall_nil.
  - exists (ec_end rt), (removelast (trace (w_sys (ec_end rt)))). split; [|apply last_out_split; destruct rt; vm_compute; reflexivity].
    assert (is_some (wexec (lc_cfg rt) false ec_wire (winit (lc_cfg rt) false)) = true) as H by (destruct rt; vm_compute; reflexivity). unfold ec_end. destruct (wexec _ _ _ _); [reflexivity|discriminate H].
Qed.
