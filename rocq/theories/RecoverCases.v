(* Cases for C94. *)
From Verif Require Import Base VarInt Prims Props Codes Packets Options Session Client System SpecCodec SpecSession SpecNet SpecOut SpecRecover Scenario LoopCases CodecMore Witness Cases IdMore OutFacts OutCases BaseFacts SpecOptions SpecTrace SmolStream TokioRead Wire SpecEnd EndCases RecoverFacts.

(* a subscription and a message wait for their acknowledgements, the last handle has been dropped, and an answer is being written *)
Definition rv_events : list event :=
  sc_connect false ++ sc_do sc_sub ++ sc_do (sc_pub AtLeastOnce) ++ [EDropClients; EPacket (PPublish (lc_pub false AtLeastOnce (Some 7))); EHandled].
Definition rv_state (rt : runtime) : sys := run_to (lc_cfg rt) rv_events.

Lemma lc_encodes rt : exists b, encodes (create_connect (cf_opts (lc_cfg rt))) b.
Proof.
  destruct (connect_lawful (lc_cfg rt) (cf_opts (lc_cfg rt)) (lc_built rt) (opts_same _)) as ([HW _] & N1 & _).
  eexists. apply (proj1 (writes_encodings _ HW N1)). destruct rt; vm_compute; reflexivity.
Qed.
Lemma recover_case : forall rt, config_ok (lc_cfg rt) /\ built (lc_cfg rt) /\ (exists b, encodes (create_connect (cf_opts (lc_cfg rt))) b) /\
  reachable (lc_cfg rt) (rv_state rt) /\ (exists p, y_pc (rv_state rt) = PReply p \/ y_pc (rv_state rt) = PFlush [p]) /\ In ODropClients (trace (rv_state rt)) /\ in_flight (now_ledger (lc_cfg rt) (rv_state rt)) = [1; 2] /\
  exists s' l, exec (lc_cfg rt) [EWrite false; EConnect; EWrite true; EPacket (sc_connack false)] (rv_state rt) = Some s' /\ trace s' = l ++ [OAnswer (sc_connack false); OConnectEnd (Some (HandlerErr (PacketIdChannelError 1)))].
Proof.
  intros rt. split; [destruct rt; cfg|]. split; [apply lc_built|]. split; [apply lc_encodes|]. split; [apply run_reachable; destruct rt; vm_compute; reflexivity|].
  split; [eexists; destruct rt; [left|right]; vm_compute; reflexivity|]. split; [destruct rt; vm_compute; tauto|]. split; [destruct rt; vm_compute; reflexivity|].
  eexists _, (trace (rv_state rt) ++ [OWriteFail FromReply (PPubAck (plain_ack 7)); ORunEnd (inr Io); OConnect; OWrite FromConnect (create_connect (cf_opts (lc_cfg rt)))]). split; destruct rt; vm_compute; reflexivity.
Qed.

(* a panic is for good *)
Lemma crash_stays c e s s' : y_pc s = PCrash -> step c e s = Some s' -> y_pc s' = PCrash.
Proof.
  intros E H. destruct e; cbn [step] in H; rewrite ?E in H; try discriminate.
  - injection H as <-. exact E.
  - unfold begin_call in H. destruct (pl_open _); [|discriminate]. destruct (client_call _ _ _) as [[p' [[q x]|q]]|]; [| |discriminate]; injection H as <-; exact E.
  - unfold send_call in H. destruct (pick _ _) as [[p r]|]; [|discriminate]. destruct (_ <? _); [|discriminate]. injection H as <-. exact E.
  - unfold give_up in H. destruct (pick _ _) as [[p r]|]; [|discriminate]. injection H as <-. exact E.
  - unfold drop_clients in H. destruct (y_wait s); [|discriminate]. injection H as <-. exact E.
Qed.
Lemma crash_for_good c es : forall s s', y_pc s = PCrash -> exec c es s = Some s' -> y_pc s' = PCrash.
Proof.
  induction es as [|e es IH]; intros s s' E; cbn [exec]; [intros [= <-]; exact E|]. destruct (step c e s) as [t|] eqn:ES; [|discriminate]. apply IH. exact (crash_stays _ _ _ _ E ES).
Qed.
Lemma recovers_exact c s a : config_ok c -> built c -> reachable c s -> ca_rc a = RSuccess ->
  ((exists es s', Forall (recovery a) es /\ exec c es s = Some s' /\ at_work s' /\ fresh_start a s s') <->
   y_pc s <> PCrash /\ exists b, encodes (create_connect (cf_opts c)) b).
Proof.
  intros HC HB HR HA. split.
  - intros (es & s' & _ & HE & [_ [k HK]] & l0 & l1 & HT). split.
    + intros E. rewrite (crash_for_good _ _ _ _ E HE) in HK. discriminate HK.
    + apply (connectable c HC HB). exists s'. split; [destruct HR as (xs & X); exists (xs ++ es); now rewrite exec_app, X|]. rewrite HT. apply in_or_app. right. apply in_or_app. right. right. right. right. apply in_or_app. right. now left.
  - intros [HN HE]. destruct (recovers c s a HC HB HE HR HN HA) as (es & s' & H1 & H2 & H3 & H4 & _). now exists es, s'.
Qed.
Definition rv_panic : list event := sc_connect false ++ [EPacket (PPubAck (sc_ack 0))].
Lemma panic_stays : forall rt, config_ok (lc_cfg rt) /\ built (lc_cfg rt) /\ (exists b, encodes (create_connect (cf_opts (lc_cfg rt))) b) /\
  exists s, reachable (lc_cfg rt) s /\ forall es s', exec (lc_cfg rt) es s = Some s' -> ~ at_work s'.
Proof.
  intros rt. split; [destruct rt; cfg|]. split; [apply lc_built|]. split; [apply lc_encodes|]. exists (run_to (lc_cfg rt) rv_panic). split; [apply run_reachable; destruct rt; vm_compute; reflexivity|].
  intros es s' HE [_ [k HK]]. assert (y_pc (run_to (lc_cfg rt) rv_panic) = PCrash) as E by (destruct rt; vm_compute; reflexivity). rewrite (crash_for_good _ _ _ _ E HE) in HK. discriminate HK.
Qed.
(* both kinds of state are reached *)
Lemma both_reached : forall rt, config_ok (lc_cfg rt) /\ built (lc_cfg rt) /\ reachable (lc_cfg rt) (rv_state rt) /\ y_pc (rv_state rt) <> PCrash /\
  exists s, reachable (lc_cfg rt) s /\ y_pc s = PCrash.
Proof.
  intros rt. split; [destruct rt; cfg|]. split; [apply lc_built|]. split; [apply run_reachable; destruct rt; vm_compute; reflexivity|]. split; [destruct rt; vm_compute; discriminate|].
  exists (run_to (lc_cfg rt) rv_panic). split; [apply run_reachable|]; destruct rt; vm_compute; reflexivity.
Qed.

(* a will whose user properties are too long for any packet *)
Lemma never_connected : forall rt, exists c, cf_rt c = rt /\ config_ok c /\ built c /\ forall s, reachable c s -> ~ In (OConnectEnd None) (trace s).
Proof.
  intros rt. assert (exists n, 60000000 <= N.of_nat n) as [n Hn] by (exists (N.to_nat 60000000); rewrite N2Nat.id; lia). pose proof (will_long rt n Hn) as HB.
  destruct (too_long rt _ HB) as [x HX].
  assert (built (ec_cfg rt n)) as HU.
  { exists [], [SetWill (ec_will n); SetCleanStart false; SetReceiveMax 10; SetSendMax 10]. split; [exact empty_ok|]. split; [|reflexivity].
    repeat (apply Forall_cons; [first [exact I|reflexivity|split; [apply users_ok; [cbn; tauto|reflexivity]|split; [split; [now apply ascii_ok|cbn; discriminate]|split; [constructor|cbn; discriminate]]]]|]). apply Forall_nil. }
  assert (config_ok (ec_cfg rt n)) as HC by (split; cbn; lia).
  exists (ec_cfg rt n). split; [reflexivity|]. split; [exact HC|]. split; [exact HU|]. intros s HR HI.
  pose proof (proj1 (connectable _ HC HU) (ex_intro _ s (conj HR HI))) as HE. pose proof (connect_ser _ _ HU HE (opts_same _)) as HS.
  change (cf_rt (ec_cfg rt n)) with rt in HS. rewrite HS in HX. discriminate HX.
Qed.
