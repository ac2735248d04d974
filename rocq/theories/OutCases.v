(* Concrete executions for P_Out.v *)
From Coq Require Import Permutation.
From Verif Require Import Base VarInt Prims Props Codes Packets SpecCodec SpecOptions Options Session Client System SpecSession SpecNet SpecTrace SpecOut SessionFacts IdMore Scenario LoopCases OutFacts OutMore OutLimits.
From Verif Require GoodFacts.

Lemma lc_built rt : built (lc_cfg rt).
Proof.
  exists [], [SetCleanStart false; SetReceiveMax 10; SetSendMax 10]. split; [split; [exists []; split; [constructor|reflexivity]|cbn; discriminate]|]. split; [|reflexivity].
  repeat (apply Forall_cons; [first [exact I|reflexivity]|]). apply Forall_nil.
Qed.
Lemma ascii_ok x : x < 128 -> utf8 [x].
Proof. intros H. exists [x]. split; [constructor; [unfold scalar; lia|constructor]|]. cbn. unfold utf8_encode. replace (x <? 0x80) with true by lia. reflexivity. Qed.
Lemma payload_ok : all_bytes sc_payload.
Proof. constructor; [|constructor]. unfold is_byte. lia. Qed.
Lemma pub_ok q : call_ok (sc_pub q).
Proof. split; [now apply ascii_ok|]. split; [exact payload_ok|apply no_props_ok]. Qed.
Lemma sub_ok : call_ok sc_sub.
Proof. split; [discriminate|]. split; [constructor; [now apply ascii_ok|constructor]|apply no_props_ok]. Qed.
Lemma ack_fine i : i < 65536 -> packet_ok (PPubRec (sc_ack i)) /\ packet_ok (PPubAck (sc_ack i)).
Proof. intros H. destruct (plain_ok i H) as ((P1 & _) & (P2 & _) & _). auto. Qed.
Lemma connack_fine b : packet_ok (sc_connack b).
Proof. split; [cbn; tauto|apply no_props_ok]. Qed.
Ltac evs := repeat (apply Forall_cons; [first [exact I|apply pub_ok|exact sub_ok|apply connack_fine|apply ack_fine; reflexivity]|]); apply Forall_nil.

(* every kind of packet that the client writes: three requests, a reply, a retransmission, a ping *)
Definition oc_events (rt : runtime) : list event := lc_three rt ++ lc_resume true [] ++ [ETick 60000000000; ETimer; EWrite true].
Definition writes_as (x : origin) (o : out) : bool :=
  match o, x with
  | OWrite FromConnect _, FromConnect | OWrite FromClient _, FromClient | OWrite FromReply _, FromReply | OWrite FromResend _, FromResend | OWrite FromTimer _, FromTimer => true
  | _, _ => false
  end.
Lemma writes_as_in x l : existsb (writes_as x) l = true -> exists p, In (OWrite x p) l.
Proof. intros H. apply existsb_exists in H as (o & HI & H). destruct o as [| | | | | | | | | | | | |y p| |]; try discriminate H. exists p. destruct x, y; try discriminate H; exact HI. Qed.
Lemma lawful_case : forall rt, config_ok (lc_cfg rt) /\ built (lc_cfg rt) /\ Forall event_ok (oc_events rt) /\
  exists s, exec (lc_cfg rt) (oc_events rt) (init (lc_cfg rt)) = Some s /\ forall x, exists p, In (OWrite x p) (trace s).
Proof.
  intros rt. split; [destruct rt; cfg|]. split; [apply lc_built|]. split; [unfold oc_events, lc_three, lc_resume, sc_connect, sc_do, sc_in_reply; cbn [app]; evs|].
  assert (is_some (exec (lc_cfg rt) (oc_events rt) (init (lc_cfg rt))) = true) as HS by (destruct rt; vm_compute; reflexivity).
  exists (run_to (lc_cfg rt) (oc_events rt)). split; [unfold run_to; destruct (exec _ _ _); [reflexivity|discriminate HS]|].
  intros x. apply writes_as_in. destruct rt, x; vm_compute; reflexivity.
Qed.

(* requests that MQTT 5 forbids and the client writes *)
Definition oc_wild : list event := sc_connect false ++ sc_do (CPublish AtMostOnce false [35] sc_payload no_props).
Definition oc_empty : list event := sc_connect false ++ sc_do (CPublish AtMostOnce false [] sc_payload no_props).
Definition oc_no_topic : list event := sc_connect false ++ sc_do (CSubscribe [] no_props).
Lemma run_exec c es : is_some (exec c es (init c)) = true -> exec c es (init c) = Some (run_to c es).
Proof. unfold run_to. destruct (exec c es (init c)); [reflexivity|discriminate]. Qed.
Lemma wild_case : forall rt, exists es s x, config_ok (lc_cfg rt) /\ built (lc_cfg rt) /\ Forall event_ok es /\ exec (lc_cfg rt) es (init (lc_cfg rt)) = Some s /\
  In (OWrite FromClient (PPublish x)) (trace s) /\ In 35 (pb_topic x).
Proof.
  intros rt. exists oc_wild, (run_to (lc_cfg rt) oc_wild), (Publish false AtMostOnce false [35] None no_props sc_payload). split; [destruct rt; cfg|]. split; [apply lc_built|].
  split; [unfold oc_wild, sc_connect, sc_do; cbn [app]; repeat (apply Forall_cons; [first [exact I|apply connack_fine|split; [now apply ascii_ok|split; [exact payload_ok|apply no_props_ok]]]|]); apply Forall_nil|].
  split; [apply run_exec; destruct rt; vm_compute; reflexivity|]. split; [destruct rt; here|now left].
Qed.
Lemma empty_case : forall rt, exists es s x, config_ok (lc_cfg rt) /\ built (lc_cfg rt) /\ Forall event_ok es /\ exec (lc_cfg rt) es (init (lc_cfg rt)) = Some s /\
  In (OWrite FromClient (PPublish x)) (trace s) /\ pb_topic x = [] /\ topic_alias (pb_props x) = None.
Proof.
  intros rt. exists oc_empty, (run_to (lc_cfg rt) oc_empty), (Publish false AtMostOnce false [] None no_props sc_payload). split; [destruct rt; cfg|]. split; [apply lc_built|].
  assert (utf8 []) as HU by (exists []; split; [constructor|reflexivity]).
  split; [unfold oc_empty, sc_connect, sc_do; cbn [app]; repeat (apply Forall_cons; [first [exact I|apply connack_fine|split; [exact HU|split; [exact payload_ok|apply no_props_ok]]]|]); apply Forall_nil|].
  split; [apply run_exec; destruct rt; vm_compute; reflexivity|]. split; [destruct rt; here|split; reflexivity].
Qed.
Lemma no_topic_case : forall rt, exists s, config_ok (lc_cfg rt) /\ reachable (lc_cfg rt) s /\ In (OWrite FromClient (PSubscribe (Subscribe 1 no_props []))) (trace s).
Proof.
  intros rt. exists (run_to (lc_cfg rt) oc_no_topic). split; [destruct rt; cfg|]. split; [destruct rt; reach|]. destruct rt; here.
Qed.

(* ---- C58 ------------------------------------------------------------------------------------- *)
Fixpoint stopsb (k : sending) : bool :=
  match k with [] => true | (_, true) :: k => stopsb k | (_, false) :: k => forallb (fun x => negb (snd x)) k end.
Lemma stopsb_ok k : stops k -> stopsb k = true.
Proof.
  intros (a & b & ->). induction a as [|p a IH]; cbn; [|exact IH]. destruct b as [|p b]; [reflexivity|]. cbn. apply forallb_forall. intros x Hx. apply in_map_iff in Hx as (q & <- & _). reflexivity.
Qed.
(* three connections: the second resumes the session of the first, the third is refused *)
Definition oc_lines (rt : runtime) : list event :=
  lc_three rt ++ lc_resume true [] ++ sc_do call_disconnect ++ [EConnect; EWrite true; EPacket PPingResp].
Definition kinds (k : sending) : list (pkt_type * bool) := map (fun x => (type_of (fst x), snd x)) k.
Lemma lines_case : forall rt, exists s, config_ok (lc_cfg rt) /\ reachable (lc_cfg rt) s /\ (forall p, ~ In (OWriteFail FromResend p) (trace s)) /\ map kinds (sendings (trace s)) =
  [[(TConnect, true); (TPublish, true); (TPublish, true); (TSubscribe, true); (TPubRel, true); (TPublish, true)];
   [(TConnect, true); (TPublish, true); (TPublish, true); (TPubRel, true); (TDisconnect, true)];
   [(TConnect, true)]].
Proof.
  intros rt. exists (run_to (lc_cfg rt) (oc_lines rt)). split; [destruct rt; cfg|]. split; [destruct rt; reach|]. split; [|destruct rt; vm_compute; reflexivity].
  intros p. apply (no_out (fun o => match o with OWriteFail _ _ => true | _ => false end)); [destruct rt; vm_compute; reflexivity|reflexivity].
Qed.
Lemma stops_witness : exists s k, config_ok (lc_cfg Tokio) /\ reachable (lc_cfg Tokio) s /\ In k (sendings (trace s)) /\ ~ stops k /\
  ln_used (lines_of (trace s)) = Some k /\ nt_connected (y_net s) = true.
Proof.
  set (s := lc_run Tokio true [false]). exists s. remember (match ln_used (lines_of (trace s)) with Some k => k | None => [] end) as k eqn:EK.
  assert (ln_used (lines_of (trace s)) = Some k) as EU. { subst k. vm_compute. reflexivity. }
  exists k. split; [cfg|]. split; [reach|]. split; [unfold sendings; cbv zeta; apply in_or_app; right; rewrite EU; now left|].
  split; [|split; [exact EU|vm_compute; reflexivity]]. intros HS. apply stopsb_ok in HS. subst k. vm_compute in HS. discriminate HS.
Qed.

(* ---- C59 ------------------------------------------------------------------------------------- *)
(* CONNACK with receive maximum 1, maximum QoS 0, no retained messages, packets of at most 5 bytes *)
Definition oc_limits : connack := ConnAck false RSuccess
  (Props None None None None None None None None None None None None None None None None None (Some 1) None None (Some AtMostOnce) (Some false) [] (Some 5) None None None []).
Definition oc_pub : call := CPublish AtLeastOnce true sc_topic sc_payload no_props.
Definition oc_limited : list event := [EConnect; EWrite true; EPacket (PConnAck oc_limits); EHandled; EWrites [] true; ERun] ++ sc_do oc_pub ++ sc_do oc_pub.
Lemma limits_fine : packet_ok (PConnAck oc_limits).
Proof.
  split; [cbn; tauto|]. split; [|split; [apply Forall_nil|split; [intros X; now elim X|split; [apply Forall_nil|split; [intros X; now elim X|discriminate]]]]].
  intros t v E. destruct t; try discriminate E; injection E as <-; (split; [vm_compute; tauto|]); cbn; try exact I; lia.
Qed.
Definition oc_write : out := OWrite FromClient (PPublish (Publish false AtLeastOnce true sc_topic (Some 2) no_props sc_payload)).
Lemma limits_witness : forall rt, exists es s x, config_ok (lc_cfg rt) /\ built (lc_cfg rt) /\ Forall event_ok es /\ exec (lc_cfg rt) es (init (lc_cfg rt)) = Some s /\
  announced (trace s) = Some oc_limits /\ In (OWrite FromClient (PPublish x)) (trace s) /\
  quota oc_limits < unfinished (now_ledger (lc_cfg rt) s) /\ top_qos oc_limits = AtMostOnce /\ pb_qos x = AtLeastOnce /\
  ~ may_retain oc_limits /\ pb_retain x = true /\ ~ size_limit oc_limits (len (wire_bytes rt (PPublish x))).
Proof.
  intros rt. exists oc_limited, (run_to (lc_cfg rt) oc_limited), (Publish false AtLeastOnce true sc_topic (Some 2) no_props sc_payload).
  split; [destruct rt; cfg|]. split; [apply lc_built|].
  split; [unfold oc_limited, sc_do; cbn [app]; repeat (apply Forall_cons; [first [exact I|exact limits_fine|split; [now apply ascii_ok|split; [exact payload_ok|apply no_props_ok]]]|]); apply Forall_nil|].
  split; [apply run_exec; destruct rt; vm_compute; reflexivity|]. split; [destruct rt; vm_compute; reflexivity|]. split; [destruct rt; here|].
  split; [destruct rt; vm_compute; reflexivity|]. split; [reflexivity|]. split; [reflexivity|]. split; [intros X; now apply X|]. split; [reflexivity|].
  destruct rt; vm_compute; intros X; now elim X.
Qed.
(* DISCONNECT is not measured: a client with a maximum of 5 bytes writes more *)
Definition oc_bye : disconnect := Disconnect RNormalDisconnection (Props None None None None None None None None None None None None None None None None (Some [97; 98; 99; 100]) None None None None None [] None None None None []).
Lemma limits_case : forall rt, exists es s a, config_ok (lc_cfg rt) /\ built (lc_cfg rt) /\ Forall event_ok es /\ exec (lc_cfg rt) es (init (lc_cfg rt)) = Some s /\
  announced (trace s) = Some a /\ send_max (cf_opts (lc_cfg rt)) <= quota a /\ unfinished (now_ledger (lc_cfg rt) s) = 3 /\
  In (OWrite FromClient (PPublish (lc_pub false AtLeastOnce (Some 1)))) (trace s) /\ size_limit a (N.max 6 (max_packet (cf_opts (lc_cfg rt)) + 5)).
Proof.
  intros rt. exists (oc_events rt), (run_to (lc_cfg rt) (oc_events rt)), (ConnAck true RSuccess no_props). destruct (lawful_case rt) as (A & B & C & s & D & _).
  split; [exact A|]. split; [exact B|]. split; [exact C|]. split; [apply run_exec; rewrite D; reflexivity|]. split; [destruct rt; vm_compute; reflexivity|].
  split; [destruct rt; vm_compute; discriminate|]. split; [destruct rt; vm_compute; reflexivity|]. split; [destruct rt; here|exact I].
Qed.
Definition oc_small (rt : runtime) : config := Config rt (match set_maximum_packet_size 5 (sc_opts 1 1 true) with Some o => o | None => sc_opts 1 1 true end).
Lemma bye_witness : forall rt, exists s d, config_ok (oc_small rt) /\ reachable (oc_small rt) s /\ In (OWrite FromClient (PDisconnect d)) (trace s) /\
  packet_ok (PDisconnect d) /\ max_packet (cf_opts (oc_small rt)) = 5 /\ 5 + 5 < len (wire_bytes rt (PDisconnect d)).
Proof.
  intros rt. set (es := sc_connect false ++ sc_do (CDisconnect oc_bye)). exists (run_to (oc_small rt) es), oc_bye. split; [destruct rt; cfg|]. split; [destruct rt; reach|].
  split; [destruct rt; here|]. split; [|split; [destruct rt; reflexivity|destruct rt; vm_compute; reflexivity]].
  split; [cbn; tauto|]. split; [|split; [apply Forall_nil|split; [intros X; now elim X|split; [apply Forall_nil|split; [intros X; now elim X|reflexivity]]]]].
  intros t v E. destruct t; try discriminate E; injection E as <-; (split; [vm_compute; tauto|]). cbn. split; [|unfold len; cbn; lia].
  exists [97; 98; 99; 100]. split; [repeat constructor; unfold scalar; lia|reflexivity].
Qed.
