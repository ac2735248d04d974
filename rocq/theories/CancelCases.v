(* Concrete executions in which futures are dropped, for P_Cancel.v. *)
From Verif Require Import Base VarInt Prims Props Codes Packets SpecCodec Options Session Client System SpecSession SpecNet SpecTrace SpecTime SpecOut Cancel SpecCancel
  Check Witness Scenario IdMore LoopCases TimeCases.

Definition is_run (e : event) : bool := match e with ERun => true | _ => false end.
Fixpoint follow (c : config) (xs : list cevent) (s : sys) (stale : bool) : option (sys * bool) :=
  match xs with
  | [] => Some (s, stale)
  | CStep e :: xs => if stale && is_run e then None else
    match step c e s with Some s' => follow c xs s' (stale && negb (opened s s')) | None => None end
  | CDrop :: xs => if match cf_rt c with Smol => is_some (nt_await (y_net s)) | Tokio => false end then None else
    match drop_task s with Some s' => follow c xs s' true | None => None end
  end.
Lemma follow_careful c xs s stale s' stale' : careful c s stale -> follow c xs s stale = Some (s', stale') -> careful c s' stale'.
Proof.
  revert s stale. induction xs as [|[e|] xs IH]; intros s stale H F; cbn [follow] in F.
  - now injection F as <- <-.
  - destruct (stale && is_run e) eqn:ER; [discriminate F|]. destruct (step c e s) as [s1|] eqn:ES; [|discriminate F].
    eapply IH; [|exact F]. eapply careful_step; [exact H|exact ES|]. intros -> ->. discriminate ER.
  - destruct (match cf_rt c with Smol => _ | Tokio => _ end) eqn:EW; [discriminate F|]. destruct (drop_task s) as [s1|] eqn:ES; [|discriminate F].
    eapply IH; [|exact F]. eapply careful_drop; [exact H|exact ES|]. intros E. rewrite E in EW. now destruct (nt_await (y_net s)).
Qed.
Definition follow_to (c : config) (xs : list cevent) : sys := match follow c xs (init c) false with Some (s, _) => s | None => init c end.
Definition cexec_to (c : config) (xs : list cevent) : sys := match cexec c xs (init c) with Some s => s | None => init c end.
Lemma cexec_to_ok c xs : is_some (cexec c xs (init c)) = true -> cexec c xs (init c) = Some (cexec_to c xs).
Proof. unfold cexec_to. destruct (cexec c xs (init c)); [reflexivity|discriminate]. Qed.
Lemma follow_to_ok c xs : match follow c xs (init c) false with Some (_, b) => negb b | None => false end = true -> careful c (follow_to c xs) false.
Proof.
  unfold follow_to. destruct (follow c xs (init c) false) as [[s b]|] eqn:E; [|discriminate]. intros H. destruct b; [discriminate H|].
  eapply follow_careful; [apply careful_init|exact E].
Qed.
Lemma cexec_events c es s s' : exec c es s = Some s' -> cexec c (map CStep es) s = Some s'.
Proof. revert s. induction es as [|e es IH]; intros s H; cbn [exec map cexec cstep] in *; [exact H|]. destruct (step c e s); [now apply IH|discriminate H]. Qed.

Definition go (es : list event) : list cevent := map CStep es.
Definition cc_msg (d : bool) (q : qos) : packet := PPublish (lc_pub d q (Some 1)).

(* a publish is written, the message of the broker is being handled when run is dropped; a new connection, the
   broker repeats the message, releases it, and sends another one with the same identifier *)
Definition cc_again (rt : runtime) : list cevent :=
  go (sc_connect false ++ sc_do (sc_pub ExactlyOnce) ++ [ECall (sc_pub AtLeastOnce); ESend 0; EOutgoing]) ++ [CDrop] ++
  go (lc_resume true [] ++ [EPacket (cc_msg false ExactlyOnce)]) ++ [CDrop] ++
  go (lc_resume true [] ++ [ECall sc_sub; EPacket (cc_msg true ExactlyOnce); EWrite true] ++ sc_in_reply (PPubRel (sc_ack 1)) ++ sc_in_reply (cc_msg false ExactlyOnce)).
Definition is_q2 (o : out) : bool := match o with OHandle (PPublish _) => true | _ => false end.

Lemma again_case : forall rt, exists s l1 m l2, config_ok (lc_cfg rt) /\ careful (lc_cfg rt) s false /\ selecting s = true /\
  trace s = l1 ++ OHandle (cc_msg false ExactlyOnce) :: m ++ OHandle (cc_msg false ExactlyOnce) :: l2 /\
  q2 1 (cc_msg false ExactlyOnce) /\ req_ids (lg_sent (now_ledger (lc_cfg rt) s)) = [1] /\ req_ids (y_wait s) = [3] /\ pool_of s = [4; 5; 6; 7; 8; 9; 10].
Proof.
  intros rt. set (s := follow_to (lc_cfg rt) (cc_again rt)). exists s, (before is_q2 (trace s)), (before is_q2 (behind is_q2 (trace s))), (behind is_q2 (behind is_q2 (trace s))).
  split; [destruct rt; cfg|]. split; [apply follow_to_ok; destruct rt; calc|]. split; [destruct rt; calc|]. split; [destruct rt; calc|].
  split; [exists (lc_pub false ExactlyOnce (Some 1)); repeat split|]. split; [destruct rt; calc|]. split; destruct rt; calc.
Qed.

(* the handler of a message was dropped; the broker repeats the message, which is acknowledged and not handed over *)
Definition cc_half (rt : runtime) : list cevent :=
  go (sc_connect false ++ [EPacket (cc_msg false ExactlyOnce)]) ++ [CDrop] ++
  go (lc_resume true [] ++ [EPacket (cc_msg true ExactlyOnce); EWrite true] ++ sc_in_reply (PPubRel (sc_ack 1))).
Definition is_comp (o : out) : bool := match o with OWrite FromReply (PPubComp _) => true | _ => false end.
Lemma half_case : forall rt, exists s l1 l2, config_ok (lc_cfg rt) /\ careful (lc_cfg rt) s false /\ selecting s = true /\
  trace s = l1 ++ OHandle (cc_msg false ExactlyOnce) :: OConnect :: l2 /\
  (forall x, ~ In (OHandle (PPublish x)) l2) /\ In (OWrite FromReply (PPubComp (okay 1))) l2.
Proof.
  intros rt. set (s := follow_to (lc_cfg rt) (cc_half rt)). exists s, (before is_q2 (trace s)), (tl (behind is_q2 (trace s))).
  split; [destruct rt; cfg|]. split; [apply follow_to_ok; destruct rt; calc|]. split; [destruct rt; calc|]. split; [destruct rt; calc|].
  split; [|destruct rt; here]. intros x. apply (no_out is_q2); [destruct rt; calc|reflexivity].
Qed.

(* run is called again on the old connection: the acknowledgement is missing *)
Definition cc_noack (rt : runtime) : list cevent := go (sc_connect false ++ [EPacket (cc_msg false AtLeastOnce); EHandled]) ++ [CDrop] ++ go [ERun].
Definition is_failed (o : out) : bool := match o with OWriteFail _ _ | OConnectEnd (Some _) | ORunEnd _ | OPanic => true | _ => false end.
Definition is_connects (o : out) : bool := match o with OConnect => true | _ => false end.
Lemma noack_case : forall rt, exists xs s, config_ok (lc_cfg rt) /\ cexec (lc_cfg rt) xs (init (lc_cfg rt)) = Some s /\ selecting s = true /\
  In (OHandle (cc_msg false AtLeastOnce)) (trace s) /\ In OHandled (trace s) /\ (forall a o, ~ In (OWrite o (PPubAck a)) (trace s)) /\
  existsb is_failed (trace s) = false /\ len (filter is_connects (trace s)) = 1.
Proof.
  intros rt. exists (cc_noack rt), (cexec_to (lc_cfg rt) (cc_noack rt)). split; [destruct rt; cfg|]. split; [apply cexec_to_ok; destruct rt; calc|].
  split; [destruct rt; calc|]. split; [destruct rt; here|]. split; [destruct rt; here|]. split; [|split; destruct rt; calc].
  intros a o. apply (no_out (fun o => match o with OWrite _ (PPubAck _) => true | _ => false end)); [destruct rt; calc|reflexivity].
Qed.
(* ... a request was taken from the channel and is gone, and its identifier *)
Definition cc_lost (rt : runtime) : list cevent := go (sc_connect false ++ [ECall (sc_pub AtLeastOnce); ESend 0; EOutgoing]) ++ [CDrop] ++ go [ERun].
Lemma lost_case : forall rt, exists xs s, config_ok (lc_cfg rt) /\ cexec (lc_cfg rt) xs (init (lc_cfg rt)) = Some s /\ selecting s = true /\
  In (OAccept (cc_msg false AtLeastOnce)) (trace s) /\ y_chan s = [] /\ y_wait s = [] /\ existsb is_client (trace s) = false /\
  pool_of s = [2; 3; 4; 5; 6; 7; 8; 9; 10] /\ existsb is_failed (trace s) = false /\ len (filter is_connects (trace s)) = 1.
Proof.
  intros rt. exists (cc_lost rt), (cexec_to (lc_cfg rt) (cc_lost rt)). split; [destruct rt; cfg|]. split; [apply cexec_to_ok; destruct rt; calc|].
  split; [destruct rt; calc|]. split; [destruct rt; here|]. repeat apply conj; destruct rt; calc.
Qed.
(* smol: the PINGREQ of the old connection ends the new one *)
Definition cc_ping : list cevent := go (tc_open (sc_connack false) ++ [secs 60; ETimer; EWrite true]) ++ [CDrop] ++ go ([secs 60] ++ tc_open (sc_connack false) ++ [ETimer; EWrite true]).
Lemma ping_case : exists xs s l1 l2, config_ok (tc_cfg Smol) /\ cexec (tc_cfg Smol) xs (init (tc_cfg Smol)) = Some s /\
  y_log s = l1 ++ (from_secs 120, OConnect) :: l2 /\ Forall (fun x => fst x = from_secs 120) l2 /\ In (OConnectEnd None) (map snd l2) /\
  ~ In (OWrite FromTimer PPingReq) (map snd l2) /\ last (map snd l2) OHandled = ORunEnd (inl KeepAliveTimeout).
Proof.
  set (s := cexec_to (tc_cfg Smol) cc_ping). exists cc_ping, s, (firstn 8 (y_log s)), (skipn 9 (y_log s)).
  split; [cfg|]. split; [apply cexec_to_ok; calc|]. split; [calc|]. split; [vm_compute; repeat constructor|]. split; [here|]. split; [|calc].
  apply (no_out (fun o => match o with OWrite _ PPingReq => true | _ => false end)); [calc|reflexivity].
Qed.

(* ---- bytes ---- *)
Definition cc_pub (payload : bytes) : packet := PPublish (Publish false AtMostOnce false sc_topic None no_props payload).
Lemma cc_pub_ok rt payload : wfb (cc_pub payload) = true -> w_err (write_packet (cc_pub payload)) = None -> w_err (awrite_packet (cc_pub payload)) = None ->
  packet_ok (cc_pub payload) /\ encodes (cc_pub payload) (wire_bytes rt (cc_pub payload)).
Proof.
  intros H1 H2 H3. apply wfb_ok in H1. destruct (writes_encodings (cc_pub payload) H1) as [A B]; [intros X; discriminate X|]. split; [exact (proj1 H1)|].
  destruct rt; [apply B; [reflexivity|exact H3]|exact (A H2)].
Qed.
(* "ab" is cut before its last byte, then "cd" is published on the same connection: the broker reads "a0" *)
Lemma torn_case : forall rt, exists ps cs rest q, let l := [([cc_pub [97; 98]], Cut 7); ([cc_pub [99; 100]], Complete)] in
  Forall packet_ok ps /\ Forall2 encodes ps cs /\ concat cs ++ rest = sd_sent (send_all rt l) /\ In q ps /\ ~ In q (concat (map fst l)).
Proof.
  intros rt. exists [cc_pub [97; 48]], [wire_bytes rt (cc_pub [97; 48])], (skipn 8 (sd_sent (send_all rt [([cc_pub [97; 98]], Cut 7); ([cc_pub [99; 100]], Complete)]))), (cc_pub [97; 48]).
  destruct (cc_pub_ok rt [97; 48]) as [A B]; [vm_compute; reflexivity..|]. cbv zeta. split; [now constructor|]. split; [now repeat constructor|].
  split; [destruct rt; calc|]. split; [now left|]. cbn. intros [X|[X|[]]]; discriminate X.
Qed.
Lemma whole_case : forall rt, Forall (fun p => packet_ok p /\ encodes p (wire_bytes rt p)) (concat [[cc_pub [97; 98]]; [cc_pub [99; 100]]] ++ [cc_pub [101]]).
Proof. intros rt. cbn [concat app]. repeat apply Forall_cons; try apply Forall_nil; apply cc_pub_ok; vm_compute; reflexivity. Qed.
