(* Concrete executions for P_HandlerDrop.v. *)
From Verif Require Import Base VarInt Prims Props Codes Packets Options Session Client System SpecCodec SpecSession SpecTrace SpecTime Scenario IdMore LoopCases Handlers HandlerFacts HandlerMore HandlerCases SpecHandler Cancel SpecCancel HandlerDrop HandlerDropFacts SpecAttend.

Definition dc_run (chk : bool) (rt : runtime) (xs : list (devent N)) : hsys N :=
  match dexec (ping_pong chk) (lc_cfg rt) xs (hinit (lc_cfg rt) 0) with Some h => h | None => hinit (lc_cfg rt) 0 end.
Lemma dc_reach chk rt xs : is_some (dexec (ping_pong chk) (lc_cfg rt) xs (hinit (lc_cfg rt) 0)) = true -> dreachable (ping_pong chk) (lc_cfg rt) 0 (dc_run chk rt xs).
Proof. intros H. exists xs. unfold dc_run. destruct (dexec _ _ _ _); [reflexivity|discriminate H]. Qed.
(* the channel is full when the handler makes its request, as in hc_full *)
Definition dc_full : list (devent N) := map DStep hc_full.
Lemma dc_full_case : forall chk rt, let h := dc_run chk rt dc_full in
  dreachable (ping_pong chk) (lc_cfg rt) 0 h /\ in_run (y_pc (hs_sys h)) = true /\ hs_wait h = Some 0%nat /\ hs_dead h = false /\ CHANNEL_SIZE <= len (y_chan (hs_sys h)).
Proof. intros chk rt h. split; [apply dc_reach; destruct rt, chk; vm_compute; reflexivity|]. repeat apply conj; destruct rt, chk; vm_compute; first [reflexivity|discriminate]. Qed.
(* run is dropped and begun again, and the next message comes *)
Definition dc_once : list (devent N) :=
  [DStep (HEnv (EPacket (hc_ping AtLeastOnce (Some 1)))); DStep HCall; DDrop 0; DStep (HEnv ERun)].
Definition dc_fill : list hevent := hc_open ++ concat (repeat [HEnv (ECall (sc_pub AtMostOnce)); HEnv (ESend 0)] 100).
Definition dc_drops : list (devent N) := map DStep dc_fill ++ concat (repeat dc_once 10).
Lemma lost_witness : forall rt chk, exists c h, config_ok c /\ cf_rt c = rt /\ dreachable (ping_pong chk) c 0 h /\ selecting (hs_sys h) = true /\
  pl_ids (st_pool (y_state (hs_sys h))) = [] /\ y_wait (hs_sys h) = [] /\ (forall p, In p (y_chan (hs_sys h)) -> req_id p = None) /\
  (forall p, ~ In (OWrite FromClient p) (trace (hs_sys h))).
Proof.
  intros rt chk. exists (lc_cfg rt), (dc_run chk rt dc_drops). split; [destruct rt; cfg|]. split; [reflexivity|]. split; [apply dc_reach; destruct rt, chk; vm_compute; reflexivity|].
  assert (forallb (fun p => negb (is_some (req_id p))) (y_chan (hs_sys (dc_run chk rt dc_drops))) = true) as HF by (destruct rt, chk; vm_compute; reflexivity).
  assert (forallb (fun o => match o with OWrite FromClient _ => false | _ => true end) (trace (hs_sys (dc_run chk rt dc_drops))) = true) as HT by (destruct rt, chk; vm_compute; reflexivity).
  split; [destruct rt, chk; vm_compute; reflexivity|]. split; [destruct rt, chk; vm_compute; reflexivity|]. split; [destruct rt, chk; vm_compute; reflexivity|]. split.
  - intros p HI. rewrite forallb_forall in HF. specialize (HF _ HI). destruct (req_id p); [discriminate HF|reflexivity].
  - intros p HI. rewrite forallb_forall in HT. specialize (HT _ HI). discriminate HT.
Qed.
(* the message is with the handler, the request it wants to make waits, and run is dropped *)
Lemma cut_case : forall rt chk, let h := dc_run chk rt (map DStep dc_fill ++ dc_once) in let q := PPublish (Publish false AtLeastOnce false sc_topic (Some 1) no_props PONG) in
  dreachable (ping_pong chk) (lc_cfg rt) 0 h /\ handling (y_pc (hs_sys h)) = false /\ hs_mem h = 0 /\
  exists l, trace (hs_sys h) = l ++ [OHandle (hc_ping AtLeastOnce (Some 1)); OBegin q; OGiveUp q; ORun].
Proof.
  intros rt chk h q. split; [apply dc_reach; destruct rt, chk; vm_compute; reflexivity|]. split; [destruct rt, chk; vm_compute; reflexivity|]. split; [destruct rt, chk; vm_compute; reflexivity|].
  exists (firstn (length (trace (hs_sys h)) - 4) (trace (hs_sys h))). destruct rt, chk; vm_compute; reflexivity.
Qed.
(* connect is dropped while the handler has the CONNACK *)
Definition dc_connack : list (devent N) := map DStep [HEnv EConnect; HEnv (EWrite true); HEnv (EPacket (sc_connack true))].
Lemma connack_case : forall rt chk, let h := dc_run chk rt dc_connack in
  dreachable (ping_pong chk) (lc_cfg rt) 0 h /\ handling (y_pc (hs_sys h)) = true /\ in_run (y_pc (hs_sys h)) = false /\ hs_dead h = false.
Proof. intros rt chk h. split; [apply dc_reach; destruct rt, chk; vm_compute; reflexivity|]. repeat apply conj; destruct rt, chk; vm_compute; reflexivity. Qed.

(* [prudent], by computation *)
Definition is_start (x : hevent) : bool := match x with HEnv ERun => true | _ => false end.
Fixpoint heed (chk : bool) (c : config) (xs : list (devent N)) (h : hsys N) (stale : bool) : option (hsys N * bool) :=
  match xs with
  | [] => Some (h, stale)
  | DStep x :: xs => if stale && is_start x then None else
    match hstep (ping_pong chk) c x h with Some h' => heed chk c xs h' (stale && negb (opened (hs_sys h) (hs_sys h'))) | None => None end
  | DDrop m :: xs => if match cf_rt c with Smol => is_some (nt_await (y_net (hs_sys h))) | Tokio => false end then None else
    match hdrop c m h with Some h' => heed chk c xs h' true | None => None end
  end.
Lemma heed_prudent chk c xs m h stale h' stale' : prudent (ping_pong chk) c m h stale -> heed chk c xs h stale = Some (h', stale') -> prudent (ping_pong chk) c m h' stale'.
Proof.
  revert h stale. induction xs as [|[x|m'] xs IH]; intros h stale H F; cbn [heed] in F.
  - now injection F as <- <-.
  - destruct (stale && is_start x) eqn:ER; [discriminate F|]. destruct (hstep (ping_pong chk) c x h) as [h1|] eqn:ES; [|discriminate F].
    eapply IH; [|exact F]. eapply pr_step; [exact H|exact ES|]. intros -> ->. discriminate ER.
  - destruct (match cf_rt c with Smol => _ | Tokio => _ end) eqn:EW; [discriminate F|]. destruct (hdrop c m' h) as [h1|] eqn:ES; [|discriminate F].
    eapply IH; [|exact F]. eapply pr_drop; [exact H|exact ES|]. intros E. rewrite E in EW. now destruct (nt_await (y_net (hs_sys h))).
Qed.
(* run is dropped while the handler's request waits to be sent; then a new connection *)
Definition dc_again : list (devent N) := map DStep (hc_open ++ [HEnv (EPacket (hc_ping ExactlyOnce (Some 1))); HCall]) ++ [DDrop 0] ++ map DStep hc_open.
Lemma again_case : forall rt chk, exists h, config_ok (lc_cfg rt) /\ prudent (ping_pong chk) (lc_cfg rt) 0 h false /\ selecting (hs_sys h) = true /\
  existsb (fun o => match o with OGiveUp (PPublish x) => true | _ => false end) (trace (hs_sys h)) = true /\ pool_of (hs_sys h) = [2; 3; 4; 5; 6; 7; 8; 9; 10].
Proof.
  intros rt chk. destruct (heed chk (lc_cfg rt) dc_again (hinit (lc_cfg rt) 0) false) as [[h b]|] eqn:E.
  - exists h. split; [destruct rt; cfg|]. assert (match heed chk (lc_cfg rt) dc_again (hinit (lc_cfg rt) 0) false with
      | Some (h, b) => negb b && selecting (hs_sys h) && existsb (fun o => match o with OGiveUp (PPublish x) => true | _ => false end) (trace (hs_sys h)) && (if list_eq_dec N.eq_dec (pool_of (hs_sys h)) [2; 3; 4; 5; 6; 7; 8; 9; 10] then true else false)
      | None => false end = true) as K by (destruct rt, chk; vm_compute; reflexivity).
    rewrite E in K. apply andb_prop in K as [K K4]. apply andb_prop in K as [K K3]. apply andb_prop in K as [K1 K2]. destruct b; [discriminate K1|].
    split; [eapply heed_prudent; [apply pr_init|exact E]|]. split; [exact K2|]. split; [exact K3|]. destruct (list_eq_dec _ _ _) as [EQ|]; [exact EQ|discriminate K4].
  - exfalso. assert (is_some (heed chk (lc_cfg rt) dc_again (hinit (lc_cfg rt) 0) false) = true) as K by (destruct rt, chk; vm_compute; reflexivity). rewrite E in K. discriminate K.
Qed.
