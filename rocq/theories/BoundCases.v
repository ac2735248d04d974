(* Concrete executions for P_Bound.v. *)
From Verif Require Import Base VarInt Prims Props Codes Packets Options Session Client System SmolStream TokioRead Wire SpecCodec SpecSession SpecNet SpecTrace SpecRead SpecEnd SpecHold SpecBound Scenario LoopCases ReadCases WireFacts WireCases Cases HoldCases.
From Verif Require EndMore.

(* a connection, for the reading side *)
Definition bd_connack : bytes := [32; 3; 0; 0; 0].
Definition bd_open : list wevent :=
  [WEvent EConnect; WEvent (EWrite true)] ++ map (fun b => WArrive true b) [bd_connack] ++ [WRead; WEvent EHandled; WEvent (EWrites [] true); WEvent ERun].
Definition bd_more : list wevent := [WArrive false [208; 0; 208; 0]; WRead; WEvent EHandled; WEvent (EWrite true)].
Definition waits (w : wire) (b : bytes) : Prop :=
  w_dead w = false /\ y_pc (w_sys w) = PSelect (y_now (w_sys w)) /\ nt_buf (y_net (w_sys w)) = [] /\ sr_buf (w_net w) = b /\ sr_need (w_net w) = None /\ sr_in (w_net w) = [].
Lemma responses_more n : responses n ++ [208; 0; 208; 0] = 208 :: 0 :: responses (S n).
Proof. unfold responses. induction n as [|n IH]; [reflexivity|]. cbn [repeat concat app] in *. now rewrite IH. Qed.
Lemma response_parsed chk t : parse_message chk (208 :: 0 :: t) = MPacket PPingResp t.
Proof.
  assert (read_fixed_header [208; 0] = RbOk (FH TPingResp 0 0, 2)) as E by reflexivity. apply (EndMore.header_more _ _ _ t) in E as [E _]. cbn [app] in E.
  unfold parse_message. rewrite E. cbn [fh_rem]. destruct (N.ltb_spec (len (208 :: 0 :: t)) (0 + 2)) as [H|_]; [unfold len in H; cbn [length] in H; lia|]. unfold finish. 
  change (drop 2 (208 :: 0 :: t)) with t. cbn [fh_rem]. change (take 0 t) with (@nil N). change (drop 0 t) with t. destruct (N.ltb_spec (len t) 0); [lia|]. reflexivity.
Qed.
Lemma grows_by c chk w n : cf_rt c = Smol -> waits w (responses n) -> exists w', wexec c chk bd_more w = Some w' /\ waits w' (responses (S n)).
Proof.
  intros RT (H1 & H2 & H3 & H4 & H5 & H6). destruct w as [[st wt ch nt q now lg] nw [b nd i al g to] d]. cbn [w_sys w_new w_net w_dead y_pc y_net y_now sr_buf sr_need sr_in] in *. subst.
  eexists. split.
  - unfold bd_more. cbn [wexec wstep]. unfold wread. cbn [w_dead w_sys y_pc w_net sr_buf sr_need sr_in app]. rewrite RT. unfold take_chunk, Wire.arrive. cbn [sr_buf sr_in sr_need sr_all sr_got sr_torn app smol_take]. unfold smol_take. cbn [sr_buf].
    rewrite responses_more, response_parsed. cbn [read_result step y_pc option_map]. rewrite RT. cbn [incoming].
    unfold wevents. cbn. rewrite RT. cbn. unfold smol_flush. cbn. rewrite H3. cbn. reflexivity.
  - repeat split; cbn; auto.
Qed.
Lemma holds_many chk n : exists w, wreachable (lc_cfg Smol) chk w /\ waits w (responses n).
Proof.
  induction n as [|n (w & [xs HW] & H)].
  - assert (exists w, wexec (lc_cfg Smol) chk bd_open (winit (lc_cfg Smol) chk) = Some w /\ waits w []) as (w & H1 & H2).
    { destruct chk; eexists; (split; [vm_compute; reflexivity|repeat split]). }
    exists w. split; [now exists bd_open|exact H2].
  - destruct (grows_by (lc_cfg Smol) chk w n eq_refl H) as (w' & H1 & H2). exists w'. split; [|exact H2]. exists (xs ++ bd_more). now rewrite wexec_app, HW.
Qed.

(* four requests in flight, one of them a message, and one message received: the execution of HoldCases.v *)
Lemma bound_case rt : config_ok (lc_cfg rt) /\ exists s, exec (lc_cfg rt) hd_open (init (lc_cfg rt)) = Some s /\ y_pc s <> PCrash /\ held_requests (y_state s) = 4 /\ held_messages (y_state s) = 1 /\ len (st_in (y_state s)) = 1.
Proof.
  split; [destruct rt; (split; [split; vm_compute; discriminate|vm_compute; discriminate])|].
  exists (run_to (lc_cfg rt) hd_open). destruct rt; (split; [vm_compute; reflexivity|]); (split; [vm_compute; discriminate|]); repeat apply conj; vm_compute; reflexivity.
Qed.
(* a packet that has arrived in part *)
Lemma partly_case chk : exists xs w, Forall wire_ok xs /\ wexec (lc_cfg Tokio) chk xs (winit (lc_cfg Tokio) chk) = Some w /\ sr_buf (w_net w) = [48; 5; 0; 1; 116].
Proof.
  exists (bd_open ++ [WArrive false [48; 5; 0; 1; 116]; WRead]). destruct chk; eexists; (split; [unfold bd_open, bd_connack; cbn; repeat (constructor; try exact I); try lia|split; [vm_compute; reflexivity|reflexivity]]).
Qed.

(* ---- limits of CONNECT ---- *)
Definition bd_one (rt : runtime) : config := sc rt 10 1 false.
Definition bd_q2 (i : N) : packet := PPublish (lc_pub false ExactlyOnce (Some i)).
Definition bd_two : list event := sc_connect false ++ sc_in_reply (bd_q2 1) ++ sc_in_reply (bd_q2 2).
Lemma two_received rt : config_ok (bd_one rt) /\ exists s, exec (bd_one rt) bd_two (init (bd_one rt)) = Some s /\
  In (OWrite FromConnect (create_connect (cf_opts (bd_one rt)))) (trace s) /\ op_receive_max (cf_opts (bd_one rt)) = Some 1 /\
  received (trace s) = [2; 1] /\ In (OHandle (bd_q2 2)) (trace s) /\ nt_connected (y_net s) = true.
Proof.
  split; [destruct rt; (split; [split; vm_compute; discriminate|vm_compute; discriminate])|]. exists (run_to (bd_one rt) bd_two).
  destruct rt; (split; [vm_compute; reflexivity|]); (split; [vm_compute; tauto|]); (split; [reflexivity|]); (split; [vm_compute; reflexivity|]); (split; [vm_compute; tauto|reflexivity]).
Qed.
Definition bd_small (rt : runtime) : config :=
  Config rt (match set_maximum_packet_size 8 (sc_opts 10 10 false) with Some o => o | None => sc_opts 10 10 false end).
Definition bd_large : packet := PPublish (Publish false AtMostOnce false [97; 98; 99; 100] None no_props [1; 2; 3; 4; 5; 6; 7; 8]).
Definition bd_reads (p : packet) : list event := sc_connect false ++ [EPacket p].
Lemma large_received rt : config_ok (bd_small rt) /\ exists s, exec (bd_small rt) (bd_reads bd_large) (init (bd_small rt)) = Some s /\
  In (OWrite FromConnect (create_connect (cf_opts (bd_small rt)))) (trace s) /\ op_max_packet (cf_opts (bd_small rt)) = Some 8 /\
  len (w_bytes (write_packet bd_large)) = 17 /\ In (OHandle bd_large) (trace s).
Proof.
  split; [destruct rt; (split; [split; vm_compute; discriminate|vm_compute; discriminate])|]. exists (run_to (bd_small rt) (bd_reads bd_large)).
  destruct rt; (split; [vm_compute; reflexivity|]); (split; [vm_compute; tauto|]); (split; [reflexivity|]); (split; [vm_compute; reflexivity|vm_compute; tauto]).
Qed.
Definition bd_alias : packet := PPublish (Publish false AtMostOnce false [] None (set_prop TopicAlias (V16 5) no_props) [1]).
Lemma alias_received rt : config_ok (lc_cfg rt) /\ exists s, exec (lc_cfg rt) (bd_reads bd_alias) (init (lc_cfg rt)) = Some s /\
  In (OWrite FromConnect (create_connect (cf_opts (lc_cfg rt)))) (trace s) /\ op_topic_alias_max (cf_opts (lc_cfg rt)) = None /\ In (OHandle bd_alias) (trace s).
Proof.
  split; [destruct rt; (split; [split; vm_compute; discriminate|vm_compute; discriminate])|]. exists (run_to (lc_cfg rt) (bd_reads bd_alias)).
  destruct rt; (split; [vm_compute; reflexivity|]); (split; [vm_compute; tauto|]); (split; [reflexivity|vm_compute; tauto]).
Qed.
(* a message, and the same once more *)
Lemma taken_case rt : let c := bd_one rt in exists s s1 s2, exec c (sc_connect false) (init c) = Some s /\ y_pc s = PSelect (y_now s) /\
  step c (EPacket (bd_q2 1)) s = Some s1 /\ trace s1 = trace s ++ [ORead (bd_q2 1); OHandle (bd_q2 1)] /\
  exists t, exec c [EHandled; EWrite true] s1 = Some t /\ step c (EPacket (bd_q2 1)) t = Some s2 /\ trace s2 = trace t ++ [ORead (bd_q2 1)].
Proof.
  intros c. exists (run_to c (sc_connect false)), (run_to c (sc_connect false ++ [EPacket (bd_q2 1)])), (run_to c (sc_connect false ++ [EPacket (bd_q2 1); EHandled; EWrite true; EPacket (bd_q2 1)])).
  destruct rt; (split; [vm_compute; reflexivity|]); (split; [vm_compute; reflexivity|]); (split; [vm_compute; reflexivity|]); (split; [vm_compute; reflexivity|]);
    exists (run_to c (sc_connect false ++ [EPacket (bd_q2 1); EHandled; EWrite true])); repeat apply conj; vm_compute; reflexivity.
Qed.

(* ---- tokio: one packet without end ---- *)
Lemma pair_read r : aread_val KPair (0 :: 0 :: 0 :: 0 :: r) = AOk (VPair [] []) 4 r.
Proof.
  assert (forall t, aread_str (0 :: 0 :: t) = AOk [] 2 t) as H.
  { intros t. unfold aread_str, aread_bin. cbn [aread_u16 abind]. unfold aread_exact. change (0 * 256 + 0) with 0. destruct (N.ltb_spec (len t) 0); [lia|]. reflexivity. }
  cbn [aread_val]. rewrite H. cbn [abind]. rewrite H. reflexivity.
Qed.
Lemma loop_short n : forall fuel p total, (n < fuel)%nat -> (total = 0 \/ 1 < total) -> aread_props_loop fuel publish_cfg p total 1 (concat (repeat [38; 0; 0; 0; 0] n)) = AShort.
Proof.
  induction n as [|n IH]; intros fuel p total HF HT; (destruct fuel as [|fuel]; [lia|]); [reflexivity|].
  cbn [repeat concat app aread_props_loop]. unfold aread_ptype at 1. cbn [aread_u8 abind]. change (ptype_from_u8 38) with (@Ok ptype UserProperty). cbn [abind]. change (declares publish_cfg UserProperty) with true. cbn [negb adup kind_of].
  rewrite pair_read. cbn [abind]. destruct (N.eqb_spec (total + 1 + 4) 1); [lia|]. apply IH; lia.
Qed.
Lemma endless_short n : aread_packet (endless n) = AShort.
Proof.
  unfold endless. set (u := concat _). cbn [app]. unfold aread_packet, aread_fixed_header. cbn [aread_u8 abind]. change (from_first_byte 48) with (@Ok (pkt_type * N) (TPublish, 0)). cbn iota beta.
  assert (aread_varint (10 :: 0 :: 0 :: 1 :: u) = AOk 10 1 (0 :: 0 :: 1 :: u)) as -> by reflexivity. cbn [abind]. unfold aread_body. cbn [fh_type fh_flags fh_rem]. unfold aread_publish.
  change (qos_from_u8 _) with (@Ok qos AtMostOnce). cbn iota.
  assert (aread_str (0 :: 0 :: 1 :: u) = AOk [] 2 (1 :: u)) as ->.
  { unfold aread_str, aread_bin. cbn [aread_u16 abind]. unfold aread_exact. change (0 * 256 + 0) with 0. destruct (N.ltb_spec (len (1 :: u)) 0); [lia|]. reflexivity. }
  cbn [abind qos_eqb]. unfold aread_props. assert (aread_varint (1 :: u) = AOk 1 1 u) as -> by reflexivity. cbn [abind]. change (1 =? 0) with false. cbn iota.
  unfold u at 2. rewrite loop_short; [reflexivity| |now left]. unfold u. clear. induction n as [|n IH]; cbn [repeat concat app length]; lia.
Qed.

Lemma endless_more n : endless n ++ [38; 0; 0; 0; 0] = endless (S n).
Proof. unfold endless. rewrite <- app_assoc. f_equal. induction n as [|n IH]; [reflexivity|]. cbn [repeat concat]. rewrite <- app_assoc, IH. reflexivity. Qed.
Definition rests (w : wire) (b : bytes) : Prop := w_dead w = false /\ y_pc (w_sys w) = PSelect (y_now (w_sys w)) /\ sr_buf (w_net w) = b /\ sr_in (w_net w) = [].
Definition bd_endless (n : nat) : list wevent := match n with O => [WArrive false [48; 10; 0; 0; 1]; WRead] | S _ => [WArrive false [38; 0; 0; 0; 0]; WRead] end.
Lemma stays_short c chk w r n : cf_rt c = Tokio -> rests w (match n with O => [] | S m => endless m end) -> bd_endless n = r -> exists w', wexec c chk r w = Some w' /\ rests w' (endless n).
Proof.
  intros RT (H1 & H2 & H4 & H6) <-. destruct w as [[st wt ch nt q now lg] nw [b nd i al g to] d]. cbn [w_sys w_new w_net w_dead y_pc y_net y_now sr_buf sr_need sr_in] in *. subst.
  exists (Wire (Sys st wt ch nt (PSelect now) now lg) nw (Stream (endless n) nd [] (al ++ match n with O => [48; 10; 0; 0; 1] | S _ => [38; 0; 0; 0; 0] end) g to) false). split; [|repeat split; assumption].
  destruct n as [|n]; cbn [bd_endless wexec wstep]; unfold wread; cbn [w_dead w_sys y_pc w_net sr_buf sr_need sr_in app]; rewrite RT; unfold take_chunk, Wire.arrive; cbn [sr_buf sr_in sr_need sr_all sr_got sr_torn app]; unfold tokio_take; cbn [sr_buf sr_in sr_need sr_all sr_got sr_torn].
  - change ([] ++ [48; 10; 0; 0; 1]) with (endless 0). rewrite endless_short. cbn [read_result y_pc]. rewrite RT. reflexivity.
  - rewrite endless_more, endless_short. cbn [read_result y_pc]. rewrite RT. reflexivity.
Qed.
Lemma holds_endless chk n : exists w, wreachable (lc_cfg Tokio) chk w /\ rests w (endless n).
Proof.
  assert (forall m, exists w, wreachable (lc_cfg Tokio) chk w /\ rests w (match m with O => [] | S k => endless k end)) as H; [|exact (H (S n))].
  induction m as [|m (w & [xs HW] & H)].
  - assert (exists w, wexec (lc_cfg Tokio) chk bd_open (winit (lc_cfg Tokio) chk) = Some w /\ rests w []) as (w & H1 & H2).
    { destruct chk; eexists; (split; [vm_compute; reflexivity|repeat split]). }
    exists w. split; [now exists bd_open|exact H2].
  - destruct (stays_short (lc_cfg Tokio) chk w _ m eq_refl H eq_refl) as (w' & H1 & H2). exists w'. split; [|exact H2]. exists (xs ++ bd_endless m). now rewrite wexec_app, HW.
Qed.

Definition bd_part : list wevent := wc_open wc_connack ++ [WArrive false (firstn 3 wc_pub); WRead].
Lemma lawful_case chk : let w := wc_run Tokio chk bd_part in wreachable (lc_cfg Tokio) chk w /\ Forall2 sent [rc_connack; rc_pub] [wc_connack; wc_pub] /\
  sr_all (w_net w) ++ skipn 3 wc_pub = concat [wc_connack; wc_pub] /\ sr_torn (w_net w) = false /\ sr_buf (w_net w) = firstn 3 wc_pub.
Proof.
  intros w. split; [apply wc_reach; destruct chk; vm_compute; reflexivity|]. split; [apply Forall2_cons; [exact connack_sent|apply Forall2_cons; [exact pub_sent|apply Forall2_nil]]|].
  repeat apply conj; destruct chk; vm_compute; reflexivity.
Qed.
