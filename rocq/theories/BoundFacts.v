(* Proofs for P_Bound.v. *)
From Coq Require Import Permutation.
From Verif Require Import Base VarInt Prims Props Codes Packets BaseFacts Options Session Client System SmolStream TokioRead Wire SpecCodec SpecSession SpecOut SpecEnd SpecNet SpecTrace SpecRead SpecHold SpecBound
  SessionFacts SystemFacts NetFacts NetMore LoopMore WireFacts WireMore Cases IdMore OrderFacts HoldFacts EndMore.
From Verif Require LabelFacts.

Lemma put_len i l : len (put i l) <= len l + 1.
Proof. unfold len. induction l as [|j r IH]; cbn [put length]; [lia|]. destruct (i <? j); [cbn [length]; lia|]. destruct (i =? j); cbn [length]; lia. Qed.
Lemma ascending_len l : len (ascending l) <= len l.
Proof. induction l as [|j r IH]; [cbn; lia|]. cbn [ascending fold_right]. fold (ascending r). pose proof (put_len j (ascending r)). unfold len in *. cbn [length]. lia. Qed.
Lemma names_len l : Forall identified l -> len (sub_ids l) + len (unsub_ids l) + len (flat_map name_of (messages l)) = len (req_ids l).
Proof.
  intros H. rewrite <- order_is by exact H. apply req_ids_kinds, Permutation_length in H. unfold len. rewrite H, !app_length. change (sub_ids l) with (subs l). change (unsub_ids l) with (unsubs l). lia.
Qed.
Lemma requests_bound c s : config_ok c -> reachable c s -> y_pc s <> PCrash -> held_requests (y_state s) <= send_max (cf_opts c).
Proof.
  intros HC HR HP. unfold held_requests. rewrite (session c s HC HR HP). cbn [session_of st_sub st_unsub st_order st_rel].
  pose proof (ids_bound c s HC HR) as HB. pose proof (i_sent _ _ _ _ _ (v_inv _ _ (inv_reachable _ _ HC HR))) as HS. change (ledger_at c s) with (now_ledger c s) in HS.
  apply names_len in HS. set (g := now_ledger c s) in *. pose proof (ascending_len (sub_ids (lg_sent g))). pose proof (ascending_len (unsub_ids (lg_sent g))). pose proof (ascending_len (lg_rel g)).
  unfold in_flight in HB. unfold len in *. rewrite !app_length in HB. lia.
Qed.
Lemma filter_map_some {A} (f : N -> option A) (l : list N) : len (filter (fun x => is_some x) (map f l)) = len (filter (fun i => is_some (f i)) l).
Proof. unfold len. induction l as [|i l IH]; [reflexivity|]. cbn [map filter]. destruct (is_some (f i)); cbn [length]; lia. Qed.
Lemma messages_bound c s : config_ok c -> reachable c s -> y_pc s <> PCrash -> len (st_pub (y_state s)) = receive_max (cf_opts c) /\ held_messages (y_state s) <= len (st_order (y_state s)).
Proof.
  intros HC HR HP. unfold held_messages. rewrite (session c s HC HR HP). cbn [session_of st_pub st_order]. set (g := now_ledger c s). set (n := receive_max (cf_opts c)).
  split; [unfold len; rewrite map_length; apply ids_upto_len|]. rewrite filter_map_some. unfold len. match goal with |- ?a <= ?b => enough ((N.to_nat a <= N.to_nat b)%nat) by lia end. rewrite !Nat2N.id.
  apply NoDup_incl_length; [apply NoDup_filter, ids_upto_nodup|]. intros i Hi. apply filter_In in Hi as [_ Hi]. destruct (find _ _) as [x|] eqn:E; [|discriminate Hi].
  apply find_some in E as [E1 E2]. apply in_flat_map. exists x. split; [exact E1|]. unfold named in E2. unfold name_of. destruct (pb_pkid x) as [j|]; [|discriminate]. apply N.eqb_eq in E2. subst. now left.
Qed.
Lemma packets_bound c s : config_ok c -> reachable c s -> held_packets s <= 1.
Proof.
  intros HC HR. unfold held_packets. rewrite (reachable_buf c s HR). revert s HR. change (len (@nil packet)) with 0. apply sys_ind; [exact HC|cbn; lia|].
  intros s e l st w ch n q t HR HI IH HT _. cbn [next y_pc]. destruct HT; try exact IH; try (cbn; lia); unfold reply_pc; destruct (cf_rt c); repeat match goal with r : option packet |- _ => destruct r end; unfold len; cbn; try discriminate; lia.
Qed.

(* identifiers have 16 bits *)
Lemma reads_ok c es s p : Forall event_ok es -> exec c es (init c) = Some s -> In (ORead p) (trace s) -> packet_ok p.
Proof.
  revert s. induction es as [|e es IH] using rev_ind; intros s HF HE HI; [injection HE as <-; destruct HI|].
  apply Forall_app in HF as [HF HX]. apply Forall_inv in HX. rewrite exec_app in HE. destruct (exec c es (init c)) as [s1|] eqn:E1; [|discriminate].
  cbn [exec] in HE. destruct (step c e s1) as [s2|] eqn:ES; [|discriminate]. injection HE as <-.
  assert (reachable c s1) as HR by now exists es. destruct (step_cases c e s1 s2 (reachable_buf _ _ HR) ES) as (l & st & w & ch & n & q & t & HT & ->).
  unfold trace in HI. cbn [next y_log] in HI. rewrite map_app, map_map in HI. cbn [snd] in HI. rewrite map_id in HI. apply in_app_or in HI as [HI|HI]; [exact (IH s1 HF eq_refl HI)|].
  destruct HT; cbn [In] in HI; try (exfalso; revert HI; clear; intuition discriminate);
    try (repeat match type of HI with _ \/ _ => destruct HI as [HI|HI] end; try discriminate HI; try contradiction; injection HI as <-; exact HX).
  all: exfalso; try (apply in_app_or in HI as [HI|HI]; [|destruct HI as [HI|[]]; discriminate HI]).
  all: try (apply tokio_writes_origin in HI as (y & _ & [HI|HI]); discriminate HI).
  all: apply smol_writes_origin in HI as (y & _ & [HI|HI]); discriminate HI.
Qed.
Lemma received_ok (l : list out) : (forall p, In (ORead p) l -> packet_ok p) -> Forall (fun i => i < 65536) (received l).
Proof.
  induction l as [|o l IH] using rev_ind; intros H; [constructor|]. rewrite received_snoc. assert (Forall (fun i => i < 65536) (received l)) as HF by (apply IH; intros p Hp; apply H, in_or_app; now left).
  assert (forall p, o = ORead p -> packet_ok p) as HO by (intros p ->; apply H, in_or_app; right; now left).
  destruct o; try exact HF; cbn [in_step].
  - destruct p; try exact HF. destruct (ca_rc c); try exact HF. constructor.
  - specialize (HO p eq_refl). destruct p; try exact HF; cbn [in_after].
    + destruct (pb_qos p); try exact HF. destruct (pb_pkid p) eqn:EP; [|exact HF]. constructor; [|exact HF]. cbn in HO. destruct HO as (_ & HO & _). rewrite EP in HO. exact HO.
    + apply Forall_forall. intros x Hx. apply filter_In in Hx as [Hx _]. rewrite Forall_forall in HF. now apply HF.
Qed.
Lemma below_len l n : sorted l -> Forall (fun i => i < n) l -> len l <= n.
Proof.
  intros HS HF. assert (NoDup l) as HN by now apply sorted_nodup. assert (incl l (map N.of_nat (seq 0 (N.to_nat n)))) as HI.
  { intros i Hi. rewrite Forall_forall in HF. specialize (HF i Hi). cbn in HF. apply in_map_iff. exists (N.to_nat i). split; [lia|]. apply in_seq. lia. }
  pose proof (NoDup_incl_length HN HI) as H. rewrite map_length, seq_length in H. unfold len. lia.
Qed.
Lemma incoming_bound c chk xs w : config_ok c -> Forall wire_ok xs -> wexec c chk xs (winit c chk) = Some w -> len (st_in (y_state (w_sys w))) <= 65536.
Proof.
  intros HC HF HE. destruct (wire_events c chk xs w HF HE) as (es & H1 & H2 & _). assert (reachable c (w_sys w)) as HR by now exists es.
  destruct (conforms c _ HC HR) as [q HQ]. apply below_len; [exact (k_sorted _ _ _ HQ)|]. pose proof (received_ok (trace (w_sys w)) (fun p Hp => reads_ok c es _ p H2 H1 Hp)) as HX.
  rewrite <- (nrun_in _ _ _ (k_run _ _ _ HQ)) in HX. rewrite Forall_forall in *. intros i Hi. apply HX. now apply (k_in _ _ _ HQ).
Qed.

(* the bytes that the tokio reader has taken are not a packet yet *)
Lemma take_undecided chk r : undecided r -> match take_chunk Tokio chk r with SMore r' | SPacket _ r' => undecided r' | _ => True end.
Proof.
  intros H. unfold take_chunk. destruct (sr_in r) as [|[|b ch] rest]; [exact I|exact I|]. unfold tokio_take. destruct (aread_packet _) eqn:E; try exact I; [now left|now right].
Qed.
Lemma tokio_undecided c chk w : cf_rt c = Tokio -> wreachable c chk w -> undecided (w_new w) /\ undecided (w_net w).
Proof.
  intros RT [xs H]. revert w H. induction xs as [|x xs IH] using rev_ind; intros w H; [injection H as <-; split; now left|].
  rewrite wexec_app in H. destruct (wexec c chk xs (winit c chk)) as [w1|]; [|discriminate]. destruct (IH w1 eq_refl) as [H1 H2]. clear IH. cbn [wexec] in H.
  destruct (wstep c chk x w1) as [w2|] eqn:ES; [|discriminate]. injection H as <-. destruct x as [[] ch| |e]; cbn [wstep] in ES.
  - injection ES as <-. split; [exact H1|exact H2].
  - injection ES as <-. split; [exact H1|exact H2].
  - unfold wread in ES. destruct (w_dead w1); [discriminate|]. rewrite RT in ES.
    assert (forall r put w', undecided r -> (forall r' s, undecided r' -> undecided (w_new (put r' s)) /\ undecided (w_net (put r' s))) ->
      read_result c (take_chunk Tokio chk r) put r (w_sys w1) = Some w' -> undecided (w_new w') /\ undecided (w_net w')) as HG.
    { intros r put w' Hr Hp HR. pose proof (take_undecided chk r Hr) as HT. unfold read_result in HR. rewrite RT in HR. destruct (take_chunk Tokio chk r); try discriminate HR.
      - destruct (y_pc (w_sys w1)); injection HR as <-; now apply Hp.
      - destruct (step c _ _); [|discriminate]. injection HR as <-. now apply Hp.
      - destruct (step c _ _); [|discriminate]. injection HR as <-. now apply Hp.
      - injection HR as <-. now apply Hp. }
    destruct (y_pc (w_sys w1)); try discriminate ES; (eapply HG; [| |exact ES]; [assumption|intros r' s Hr'; cbn; now split]).
  - unfold wevents in ES. destruct (_ || _); [discriminate|]. destruct (step c e (w_sys w1)) as [s|]; [|discriminate]. injection ES as <-.
    destruct e; cbn [w_new w_net]; try (split; [exact H1|destruct (Wire.opens _ _ _); assumption]); rewrite ?RT; cbn [drop_read]; (split; [first [exact H1|now left]|first [exact H2|now left]]).
Qed.

(* every message is taken *)
Lemma publish_taken c s k x : config_ok c -> reachable c s -> y_pc s = PSelect k -> (pb_qos x <> AtMostOnce -> pb_pkid x <> None) ->
  exists s', step c (EPacket (PPublish x)) s = Some s' /\
    (trace s' = trace s ++ [ORead (PPublish x); OHandle (PPublish x)] \/
     pb_qos x = ExactlyOnce /\ (pb_dup x = true \/ exists i, pb_pkid x = Some i /\ In i (received (trace s))) /\ trace s' = trace s ++ [ORead (PPublish x)]).
Proof.
  intros HC HR HP HQ. destruct (step c (EPacket (PPublish x)) s) as [s'|] eqn:ES; [|cbn [step] in ES; rewrite HP in ES; discriminate ES]. exists s'. split; [reflexivity|].
  destruct (step_cases c _ s s' (reachable_buf _ _ HR) ES) as (l & st & w & ch & n & q & t & HT & ->).
  unfold trace. cbn [next y_log]. rewrite map_app, map_map. cbn [snd]. rewrite map_id.
  assert (exists r b, snd (handle_incoming_packet (PPublish x) (y_state s)) = HOk (r, b) /\ (b = false -> pb_qos x = ExactlyOnce /\
    (pb_dup x = true \/ exists i, pb_pkid x = Some i /\ In i (received (map snd (y_log s)))))) as (r & b & HH & HB).
  { cbn [handle_incoming_packet]. unfold handle_incoming_publish. destruct (pb_qos x) eqn:EQ.
    - do 2 eexists. split; [reflexivity|discriminate].
    - destruct (pb_pkid x); [|now elim HQ]. do 2 eexists. split; [reflexivity|discriminate].
    - destruct (pb_pkid x) as [i|] eqn:EI; [|now elim HQ]. destruct (conforms c s HC HR) as [qq HX]. pose proof (insert_flag i _ (k_sorted _ _ _ HX)) as HF.
      destruct (set_insert i (st_in (y_state s))) as [l' b] eqn:EI2. cbn [snd] in *. assert (add_incoming_pub i (y_state s) = (State (st_pool (y_state s)) (st_sub (y_state s)) (st_unsub (y_state s)) (st_pub (y_state s)) (st_order (y_state s)) (st_rel (y_state s)) l', HOk b)) as EA by (unfold add_incoming_pub; now rewrite EI2). exists (Some (PPubRec (plain_ack i))), (b && negb (pb_dup x)). split; [unfold mbind; rewrite EA; reflexivity|]. intros HZ. split; [reflexivity|]. subst b.
      apply andb_false_elim in HZ as [HZ|HZ]; [|left; now destruct (pb_dup x)]. right. exists i. split; [reflexivity|]. apply negb_false_iff in HZ. apply LabelFacts.mem_ex in HZ.
      change (map snd (y_log s)) with (trace s). rewrite <- (nrun_in _ _ _ (k_run _ _ _ HX)). now apply (k_in _ _ _ HX). }
  inversion HT; subst; try congruence; try discriminate; try (match goal with H : handle_incoming_packet _ _ = _ |- _ => rewrite H in HH; cbn [snd] in HH end); try discriminate HH.
  - now left.
  - injection HH as <- <-. right. destruct (HB eq_refl) as [HB1 HB2]. auto.
Qed.

(* while the broker sends whole packets *)
Lemma tokio_lawful c chk w ps bs fut : cf_rt c = Tokio -> wreachable c chk w -> Forall2 sent ps bs -> sr_all (w_net w) ++ fut = concat bs -> sr_torn (w_net w) = false ->
  sr_buf (w_net w) = [] \/ exists b t, In b bs /\ b = sr_buf (w_net w) ++ t /\ t <> [].
Proof.
  intros RT HR HF HE HT. destruct (wire_good _ _ _ HR) as [_ HG]. destruct (HG ps bs fut HF HE HT) as (ps1 & ps2 & bs1 & bs2 & _ & -> & _ & _ & _ & _ & HP & _).
  destruct (sr_buf (w_net w)) as [|x r] eqn:EB; [now left|]. right. destruct (HP RT) as (b & bs' & t & -> & E & N); [discriminate|]. exists b, t.
  split; [apply in_or_app; right; now left|now split].
Qed.
