(* Concrete executions for P_Session.v and P_Loop.v. *)
From Coq Require Import Permutation.
From Verif Require Import Base VarInt Prims Props Codes Packets Options Session Client System SpecSession SpecNet SpecTrace Scenario IdMore.

Definition at_trace (k : nat) (s : sys) : list out := firstn k (trace s).
Definition past (k : nat) (s : sys) : list out := skipn k (trace s).

Definition lc_pub (d : bool) (q : qos) (i : option N) : publish := Publish d q false sc_topic i no_props sc_payload.

(* three publishes: the first waits for PUBACK, the second has been released, the third waits for
   PUBREC; and a subscription; then the connection is lost *)
Definition lc_three (rt : runtime) : list event :=
  sc_connect false ++ sc_do (sc_pub AtLeastOnce) ++ sc_do (sc_pub ExactlyOnce) ++ sc_do sc_sub ++
  sc_in_reply (PPubRec (sc_ack 2)) ++ sc_do (sc_pub ExactlyOnce) ++ [EReadErr Io].
Definition lc_resume (present : bool) (oks : list bool) : list event :=
  [EConnect; EWrite true; EPacket (sc_connack present); EHandled; EWrites oks true; ERun].


(* the place of the first observation that satisfies f, and the trace around it *)
Fixpoint find_nat (f : out -> bool) (l : list out) : nat :=
  match l with [] => O | o :: l' => if f o then O else S (find_nat f l') end.
Definition before (f : out -> bool) (l : list out) : list out := firstn (find_nat f l) l.
Definition behind (f : out -> bool) (l : list out) : list out := skipn (S (find_nat f l)) l.
Definition rbefore (f : out -> bool) (l : list out) : list out := rev (behind f (rev l)).
Definition rbehind (f : out -> bool) (l : list out) : list out := rev (before f (rev l)).
Definition is_answer (o : out) : bool := match o with OAnswer _ => true | _ => false end.
Definition is_read (o : out) : bool := match o with ORead _ => true | _ => false end.
Definition is_reply (o : out) : bool := match o with OWrite FromReply _ => true | _ => false end.
Definition is_end (o : out) : bool := match o with ORunEnd _ => true | _ => false end.

Definition lc_cfg (rt : runtime) : config := sc rt 10 10 false.
Definition lc_run (rt : runtime) (present : bool) (oks : list bool) : sys := run_to (lc_cfg rt) (lc_three rt ++ lc_resume present oks).

Lemma no_out (f : out -> bool) (l : list out) o : existsb f l = false -> f o = true -> ~ In o l.
Proof. intros H1 H2 H3. enough (existsb f l = true) by congruence. apply existsb_exists. exists o. auto. Qed.
Lemma has_out (f : out -> bool) (l : list out) o : existsb f l = true -> (forall x, f x = true -> x = o) -> In o l.
Proof. intros H1 H2. apply existsb_exists in H1. destruct H1 as (x & H3 & H4). now rewrite (H2 x H4) in H3. Qed.
Definition is_client (o : out) : bool := match o with OWrite FromClient _ => true | _ => false end.
Definition is_fail (o : out) : bool := match o with OWriteFail FromClient _ => true | _ => false end.
Definition is_msg (o : out) : bool := match o with OHandle (PPublish _) => true | _ => false end.
(* a publish resent with identifier 1 *)
Definition is_re1 (o : out) : bool :=
  match o with OWrite FromResend (PPublish x) => match pb_pkid x with Some 1 => true | _ => false end | _ => false end.
(* what could end the exchange of identifier 1 *)
Definition ends_1 (o : out) : bool :=
  match o with ORead (PPubAck a) | ORead (PPubComp a) | ORead (PPubRec a) => ak_id a =? 1 | OAnswer (PConnAck a) => negb (resumed false a) | _ => false end.

Ltac here := vm_compute; repeat first [left; reflexivity|right].
Ltac calc := vm_compute; first [reflexivity|discriminate].

Lemma resume_case : forall rt, exists s l1 a m l2, config_ok (lc_cfg rt) /\ reachable (lc_cfg rt) s /\
  trace s = l1 ++ OAnswer (PConnAck a) :: m ++ OConnectEnd None :: l2 /\ existsb is_connect_end m = false /\ resumed false a = true /\
  filter is_pub (lg_sent (ledger_of false l1)) = [PPublish (lc_pub false AtLeastOnce (Some 1)); PPublish (lc_pub false ExactlyOnce (Some 4))] /\
  lg_rel (ledger_of false l1) = [2].
Proof.
  intros rt. exists (lc_run rt true []), (rbefore is_answer (trace (lc_run rt true []))), (ConnAck true RSuccess no_props),
    (before is_opened (rbehind is_answer (trace (lc_run rt true [])))), (behind is_opened (rbehind is_answer (trace (lc_run rt true [])))).
  split; [destruct rt; cfg|]. split; [destruct rt; reach|]. destruct rt; repeat split; calc.
Qed.
Lemma anew_case : forall rt, exists s l1 a m l2, config_ok (lc_cfg rt) /\ reachable (lc_cfg rt) s /\
  trace s = l1 ++ OAnswer (PConnAck a) :: m ++ OConnectEnd None :: l2 /\ existsb is_connect_end m = false /\ resumed false a = false /\
  ca_rc a = RSuccess /\ y_pc s = PSelect 0 /\
  awaited (ledger_of false l1) (PPubAck (sc_ack 1)) = true /\ awaited (ledger_of false l1) (PPubComp (sc_ack 2)) = true /\
  (forall r, ~ In (OWrite FromClient r) (m ++ OConnectEnd None :: l2)).
Proof.
  intros rt. exists (lc_run rt false []), (rbefore is_answer (trace (lc_run rt false []))), (ConnAck false RSuccess no_props),
    (before is_opened (rbehind is_answer (trace (lc_run rt false [])))), (behind is_opened (rbehind is_answer (trace (lc_run rt false [])))).
  split; [destruct rt; cfg|]. split; [destruct rt; reach|].
  repeat (split; [destruct rt; calc|]). intros r. apply (no_out is_client); [destruct rt; calc|reflexivity].
Qed.

(* tokio: the write of the first publish fails, connect succeeds nevertheless *)
Lemma resend_lost : exists s l1 a m l2 p, config_ok (lc_cfg Tokio) /\ reachable (lc_cfg Tokio) s /\
  trace s = l1 ++ OAnswer (PConnAck a) :: m ++ OConnectEnd None :: l2 /\ existsb is_connect_end m = false /\ resumed false a = true /\
  In p (map dup (filter is_pub (lg_sent (ledger_of false l1)))) /\ ~ In (OWrite FromResend p) (trace s) /\ y_pc s = PSelect 0.
Proof.
  exists (lc_run Tokio true [false]), (rbefore is_answer (trace (lc_run Tokio true [false]))), (ConnAck true RSuccess no_props),
    (before is_opened (rbehind is_answer (trace (lc_run Tokio true [false])))), (behind is_opened (rbehind is_answer (trace (lc_run Tokio true [false])))),
    (PPublish (lc_pub true AtLeastOnce (Some 1))).
  split; [cfg|]. split; [reach|]. split; [calc|]. split; [calc|]. split; [calc|]. split; [here|]. split; [|calc].
  apply (no_out is_re1); calc.
Qed.

(* incoming messages *)
Definition lc_in (rt : runtime) (p : packet) : list event := [EPacket p; EHandled; EWrite true].
Lemma qos1_case : forall rt, exists s l1 l2, config_ok (lc_cfg rt) /\ reachable (lc_cfg rt) s /\
  trace s = l1 ++ ORead (PPublish (lc_pub false AtLeastOnce (Some 7))) :: l2 /\
  l2 = [OHandle (PPublish (lc_pub false AtLeastOnce (Some 7))); OHandled; OWrite FromReply (PPubAck (okay 7))].
Proof.
  intros rt. pose (es := sc_connect false ++ lc_in rt (PPublish (lc_pub false AtLeastOnce (Some 7)))).
  exists (run_to (lc_cfg rt) es), (before is_read (trace (run_to (lc_cfg rt) es))), (behind is_read (trace (run_to (lc_cfg rt) es))).
  split; [destruct rt; cfg|]. split; [destruct rt; reach|]. destruct rt; split; calc.
Qed.
Lemma qos0_case : forall rt, exists s l1 l2, config_ok (lc_cfg rt) /\ reachable (lc_cfg rt) s /\
  trace s = l1 ++ ORead (PPublish (lc_pub false AtMostOnce None)) :: l2 /\ l2 = [OHandle (PPublish (lc_pub false AtMostOnce None)); OHandled].
Proof.
  intros rt. pose (es := sc_connect false ++ [EPacket (PPublish (lc_pub false AtMostOnce None)); EHandled]).
  exists (run_to (lc_cfg rt) es), (before is_read (trace (run_to (lc_cfg rt) es))), (behind is_read (trace (run_to (lc_cfg rt) es))).
  split; [destruct rt; cfg|]. split; [destruct rt; reach|]. destruct rt; split; calc.
Qed.
(* a QoS 2 message, repeated, released, and a new one with the same identifier *)
Definition lc_q2 : packet := PPublish (lc_pub false ExactlyOnce (Some 7)).
Definition lc_q2d : packet := PPublish (lc_pub true ExactlyOnce (Some 7)).
Lemma qos2_case : forall rt, exists s l1 m l2, config_ok (lc_cfg rt) /\ reachable (lc_cfg rt) s /\
  trace s = l1 ++ OHandle lc_q2 :: m ++ OHandle lc_q2 :: l2 /\ q2 7 lc_q2 /\
  m = [OHandled; OWrite FromReply (PPubRec (okay 7)); ORead lc_q2d; OWrite FromReply (PPubRec (okay 7));
       ORead (PPubRel (sc_ack 7)); OHandle (PPubRel (sc_ack 7)); OHandled; OWrite FromReply (PPubComp (okay 7)); ORead lc_q2].
Proof.
  intros rt. pose (es := sc_connect false ++ lc_in rt lc_q2 ++ [EPacket lc_q2d; EWrite true] ++ lc_in rt (PPubRel (sc_ack 7)) ++ lc_in rt lc_q2).
  set (s := run_to (lc_cfg rt) es). exists s, (firstn 8 (trace s)), (firstn 9 (skipn 9 (trace s))), (skipn 19 (trace s)).
  split; [destruct rt; cfg|]. split; [destruct rt; reach|]. split; [destruct rt; calc|]. split; [|destruct rt; calc]. eexists. repeat split.
Qed.
(* the first copy that arrives has the duplicate flag: it is acknowledged and released, and the handler
   never sees it *)
Lemma qos2_lost : forall rt, exists s, config_ok (lc_cfg rt) /\ reachable (lc_cfg rt) s /\
  In (ORead lc_q2d) (trace s) /\ In (OWrite FromReply (PPubRec (okay 7))) (trace s) /\ In (OWrite FromReply (PPubComp (okay 7))) (trace s) /\
  (forall p, q2 7 p -> ~ In (OHandle p) (trace s)).
Proof.
  intros rt. pose (es := sc_connect true ++ [EPacket lc_q2d; EWrite true] ++ lc_in rt (PPubRel (sc_ack 7))).
  exists (run_to (lc_cfg rt) es). split; [destruct rt; cfg|]. split; [destruct rt; reach|].
  split; [destruct rt; here|]. split; [destruct rt; here|]. split; [destruct rt; here|].
  intros p (x & -> & _ & _). apply (no_out is_msg); [destruct rt; calc|reflexivity].
Qed.

(* outgoing QoS 2 *)
Lemma release_case : forall rt, exists s l1 m o l2, config_ok (lc_cfg rt) /\ reachable (lc_cfg rt) s /\
  trace s = l1 ++ ORead (PPubComp (sc_ack 1)) :: m ++ o :: l2 /\ In 1 (lg_rel (ledger_of false l1)) /\ o = OWrite FromReply (PPubRel (okay 1)).
Proof.
  intros rt. pose (go := sc_do (sc_pub ExactlyOnce) ++ lc_in rt (PPubRec (sc_ack 1))).
  pose (es := sc_connect false ++ go ++ [EPacket (PPubComp (sc_ack 1)); EHandled] ++ (match rt with Smol => [EWrite true] | Tokio => [] end) ++ concat (repeat (sc_do (sc_pub ExactlyOnce)) 10) ++ lc_in rt (PPubRec (sc_ack 1))).
  set (s := run_to (lc_cfg rt) es).
  exists s, (before (fun o => match o with ORead (PPubComp _) => true | _ => false end) (trace s)),
    (before is_reply (behind (fun o => match o with ORead (PPubComp _) => true | _ => false end) (trace s))), (OWrite FromReply (PPubRel (okay 1))),
    (behind is_reply (behind (fun o => match o with ORead (PPubComp _) => true | _ => false end) (trace s))).
  split; [destruct rt; cfg|]. split; [destruct rt; reach|]. split; [destruct rt; calc|]. split; [destruct rt; here|reflexivity].
Qed.

(* a failed write of a QoS 1 publish; after the reconnection the next one is written *)
Definition lc_x : publish := lc_pub false AtLeastOnce (Some 1).
Definition lc_y : publish := lc_pub false AtLeastOnce (Some 2).
Definition lc_lost (rt : runtime) : list event :=
  sc_connect false ++ [ECall (sc_pub AtLeastOnce); ESend 0; ECall (sc_pub AtLeastOnce); ESend 0; EOutgoing; EWrite false] ++
  sc_connect true ++ [EOutgoing; EWrite true].
Lemma skipped : forall rt, exists s, config_ok (lc_cfg rt) /\ reachable (lc_cfg rt) s /\
  accepted (trace s) = [PPublish lc_x; PPublish lc_y] /\ written (trace s) = [PPublish lc_y].
Proof.
  intros rt. exists (run_to (lc_cfg rt) (lc_lost rt)). split; [destruct rt; cfg|]. split; [destruct rt; reach|]. destruct rt; split; calc.
Qed.
Lemma lost_publish : forall rt, exists s l1 l2, config_ok (lc_cfg rt) /\ reachable (lc_cfg rt) s /\ trace s = l1 ++ OAccept (PPublish lc_x) :: l2 /\
  ~ In (PPublish lc_x) (y_chan s) /\ y_pc s = PSelect 0 /\ ~ In (PPublish lc_x) (lg_sent (now_ledger (lc_cfg rt) s)) /\
  (forall o, In o l2 -> ~ finishes (op_clean_start (cf_opts (lc_cfg rt))) 1 o).
Proof.
  intros rt. set (s := run_to (lc_cfg rt) (lc_lost rt)).
  exists s, (before (fun o => match o with OAccept _ => true | _ => false end) (trace s)), (behind (fun o => match o with OAccept _ => true | _ => false end) (trace s)).
  split; [destruct rt; cfg|]. split; [destruct rt; reach|]. split; [destruct rt; calc|]. split; [assert (H : y_chan s = []) by (destruct rt; calc); rewrite H; exact (fun X => X)|]. split; [destruct rt; calc|].
  split; [assert (H : lg_sent (now_ledger (lc_cfg rt) s) = [PPublish lc_y]) by (destruct rt; calc); rewrite H; intros [H1|[]]; discriminate H1|].
  intros o H HF. revert H. apply (no_out ends_1); [destruct rt; calc|]. revert HF. change (op_clean_start (cf_opts (lc_cfg rt))) with false. unfold finishes.
  destruct o as [p|p|p e|p| | |r| |r|p|p|p| |og p|og p|]; try contradiction; destruct p; try contradiction; cbn [ends_1]; first [intros ->; reflexivity|intros [_ ->]; reflexivity].
Qed.
(* the four places where an accepted publish can be *)
Lemma kept_case : forall rt, exists s l1 l2, config_ok (lc_cfg rt) /\ reachable (lc_cfg rt) s /\ trace s = l1 ++ OAccept (PPublish lc_x) :: l2 /\
  In (PPublish lc_x) (lg_sent (now_ledger (lc_cfg rt) s)) /\ (forall p, ~ In (OWriteFail FromClient p) (trace s)) /\ y_chan s = [PPublish lc_y].
Proof.
  intros rt. set (s := run_to (lc_cfg rt) (sc_connect false ++ sc_do (sc_pub AtLeastOnce) ++ [ECall (sc_pub AtLeastOnce); ESend 0])).
  exists s, (before (fun o => match o with OAccept _ => true | _ => false end) (trace s)), (behind (fun o => match o with OAccept _ => true | _ => false end) (trace s)).
  split; [destruct rt; cfg|]. split; [destruct rt; reach|]. split; [destruct rt; calc|]. split; [destruct rt; here|].
  split; [intros p; apply (no_out is_fail); [destruct rt; calc|reflexivity]|destruct rt; calc].
Qed.

(* disconnect with a request behind it, written after the next connection *)
Lemma disconnect_case : forall rt, exists s l1 d l2, config_ok (lc_cfg rt) /\ reachable (lc_cfg rt) s /\
  trace s = l1 ++ OWrite FromClient (PDisconnect d) :: l2 /\ In (OWrite FromClient (PPublish lc_x)) l2 /\
  In (OAccept (PPublish lc_x)) l1.
Proof.
  intros rt. set (s := run_to (lc_cfg rt) (sc_connect false ++ [ECall (call_disconnect); ESend 0; ECall (sc_pub AtLeastOnce); ESend 0; EOutgoing; EWrite true] ++ sc_connect false ++ [EOutgoing; EWrite true])).
  pose (f := fun o => match o with OWrite FromClient (PDisconnect _) => true | _ => false end).
  exists s, (before f (trace s)), (Disconnect RNormalDisconnection no_props), (behind f (trace s)).
  split; [destruct rt; cfg|]. split; [destruct rt; reach|]. split; [destruct rt; calc|]. split; destruct rt; here.
Qed.
Lemma closed_case : forall rt, exists s l1 r l2, config_ok (lc_cfg rt) /\ reachable (lc_cfg rt) s /\ trace s = l1 ++ ORunEnd r :: l2 /\
  existsb is_opened l2 = false /\ y_pc s = PIdle /\ In (ORunEnd (inr NoNetwork)) l2 /\ In OConnect l2 /\ In OHandled l1.
Proof.
  intros rt. set (s := run_to (lc_cfg rt) (sc_connect false ++ [EReadErr Io; ERun; EConnect; EWrite false])).
  exists s, (before is_end (trace s)), (inr Io), (behind is_end (trace s)).
  split; [destruct rt; cfg|]. split; [destruct rt; reach|]. split; [destruct rt; calc|]. split; [destruct rt; calc|]. split; [destruct rt; calc|].
  repeat split; destruct rt; here.
Qed.
Lemma refused_case : forall rt, exists s l1 p e l2, config_ok (lc_cfg rt) /\ reachable (lc_cfg rt) s /\ trace s = l1 ++ OAnswer p :: l2 /\ refusal p = Some e.
Proof.
  intros rt. set (s := run_to (lc_cfg rt) [EConnect; EWrite true; EPacket (PConnAck (ConnAck true RServerBusy no_props))]).
  exists s, (before is_answer (trace s)), (PConnAck (ConnAck true RServerBusy no_props)), (ConnectionRefused RServerBusy), (behind is_answer (trace s)).
  split; [destruct rt; cfg|]. split; [destruct rt; reach|]. destruct rt; split; calc.
Qed.
