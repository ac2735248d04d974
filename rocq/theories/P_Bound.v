(* C91: how much the client holds.  C92: the limits that CONNECT announces. *)
From Verif Require Import Base VarInt Prims Props Codes Packets Options Session Client System SmolStream TokioRead Wire SpecCodec SpecSession SpecNet SpecTrace SpecRead SpecEnd SpecBound Scenario LoopCases ReadCases WireCases HoldCases BoundFacts BoundCases.

(* the session never holds more requests than it has identifiers, however many calls the user makes *)
Theorem C91_requests_partial : forall c s, config_ok c -> reachable c s -> y_pc s <> PCrash -> held_requests (y_state s) <= send_max (cf_opts c).
Proof. exact requests_bound. Qed.
Print Assumptions C91_requests_partial.
(* the table of messages never changes its size, and holds no message that is not in the order of messages *)
Theorem C91_messages_partial : forall c s, config_ok c -> reachable c s -> y_pc s <> PCrash ->
  len (st_pub (y_state s)) = receive_max (cf_opts c) /\ held_messages (y_state s) <= len (st_order (y_state s)).
Proof. exact messages_bound. Qed.
Print Assumptions C91_messages_partial.
(* at most one packet waits in the network task to be written *)
Theorem C91_packets_partial : forall c s, config_ok c -> reachable c s -> held_packets s <= 1.
Proof. exact packets_bound. Qed.
Print Assumptions C91_packets_partial.
(* whatever bytes the broker sends, there is at most one entry for each identifier of 16 bits that it can send *)
Theorem C91_incoming_partial : forall c chk xs w, config_ok c -> Forall wire_ok xs -> wexec c chk xs (winit c chk) = Some w -> len (st_in (y_state (w_sys w))) <= 65536.
Proof. exact incoming_bound. Qed.
Print Assumptions C91_incoming_partial.
(* the tokio client has never taken more bytes from the connection than those of one packet of which more has to come *)
Theorem C91_tokio_partial : forall c chk w, cf_rt c = Tokio -> wreachable c chk w -> undecided (w_new w) /\ undecided (w_net w).
Proof. exact tokio_undecided. Qed.
Print Assumptions C91_tokio_partial.
(* while the broker sends whole packets, and no read is abandoned in the middle of one (C53), they are a part of one of its packets *)
Theorem C91_lawful_partial : forall c chk w ps bs fut, cf_rt c = Tokio -> wreachable c chk w -> Forall2 sent ps bs -> sr_all (w_net w) ++ fut = concat bs -> sr_torn (w_net w) = false ->
  sr_buf (w_net w) = [] \/ exists b t, In b bs /\ b = sr_buf (w_net w) ++ t /\ t <> [].
Proof. exact tokio_lawful. Qed.
Print Assumptions C91_lawful_partial.
(* with bytes that are no packet there is no end: a message with the remaining length 10 and a property section of one byte, of which any number of user properties
   has been read *)
Theorem C91_tokio_refuted : forall chk n, exists w, wreachable (lc_cfg Tokio) chk w /\ y_pc (w_sys w) = PSelect (y_now (w_sys w)) /\ sr_buf (w_net w) = endless n /\ sr_in (w_net w) = [].
Proof. intros chk n. destruct (holds_endless chk n) as (w & H & _ & H1 & H2 & H3). exact (ex_intro _ w (conj H (conj H1 (conj H2 H3)))). Qed.
Print Assumptions C91_tokio_refuted.
(* the smol client can hold any number of whole packets that it has taken from the connection and not looked at, while nothing is left to read *)
Theorem C91_smol_refuted : forall chk n, exists w, wreachable (lc_cfg Smol) chk w /\ y_pc (w_sys w) = PSelect (y_now (w_sys w)) /\ sr_buf (w_net w) = responses n /\ sr_in (w_net w) = [].
Proof. intros chk n. destruct (holds_many chk n) as (w & H & _ & H1 & _ & H2 & _ & H3). exact (ex_intro _ w (conj H (conj H1 (conj H2 H3)))). Qed.
Print Assumptions C91_smol_refuted.

(* whatever limits were announced, a message is read, and given to the handler unless it is a repetition; there is no error *)
Theorem C92_taken_partial : forall c s k x, config_ok c -> reachable c s -> y_pc s = PSelect k -> (pb_qos x <> AtMostOnce -> pb_pkid x <> None) ->
  exists s', step c (EPacket (PPublish x)) s = Some s' /\
    (trace s' = trace s ++ [ORead (PPublish x); OHandle (PPublish x)] \/
     pb_qos x = ExactlyOnce /\ (pb_dup x = true \/ exists i, pb_pkid x = Some i /\ In i (received (trace s))) /\ trace s' = trace s ++ [ORead (PPublish x)]).
Proof. exact publish_taken. Qed.
Print Assumptions C92_taken_partial.
(* receive maximum 1 announced, two messages with quality of service 2 taken, neither released *)
Theorem C92_receive_refuted : forall rt, config_ok (bd_one rt) /\ exists s, exec (bd_one rt) bd_two (init (bd_one rt)) = Some s /\
  In (OWrite FromConnect (create_connect (cf_opts (bd_one rt)))) (trace s) /\ op_receive_max (cf_opts (bd_one rt)) = Some 1 /\
  received (trace s) = [2; 1] /\ In (OHandle (bd_q2 2)) (trace s) /\ nt_connected (y_net s) = true.
Proof. exact two_received. Qed.
Print Assumptions C92_receive_refuted.
(* maximum packet size 8 announced, a packet of 17 bytes taken *)
Theorem C92_size_refuted : forall rt, config_ok (bd_small rt) /\ exists s, exec (bd_small rt) (bd_reads bd_large) (init (bd_small rt)) = Some s /\
  In (OWrite FromConnect (create_connect (cf_opts (bd_small rt)))) (trace s) /\ op_max_packet (cf_opts (bd_small rt)) = Some 8 /\
  len (w_bytes (write_packet bd_large)) = 17 /\ In (OHandle bd_large) (trace s).
Proof. exact large_received. Qed.
Print Assumptions C92_size_refuted.
(* no topic aliases announced, a message without topic and with alias 5 given to the handler as it is *)
Theorem C92_alias_refuted : forall rt, config_ok (lc_cfg rt) /\ exists s, exec (lc_cfg rt) (bd_reads bd_alias) (init (lc_cfg rt)) = Some s /\
  In (OWrite FromConnect (create_connect (cf_opts (lc_cfg rt)))) (trace s) /\ op_topic_alias_max (cf_opts (lc_cfg rt)) = None /\ In (OHandle bd_alias) (trace s).
Proof. exact alias_received. Qed.
Print Assumptions C92_alias_refuted.

Example C91_case : forall rt, config_ok (lc_cfg rt) /\ exists s, exec (lc_cfg rt) hd_open (init (lc_cfg rt)) = Some s /\ y_pc s <> PCrash /\
  held_requests (y_state s) = 4 /\ held_messages (y_state s) = 1 /\ len (st_in (y_state s)) = 1.
Proof. exact bound_case. Qed.
Example C91_lawful_case : forall chk, let w := wc_run Tokio chk bd_part in wreachable (lc_cfg Tokio) chk w /\ Forall2 sent [rc_connack; rc_pub] [wc_connack; wc_pub] /\
  sr_all (w_net w) ++ skipn 3 wc_pub = concat [wc_connack; wc_pub] /\ sr_torn (w_net w) = false /\ sr_buf (w_net w) = firstn 3 wc_pub.
Proof. exact lawful_case. Qed.
Example C91_bytes : forall chk, exists xs w, Forall wire_ok xs /\ wexec (lc_cfg Tokio) chk xs (winit (lc_cfg Tokio) chk) = Some w /\ sr_buf (w_net w) = [48; 5; 0; 1; 116].
Proof. exact partly_case. Qed.
(* both answers of C92_taken_partial *)
Example C92_case : forall rt, let c := bd_one rt in exists s s1 s2, exec c (sc_connect false) (init c) = Some s /\ y_pc s = PSelect (y_now s) /\
  step c (EPacket (bd_q2 1)) s = Some s1 /\ trace s1 = trace s ++ [ORead (bd_q2 1); OHandle (bd_q2 1)] /\
  exists t, exec c [EHandled; EWrite true] s1 = Some t /\ step c (EPacket (bd_q2 1)) t = Some s2 /\ trace s2 = trace t ++ [ORead (bd_q2 1)].
Proof. exact taken_case. Qed.
