(* What the client may put on the wire, independently of how the code gets there: MQTT 5, sections 2.2.1,
   3.1.0, 3.3.1, 3.14.4. *)
From Verif Require Import Base VarInt Prims Props Codes Packets SpecCodec SpecOptions Options Session Client System SpecSession.

(* options made by the setters, called with arguments in the range of their types *)
Definition built (c : config) : Prop :=
  exists id l, str_ok id /\ Forall setting_ok l /\ cf_opts c = configure id l.

(* What Rust's types say about the arguments of a call: texts are UTF-8.  Besides: properties fit into
   their fields and belong to the packet, and there is a topic. *)
Definition call_ok (k : call) : Prop :=
  match k with
  | CPublish _ _ topic payload ps => utf8 topic /\ all_bytes payload /\ props_ok publish_cfg ps
  | CSubscribe ts ps => ts <> [] /\ Forall (fun t => utf8 (fst t)) ts /\ props_ok subscribe_cfg ps
  | CUnsubscribe ts ps => ts <> [] /\ Forall utf8 ts /\ props_ok unsubscribe_cfg ps
  | CDisconnect d => code_ok disconnect_codes (dc_rc d) /\ props_ok disconnect_cfg (dc_props d)
  end.
(* what the environment does is of the right type *)
Definition event_ok (e : event) : Prop :=
  match e with ECall k => call_ok k | EPacket p => packet_ok p | _ => True end.

Definition plain (a : ack) : Prop := ak_rc a = RSuccess /\ ak_props a = no_props.

(* A packet that may be sent, given who asked for it.  Identifiers of requests are not 0 (2.2.1); DUP is
   set exactly on publishes that are sent again and never with QoS 0 (3.3.1.1). *)
Definition lawful (o : origin) (p : packet) : Prop :=
  well_formed p /\
  match o, p with
  | FromConnect, PConnect _ => True
  | FromClient, PPublish x => pb_dup x = false /\ pb_pkid x <> Some 0
  | FromClient, PSubscribe x => sb_id x <> 0
  | FromClient, PUnsubscribe x => ub_id x <> 0
  | FromClient, PDisconnect _ => True
  | FromReply, (PPubAck a | PPubRec a | PPubComp a) => plain a
  | FromReply, PPubRel a => plain a /\ ak_id a <> 0
  | FromResend, PPublish x => pb_dup x = true /\ pb_qos x <> AtMostOnce /\ pb_pkid x <> Some 0
  | FromResend, PPubRel a => plain a /\ ak_id a <> 0
  | FromTimer, PPingReq => True
  | FromTimer, PDisconnect d => dc_rc d = RKeepAliveTimeout /\ dc_props d = no_props
  | _, _ => False
  end.
(* the bytes of a packet *)
Definition wire_bytes (rt : runtime) (p : packet) : bytes :=
  match rt with Tokio => w_bytes (awrite_packet p) | Smol => w_bytes (write_packet p) end.

(* What is sent on each connection, as seen from the log: the packets in order, each with "completely
   written".  A connection begins with a call of connect.  When connect succeeds it replaces the one in use;
   when connect fails it is closed.  When run returns the one in use is closed. *)
Definition sending := list (packet * bool).
Record lines := Lines { ln_closed : list sending; ln_used : option sending; ln_new : option sending }.
Definition lines0 : lines := Lines [] None None.
Definition put (x : packet * bool) (n : lines) : lines :=
  match ln_new n with
  | Some k => Lines (ln_closed n) (ln_used n) (Some (k ++ [x]))
  | None => Lines (ln_closed n) (match ln_used n with Some k => Some (k ++ [x]) | None => None end) None
  end.
Definition lines_step (n : lines) (o : out) : lines :=
  match o with
  | OConnect => Lines (ln_closed n) (ln_used n) (Some [])
  | OConnectEnd None => Lines (ln_closed n ++ opt_list (ln_used n)) (ln_new n) None
  | OConnectEnd (Some _) => Lines (ln_closed n ++ opt_list (ln_new n)) (ln_used n) None
  | ORunEnd _ => Lines (ln_closed n ++ opt_list (ln_used n)) None None
  | OWrite _ p => put (p, true) n
  | OWriteFail _ p => put (p, false) n
  | _ => n
  end.
Definition lines_of (l : list out) : lines := fold_left lines_step l lines0.
Definition sendings (l : list out) : list sending :=
  let n := lines_of l in ln_closed n ++ opt_list (ln_used n) ++ opt_list (ln_new n).

Definition is_connect (x : packet * bool) : bool := match fst x with PConnect _ => true | _ => false end.
Definition is_disconnect (x : packet * bool) : bool := match fst x with PDisconnect _ => true | _ => false end.
(* the first packet is CONNECT and no other is; nothing follows DISCONNECT *)
Definition framed (k : sending) : Prop :=
  match k with
  | [] => True
  | x :: rest => is_connect x = true /\ Forall (fun y => is_connect y = false) rest
  end /\
  forall a x b, k = a ++ x :: b -> is_disconnect x = true -> b = [].
(* nothing is written after a write that failed *)
Definition stops (k : sending) : Prop := exists a b, k = map (fun p => (p, true)) a ++ map (fun p => (p, false)) b.
(* the bytes that surely went out, in order *)
Definition sent_packets (k : sending) : list packet := map fst (filter snd k).
Definition sent_bytes (rt : runtime) (k : sending) : bytes := concat (map (wire_bytes rt) (sent_packets k)).

(* ---- the limits that the broker announces in CONNACK (3.2.2.3) -------------------------------- *)
Definition announce (a : option connack) (o : out) : option connack :=
  match o with
  | OAnswer (PConnAck x) => match ca_rc x with RSuccess => Some x | _ => a end
  | _ => a
  end.
(* the last CONNACK that accepted *)
Definition announced (l : list out) : option connack := fold_left announce l None.
(* 3.2.2.3.3, 3.2.2.3.4, 3.2.2.3.5, 3.2.2.3.6 *)
Definition quota (a : connack) : N := match receive_maximum (ca_props a) with Some n => n | None => 65535 end.
Definition top_qos (a : connack) : qos := match maximum_qos (ca_props a) with Some q => q | None => ExactlyOnce end.
Definition may_retain (a : connack) : Prop := retain_available (ca_props a) <> Some false.
Definition size_limit (a : connack) (n : N) : Prop := match maximum_packet_size (ca_props a) with Some m => n <= m | None => True end.
Definition qos_num (q : qos) : N := match q with AtMostOnce => 0 | AtLeastOnce => 1 | ExactlyOnce => 2 end.
(* publishes of QoS 1 and 2 whose exchange has not ended (4.9) *)
Definition unfinished (g : ledger) : N := len (filter is_pub (lg_sent g)) + len (lg_rel g).
