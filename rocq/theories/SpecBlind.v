(* C83: what the client looks at in the packets it reads.  Everything else is handed to the application and has no influence on what the client does. *)
From Verif Require Import Base Prims Props Codes Packets SpecSession Client System.

Definition blank : props := no_props.
Definition only_id (a : ack) : ack := Ack (ak_id a) RSuccess blank.
Definition only_sid (a : suback) : suback := SubAck (sa_id a) blank [].
(* of PUBLISH: the QoS, with QoS 1 and 2 the identifier, with QoS 2 the duplicate flag; of acknowledgements the identifier, of PUBREC whether it
   accepts; of CONNACK the reason code, and if that is success, whether there is a session and the keep-alive interval; of the rest the kind *)
Definition seen (p : packet) : packet :=
  match p with
  | PPublish x =>
      match pb_qos x with
      | AtMostOnce => PPublish (Publish false AtMostOnce false [] None blank [])
      | AtLeastOnce => PPublish (Publish false AtLeastOnce false [] (pb_pkid x) blank [])
      | ExactlyOnce => PPublish (Publish (pb_dup x) ExactlyOnce false [] (pb_pkid x) blank [])
      end
  | PPubAck a => PPubAck (only_id a)
  | PPubRec a => PPubRec (Ack (ak_id a) (if rec_accepts (ak_rc a) then RSuccess else RUnspecifiedError) blank)
  | PPubRel a => PPubRel (only_id a)
  | PPubComp a => PPubComp (only_id a)
  | PSubAck a => PSubAck (only_sid a)
  | PUnsubAck a => PUnsubAck (only_sid a)
  | PConnAck a =>
      match ca_rc a with
      | RSuccess => PConnAck (ConnAck (ca_session_present a) RSuccess (match server_keep_alive (ca_props a) with Some k => set_prop ServerKeepAlive (V16 k) blank | None => blank end))
      | r => PConnAck (ConnAck false r blank)
      end
  | PConnect _ => PConnect (Connect false None None None 0 blank [])
  | PSubscribe _ => PSubscribe (Subscribe 0 blank [])
  | PUnsubscribe _ => PUnsubscribe (Unsubscribe 0 blank [])
  | PDisconnect _ => PDisconnect (Disconnect RSuccess blank)
  | PAuth _ => PAuth (Disconnect RSuccess blank)
  | PPingReq => PPingReq
  | PPingResp => PPingResp
  end.
(* executions and observations in which only that is visible of the packets read *)
Definition event_seen (e : event) : event := match e with EPacket p => EPacket (seen p) | _ => e end.
Definition out_seen (o : out) : out :=
  match o with
  | OAnswer p => OAnswer (seen p)
  | ORead p => ORead (seen p)
  | OHandle p => OHandle (seen p)
  | OConnectEnd (Some (NotConnAck p)) => OConnectEnd (Some (NotConnAck (seen p)))
  | _ => o
  end.
Definition timed (x : N * out) : N * out := (fst x, out_seen (snd x)).
