(* The client handle: client.rs *)
From Verif Require Import Base VarInt Prims Props Codes Packets Session.

(* What a user can ask of the client.  publish and publish_with_properties (client.rs L180-200,
   L251-269), subscribe and subscribe_with_properties (L77-86, L138-148), unsubscribe and
   unsubscribe_with_properties (L304-315, L372-383), disconnect and disconnect_with_properties
   (L402-409, L436-440), and their blocking forms (L482-838), which do the same steps in the same
   order.  The forms without properties pass the default properties. *)
Inductive call :=
| CPublish (q : qos) (retain : bool) (topic payload : bytes) (ps : props)
| CSubscribe (topics : list (bytes * sopts)) (ps : props)
| CUnsubscribe (topics : list bytes) (ps : props)
| CDisconnect (d : disconnect).

(* client.rs L402-409: disconnect() *)
Definition call_disconnect : call := CDisconnect (Disconnect RNormalDisconnection no_props).

(* Does the call take an identifier (client.rs L78, L139, L181-184, L252-255, L305, L373)? *)
Definition needs_id (c : call) : bool :=
  match c with
  | CPublish AtMostOnce _ _ _ _ => false
  | CPublish _ _ _ _ _ | CSubscribe _ _ | CUnsubscribe _ _ => true
  | CDisconnect _ => false
  end.

(* the packet, and what validate says about it: client.rs L79-82, L140-145, L187-197, L256-266,
   L306-312, L374-380, L403-406, L437 *)
Definition build (c : call) (id : N) : packet :=
  match c with
  | CPublish q retain topic payload ps =>
    PPublish (Publish false q retain topic (match q with AtMostOnce => None | _ => Some id end) ps payload)
  | CSubscribe topics ps => PSubscribe (Subscribe id ps topics)
  | CUnsubscribe topics ps => PUnsubscribe (Unsubscribe id ps topics)
  | CDisconnect d => PDisconnect d
  end.
Definition validate (max : N) (p : packet) : option verr :=
  match p with
  | PPublish x => validate_publish max x
  | PSubscribe x => validate_subscribe max x
  | PUnsubscribe x => validate_unsubscribe max x
  | _ => None
  end.

(* The part of a call before the send into the channel.  None: the call waits for an identifier.
   Otherwise: the pool after it, and either the refused packet with the error of the validation or the packet to send.
   The validation comes after the identifier has been taken. *)
Definition client_call (max : N) (c : call) (p : pool) : option (pool * (packet * verr + packet)) :=
  let finish (p : pool) (id : N) :=
    let pkt := build c id in
    match validate max pkt with
    | Some e => Some (p, inl (pkt, e))
    | None => Some (p, inr pkt)
    end in
  if needs_id c then
    match pl_ids p with
    | [] => None
    | id :: rest => finish (Pool rest (pl_cap p) (pl_open p)) id
    end
  else finish p 0.
