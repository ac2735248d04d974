(* Words for statements about the log. *)
From Coq Require Import Permutation.
From Verif Require Import Base VarInt Prims Props Codes Packets Options Session Client System SpecSession SpecNet.

(* the observations of the network task *)
Definition net_of (l : list out) : list out := filter (fun o => negb (by_client o)) l.

(* l is as far along the expected sequence e as it goes: it is a beginning of e, or e is a beginning
   of it *)
Definition goes (l e : list out) : Prop := (exists t, e = l ++ t) \/ (exists t, l = e ++ t).

(* QoS 2 messages received and not released, from the log *)
Definition in_step (inn : list N) (o : out) : list N :=
  match o with
  | ORead p => in_after inn p
  | OAnswer (PConnAck a) => match ca_rc a with RSuccess => [] | _ => inn end
  | _ => inn
  end.
Definition received (l : list out) : list N := fold_left in_step l [].
(* an observation that ends the exchange of an incoming QoS 2 message *)
Definition releases (i : N) (o : out) : bool :=
  match o with
  | ORead (PPubRel a) => ak_id a =? i
  | OAnswer (PConnAck a) => match ca_rc a with RSuccess => true | _ => false end
  | _ => false
  end.
Definition unreleased (i : N) (l : list out) : Prop := forall o, In o l -> releases i o = false.

(* p is a QoS 2 message with identifier i *)
Definition q2 (i : N) (p : packet) : Prop :=
  exists x, p = PPublish x /\ pb_qos x = ExactlyOnce /\ pb_pkid x = Some i.

(* what the client answers to a packet, if it answers *)
Definition answer (p : packet) : option packet :=
  match p with
  | PPublish x =>
    match pb_qos x, pb_pkid x with
    | AtLeastOnce, Some i => Some (PPubAck (okay i))
    | ExactlyOnce, Some i => Some (PPubRec (okay i))
    | _, _ => None
    end
  | PPubRec a => if rec_accepts (ak_rc a) then Some (PPubRel (okay (ak_id a))) else None
  | PPubRel a => Some (PPubComp (okay (ak_id a)))
  | _ => None
  end.

Definition is_connect_end (o : out) : bool := match o with OConnectEnd _ => true | _ => false end.
Definition resumed (clean : bool) (a : connack) : bool := ca_session_present a && negb clean.

(* requests accepted by the client, and requests the loop tried to write / has written *)
Definition accepted (l : list out) : list packet := flat_map (fun o => match o with OAccept p => [p] | _ => [] end) l.
Definition tried (l : list out) : list packet :=
  flat_map (fun o => match o with OWrite FromClient p | OWriteFail FromClient p => [p] | _ => [] end) l.
Definition written (l : list out) : list packet :=
  flat_map (fun o => match o with OWrite FromClient p => [p] | _ => [] end) l.
Definition is_write (o : out) : bool := match o with OWrite _ _ | OWriteFail _ _ => true | _ => false end.
Definition is_opened (o : out) : bool := match o with OConnectEnd None => true | _ => false end.
(* p was written, or was to be written and the write failed *)
Definition attempt (org : origin) (p : packet) (o : out) : Prop := o = OWrite org p \/ o = OWriteFail org p.

(* the exchange of publish i is over, or its session is *)
Definition finishes (clean : bool) (i : N) (o : out) : Prop :=
  match o with
  | ORead (PPubAck a) | ORead (PPubRec a) => ak_id a = i
  | OAnswer (PConnAck a) => ca_rc a = RSuccess /\ resumed clean a = false
  | _ => False
  end.
(* the error with which connect answers a packet that is not a successful CONNACK *)
Definition refusal (p : packet) : option cerr :=
  match p with
  | PConnAck a => match ca_rc a with RSuccess => None | r => Some (ConnectionRefused r) end
  | _ => Some (NotConnAck p)
  end.
(* what belongs to an open connection *)
Definition on_connection (o : out) : Prop :=
  match o with
  | ORun | ORead _ | OWrite FromClient _ | OWriteFail FromClient _ | OWrite FromReply _ | OWriteFail FromReply _
  | OWrite FromTimer _ | OWriteFail FromTimer _ => True
  | ORunEnd r => r <> inr NoNetwork
  | _ => False
  end.

(* the identifiers of the requests begun *)
Definition taken (l : list out) : list N :=
  flat_map (fun o => match o with OBegin p => opt_list (req_id p) | _ => [] end) l.
