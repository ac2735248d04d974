(* C73: the client and a broker that sends messages of QoS 1 and 2 and keeps MQTT 5 (4.3, 4.4), connected by a network
   that may break at any time (SpecPolite.v: line, notices).

   The broker numbers its messages, sends what is not yet acknowledged again (with DUP) when the client comes back to its
   session, and once per connection; it may forget the session when no client is connected.  It may ignore any packet,
   and send anything else at any time. *)
From Verif Require Import Base VarInt Prims Props Codes Packets Options Session Client System SpecSession SpecPolite.

(* what is seen of both: an observation of the client; the broker sends a message for the first time; it has been told
   that the client has the message (PUBACK or PUBCOMP) *)
Inductive moment := Client (o : out) | Start (x : publish) | Finish (x : publish).

(* so_in: the broker has accepted CONNECT on this connection.  so_session: it has a session.  so_out: the messages not yet
   acknowledged, and whether PUBREC was received.  so_again: those to be sent again on this connection. *)
Record source := Source {
  so_line : line;
  so_in : bool;
  so_session : bool;
  so_out : list (publish * bool);
  so_again : list (publish * bool);
  so_log : list moment }.
Definition source0 : source := Source line0 false false [] [] [].

Definition numbered (i : N) (e : publish * bool) : bool := match pb_pkid (fst e) with Some j => j =? i | None => false end.
Definition repeated (x : publish) : publish := Publish true (pb_qos x) (pb_retain x) (pb_topic x) (pb_pkid x) (pb_props x) (pb_payload x).
(* what is sent again for a message *)
Definition again_with (e : publish * bool) (p : packet) : Prop :=
  if snd e then exists b, p = PPubRel b /\ pb_pkid (fst e) = Some (ak_id b) else p = PPublish (repeated (fst e)).
Definition withheld (p : packet) : bool :=
  match p with PConnAck _ | PPubRel _ => true | PPublish x => match pb_qos x with AtMostOnce => false | _ => true end | _ => false end.

(* what an observation of the client means *)
Definition sees (o : out) (w w' : source) : Prop :=
  noticed o (so_line w) (so_line w') /\ so_log w' = so_log w ++ [Client o] /\ so_session w' = so_session w /\ so_out w' = so_out w /\
  match o with
  | OConnect => so_in w' = false /\ so_again w' = []
  | _ => so_in w' = so_in w /\ so_again w' = so_again w
  end.
Inductive sees_all : list out -> source -> source -> Prop :=
| see_nil w : sees_all [] w w
| see_cons o l w w' w'' : sees o w w' -> sees_all l w' w'' -> sees_all (o :: l) w w''.

Inductive source_step : source -> source -> Prop :=
| so_accept cn a us u d v h out ag l : ca_rc a = RSuccess -> (ca_session_present a = true -> h = true /\ cn_clean_start cn = false) ->
    source_step (Source (Line us (PConnect cn :: u) d v) false h out ag l)
      (Source (Line us u (d ++ [PConnAck a]) v) true true (if ca_session_present a then out else []) (if ca_session_present a then out else []) l)
| so_refuse cn a us u d v h out ag l : ca_rc a <> RSuccess ->
    source_step (Source (Line us (PConnect cn :: u) d v) false h out ag l) (Source (Line us [] (d ++ [PConnAck a]) false) false h out ag l)
| so_start x i us u d v h out ag l : pb_qos x <> AtMostOnce -> pb_dup x = false -> pb_pkid x = Some i -> existsb (numbered i) out = false ->
    source_step (Source (Line us u d v) true h out ag l) (Source (Line us u (d ++ [PPublish x]) v) true h (out ++ [(x, false)]) ag (l ++ [Start x]))
| so_resend e p us u d v h out a1 a2 l : again_with e p ->
    source_step (Source (Line us u d v) true h out (a1 ++ e :: a2) l) (Source (Line us u (d ++ [p]) v) true h out (a1 ++ a2) l)
| so_puback a x us u d v h o1 o2 ag l : pb_qos x = AtLeastOnce -> pb_pkid x = Some (ak_id a) ->
    source_step (Source (Line us (PPubAck a :: u) d v) true h (o1 ++ (x, false) :: o2) ag l) (Source (Line us u d v) true h (o1 ++ o2) ag (l ++ [Finish x]))
| so_pubrec a b x us u d v h o1 o2 ag l : pb_qos x = ExactlyOnce -> pb_pkid x = Some (ak_id a) -> ak_id b = ak_id a ->
    source_step (Source (Line us (PPubRec a :: u) d v) true h (o1 ++ (x, false) :: o2) ag l)
      (Source (Line us u (d ++ [PPubRel b]) v) true h (o1 ++ (x, true) :: o2) ag l)
| so_pubcomp a x us u d v h o1 o2 ag l : pb_pkid x = Some (ak_id a) ->
    source_step (Source (Line us (PPubComp a :: u) d v) true h (o1 ++ (x, true) :: o2) ag l) (Source (Line us u d v) true h (o1 ++ o2) ag (l ++ [Finish x]))
| so_ignore p us u d v n h out ag l : source_step (Source (Line us (p :: u) d v) n h out ag l) (Source (Line us u d v) n h out ag l)
| so_send p us u d v h out ag l : withheld p = false -> source_step (Source (Line us u d v) true h out ag l) (Source (Line us u (d ++ [p]) v) true h out ag l)
| so_cut us u d v n h out ag l : source_step (Source (Line us u d v) n h out ag l) (Source (Line us [] d false) false h out [] l)
| so_forget us u d v h out ag l : source_step (Source (Line us u d v) false h out ag l) (Source (Line us u d v) false false [] [] l).

(* the client and the broker together *)
Inductive sourced (c : config) : sys -> source -> Prop :=
| sr_init : sourced c (init c) source0
| sr_client s w e s' l w' : sourced c s w -> step c e s = Some s' -> trace s' = trace s ++ l -> sees_all l w w' -> sourced c s' w'
| sr_broker s w w' : sourced c s w -> source_step w w' -> sourced c s w'.

(* ---- what is to be seen of a message --------------------------------------------------------- *)
Definition copy_of (x y : publish) : Prop := y = x \/ y = repeated x.
Definition not_start (i : N) (m : moment) : Prop := match m with Start y => pb_pkid y <> Some i | _ => True end.
(* x is the last message sent with identifier i; what has been seen since *)
Definition since (i : N) (l : list moment) (x : publish) (m : list moment) : Prop :=
  exists l0, l = l0 ++ Start x :: m /\ pb_pkid x = Some i /\ Forall (not_start i) m.
