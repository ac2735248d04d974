(* C71: the client and a broker that acknowledges only what it has received.

   Nothing else is required of the broker's acknowledgements: it may leave packets unanswered, answer them in any order,
   with any reason code, and need not remember anything between connections.  A connection carries packets in order to
   the client; when it breaks, what was on the way to the broker is lost.  A packet whose write failed may or may not
   arrive. *)
From Verif Require Import Base VarInt Prims Props Codes Packets Options Session Client System SpecSession.

(* ln_used: the client uses the connection (connect has succeeded and run has not returned).  ln_up, ln_down: sent and
   not dealt with, to the broker and to the client.  ln_live: what the client writes arrives. *)
Record line := Line { ln_used : bool; ln_up : list packet; ln_down : list packet; ln_live : bool }.
Definition line0 : line := Line false [] [] false.

(* k is the answer to p (MQTT 5, 3.1 to 3.12, 4.3) *)
Definition answer_to (p k : packet) : bool :=
  match p, k with
  | PConnect _, PConnAck _ => true
  | PPublish x, PPubAck a => match pb_qos x, pb_pkid x with AtLeastOnce, Some i => i =? ak_id a | _, _ => false end
  | PPublish x, PPubRec a => match pb_qos x, pb_pkid x with ExactlyOnce, Some i => i =? ak_id a | _, _ => false end
  | PPubRel b, PPubComp a => ak_id b =? ak_id a
  | PSubscribe x, PSubAck a => sb_id x =? sa_id a
  | PUnsubscribe x, PUnsubAck a => ub_id x =? sa_id a
  | PPingReq, PPingResp => true
  | _, _ => false
  end.
(* what a broker may send of its own accord; PUBREL and PINGRESP at any time *)
Definition offers (p : packet) : bool :=
  match p with
  | PPublish x => match pb_qos x with AtMostOnce => true | _ => is_some (pb_pkid x) end
  | PPubRel _ | PPingResp | PDisconnect _ => true
  | _ => false
  end.

Definition arrive (b : bool) (p : packet) (l : list packet) : list packet := if b then l ++ [p] else l.
(* what an observation of the client means for the connection.  The client connects only when it has no connection. *)
Inductive noticed : out -> line -> line -> Prop :=
| no_connect u d v : noticed OConnect (Line false u d v) (Line false [] [] true)
| no_write o p us u d v : noticed (OWrite o p) (Line us u d v) (Line us (arrive v p u) d v)
| no_fail o p arrives on us u d v : noticed (OWriteFail o p) (Line us u d v) (Line us (arrive (v && arrives) p u) d (v && on))
| no_answer p us u d v : noticed (OAnswer p) (Line us u (p :: d) v) (Line us u d v)
| no_read p us u d v : noticed (ORead p) (Line us u (p :: d) v) (Line us u d v)
| no_open us u d v : noticed (OConnectEnd None) (Line us u d v) (Line true u d v)
| no_end e us u d v : noticed (ORunEnd e) (Line us u d v) (Line false u d v)
| no_other o us u d v :
    match o with OConnect | OWrite _ _ | OWriteFail _ _ | OAnswer _ | ORead _ | OConnectEnd None | ORunEnd _ => False | _ => True end ->
    noticed o (Line us u d v) (Line us u d v).
Inductive notices : list out -> line -> line -> Prop :=
| not_nil w : notices [] w w
| not_cons o l w w' w'' : noticed o w w' -> notices l w' w'' -> notices (o :: l) w w''.

Inductive polite : line -> line -> Prop :=
| po_answer p k us u1 u2 d v : answer_to p k = true -> polite (Line us (u1 ++ p :: u2) d v) (Line us (u1 ++ u2) (d ++ [k]) v)
| po_silent p us u1 u2 d v : polite (Line us (u1 ++ p :: u2) d v) (Line us (u1 ++ u2) d v)
| po_send p us u d v : offers p = true -> polite (Line us u d v) (Line us u (d ++ [p]) v)
| po_cut us u d v : polite (Line us u d v) (Line us [] d false).

(* the errors of reading from a connection *)
Definition genuine (e : event) : Prop :=
  match e with EReadErr e => e = Io \/ e = DeserializationError | _ => True end.
(* the client and the broker together *)
Inductive with_broker (c : config) : sys -> line -> Prop :=
| wb_init : with_broker c (init c) line0
| wb_client s w e s' l w' : with_broker c s w -> genuine e -> step c e s = Some s' -> trace s' = trace s ++ l -> notices l w w' -> with_broker c s' w'
| wb_broker s w w' : with_broker c s w -> polite w w' -> with_broker c s w'.
