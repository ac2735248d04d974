(* C72: a broker that answers (SpecPolite.v, without the right to remain silent), and what is left to do for the two of
   them when nothing disturbs the connection. *)
From Verif Require Import Base VarInt Prims Props Codes Packets Options Session Client System SpecSession SpecPolite.

(* packets that have no answer; a publish with a QoS above 0 and no identifier cannot be answered *)
Definition unanswerable (p : packet) : bool :=
  match p with
  | PPublish x => match pb_qos x, pb_pkid x with AtLeastOnce, Some _ | ExactlyOnce, Some _ => false | _, _ => true end
  | PConnect _ | PPubRel _ | PSubscribe _ | PUnsubscribe _ | PPingReq => false
  | _ => true
  end.
(* the broker deals with one packet it has received, in any order, and answers what has an answer *)
Inductive deals : line -> line -> Prop :=
| de_answer p k us u1 u2 d v : answer_to p k = true -> deals (Line us (u1 ++ p :: u2) d v) (Line us (u1 ++ u2) (d ++ [k]) v)
| de_none p us u1 u2 d v : unanswerable p = true -> deals (Line us (u1 ++ p :: u2) d v) (Line us (u1 ++ u2) d v).
Inductive attentive : line -> line -> Prop :=
| at_deals w w' : deals w w' -> attentive w w'
| at_sends p us u d v : offers p = true -> attentive (Line us u d v) (Line us u (d ++ [p]) v)
| at_cut us u d v : attentive (Line us u d v) (Line us [] d false).
Inductive attended (c : config) : sys -> line -> Prop :=
| an_init : attended c (init c) line0
| an_client s w e s' l w' : attended c s w -> genuine e -> step c e s = Some s' -> trace s' = trace s ++ l -> notices l w w' -> attended c s' w'
| an_broker s w w' : attended c s w -> attentive w w' -> attended c s w'.

(* What remains to be done: calls hand over their packets, run is called, packets are read in order, the handler returns,
   writes end, the broker deals with what it has received.  Not among it: new calls, new connections, errors of reading, the clock, and what
   the broker sends of its own accord. *)
Definition effort (s : sys) (e : event) : Prop :=
  match e with
  | ESend _ | EPacket _ | EHandled | EWrite _ | EWrites _ _ | EOutgoing => True
  | ERun => nt_connected (y_net s) = true
  | _ => False
  end.
Inductive toil (c : config) (s : sys) (w : line) : sys -> line -> Prop :=
| to_client e s' l w' : effort s e -> step c e s = Some s' -> trace s' = trace s ++ l -> notices l w w' -> toil c s w s' w'
| to_broker w' : deals w w' -> toil c s w s w'.
Inductive toils (c : config) : nat -> sys -> line -> sys -> line -> Prop :=
| ts_none s w : toils c 0 s w s w
| ts_more n s w s1 w1 s' w' : toil c s w s1 w1 -> toils c n s1 w1 s' w' -> toils c (S n) s w s' w'.
Definition at_rest (c : config) (s : sys) (w : line) : Prop := forall s' w', ~ toil c s w s' w'.

(* no write has failed since the connection was opened *)
Definition unbroken (l : list out) : bool :=
  fold_left (fun b o => match o with OConnect => true | OWriteFail _ _ => false | _ => b end) l true.
(* p ends the exchange of identifier i *)
Definition settles (i : N) (p : packet) : bool :=
  match p with
  | PPubAck a | PPubComp a => ak_id a =? i
  | PPubRec a => (ak_id a =? i) && negb (rec_accepts (ak_rc a))
  | PSubAck a | PUnsubAck a => sa_id a =? i
  | _ => false
  end.
(* why run may have returned r: [h] is everything observed, [l] what has been observed lately *)
Definition good_reason (c : config) (h l : list out) (r : status + cerr) : Prop :=
  match r with
  | inl _ => True
  | inr NoOutgoingPacketSender | inr (HandlerErr (PacketIdChannelError _)) => In ODropClients h
  | inr e => (exists o p, In (OWriteFail o p) l) \/ cf_rt c = Smol /\ e = Io
  end.
