(* C67: the client and a broker that keeps MQTT 5, connected by a network that may break at any time.

   The broker is a specification (MQTT 5, 4.3, 4.4, 3.2.2.1.1), seen as the receiver of the client's publishes.  It may
   refuse connections and publishes, forget the session when no client is connected, and send everything but
   acknowledgements of publishes at any time.  A connection carries packets in order in both directions; when it breaks,
   what was on the way is lost.  A packet whose write failed may or may not arrive. *)
From Verif Require Import Base VarInt Prims Props Codes Packets Options Session Client System SpecSession.

(* what is seen of both: an observation of the client; the broker passes a publish of QoS 1 or 2 on *)
Inductive seen := Saw (o : out) | Pass (x : publish).

(* wd_used: the client uses the connection (connect has succeeded and run has not returned).  wd_up, wd_down: sent and
   not received, to the broker and to the client.  wd_live: what the client writes arrives.  wd_in: the broker has
   accepted CONNECT on this connection.  wd_session: the broker has a session.  wd_rcv: the identifiers of the QoS 2
   publishes received in it and not released.  wd_stale: the broker has given up a session that the client may have;
   only recorded. *)
Record world := World {
  wd_used : bool;
  wd_up : list packet;
  wd_down : list packet;
  wd_live : bool;
  wd_in : bool;
  wd_session : bool;
  wd_rcv : list N;
  wd_stale : bool;
  wd_log : list seen }.
Definition world0 : world := World false [] [] false false false [] false [].

Definition push (b : bool) (p : packet) (l : list packet) : list packet := if b then l ++ [p] else l.
(* the client is told that there is no session *)
Definition told (p : packet) : bool :=
  match p with PConnAck a => match ca_rc a with RSuccess => negb (ca_session_present a) | _ => false end | _ => false end.

(* what an observation of the client means for the connection.  The client connects only when it has no connection. *)
Inductive observed : out -> world -> world -> Prop :=
| ob_connect u d v n h r st l : observed OConnect (World false u d v n h r st l) (World false [] [] true false h r st (l ++ [Saw OConnect]))
| ob_write o p us u d v n h r st l : observed (OWrite o p) (World us u d v n h r st l) (World us (push v p u) d v n h r st (l ++ [Saw (OWrite o p)]))
| ob_fail o p arrives on us u d v n h r st l :
    observed (OWriteFail o p) (World us u d v n h r st l) (World us (push (v && arrives) p u) d (v && on) n h r st (l ++ [Saw (OWriteFail o p)]))
| ob_answer p us u d v n h r st l : observed (OAnswer p) (World us u (p :: d) v n h r st l) (World us u d v n h r (st && negb (told p)) (l ++ [Saw (OAnswer p)]))
| ob_read p us u d v n h r st l : observed (ORead p) (World us u (p :: d) v n h r st l) (World us u d v n h r st (l ++ [Saw (ORead p)]))
| ob_open us u d v n h r st l : observed (OConnectEnd None) (World us u d v n h r st l) (World true u d v n h r st (l ++ [Saw (OConnectEnd None)]))
| ob_end e us u d v n h r st l : observed (ORunEnd e) (World us u d v n h r st l) (World false u d v n h r st (l ++ [Saw (ORunEnd e)]))
| ob_other o us u d v n h r st l :
    match o with OConnect | OWrite _ _ | OWriteFail _ _ | OAnswer _ | ORead _ | OConnectEnd None | ORunEnd _ => False | _ => True end ->
    observed o (World us u d v n h r st l) (World us u d v n h r st (l ++ [Saw o])).
Inductive observes : list out -> world -> world -> Prop :=
| obs_nil w : observes [] w w
| obs_cons o l w w' w'' : observed o w w' -> observes l w' w'' -> observes (o :: l) w w''.

Definition drop_id (i : N) (l : list N) : list N := filter (fun j => negb (i =? j)) l.
(* acknowledgements of publishes, and CONNACK *)
Definition reserved (p : packet) : bool :=
  match p with PConnAck _ | PPubAck _ | PPubRec _ | PPubComp _ => true | _ => false end.
(* packets to the broker that do not concern the delivery of publishes of QoS 1 and 2 *)
Definition unrelated (p : packet) : bool :=
  match p with
  | PConnect _ | PPubRel _ => false
  | PPublish x => match pb_qos x with AtMostOnce => true | _ => false end
  | _ => true
  end.

(* [fair]: the broker says that it has the client's session only if it has not given up one since the client was last
   told that there is none. *)
Inductive broker (fair : bool) : world -> world -> Prop :=
| br_accept cn a us u d v h r st l : ca_rc a = RSuccess ->
    (ca_session_present a = true -> h = true /\ cn_clean_start cn = false /\ (fair = true -> st = false)) ->
    broker fair (World us (PConnect cn :: u) d v false h r st l)
      (World us u (d ++ [PConnAck a]) v true true (if ca_session_present a then r else []) (if ca_session_present a then st else st || h) l)
| br_refuse cn a us u d v h r st l : ca_rc a <> RSuccess ->
    broker fair (World us (PConnect cn :: u) d v false h r st l) (World us [] (d ++ [PConnAck a]) false false h r st l)
| br_pass1 x i a us u d v h r st l : pb_qos x = AtLeastOnce -> pb_pkid x = Some i -> ak_id a = i -> rec_accepts (ak_rc a) = true ->
    broker fair (World us (PPublish x :: u) d v true h r st l) (World us u (d ++ [PPubAck a]) v true h r st (l ++ [Pass x]))
| br_refuse1 x i a us u d v h r st l : pb_qos x = AtLeastOnce -> pb_pkid x = Some i -> ak_id a = i -> rec_accepts (ak_rc a) = false ->
    broker fair (World us (PPublish x :: u) d v true h r st l) (World us u (d ++ [PPubAck a]) v true h r st l)
| br_pass2 x i a us u d v h r st l : pb_qos x = ExactlyOnce -> pb_pkid x = Some i -> ~ In i r -> ak_id a = i -> rec_accepts (ak_rc a) = true ->
    broker fair (World us (PPublish x :: u) d v true h r st l) (World us u (d ++ [PPubRec a]) v true h (i :: r) st (l ++ [Pass x]))
| br_again2 x i a us u d v h r st l : pb_qos x = ExactlyOnce -> pb_pkid x = Some i -> In i r -> ak_id a = i -> rec_accepts (ak_rc a) = true ->
    broker fair (World us (PPublish x :: u) d v true h r st l) (World us u (d ++ [PPubRec a]) v true h r st l)
| br_refuse2 x i a us u d v h r st l : pb_qos x = ExactlyOnce -> pb_pkid x = Some i -> ~ In i r -> ak_id a = i -> rec_accepts (ak_rc a) = false ->
    broker fair (World us (PPublish x :: u) d v true h r st l) (World us u (d ++ [PPubRec a]) v true h r st l)
| br_release b a us u d v h r st l : ak_id a = ak_id b ->
    broker fair (World us (PPubRel b :: u) d v true h r st l) (World us u (d ++ [PPubComp a]) v true h (drop_id (ak_id b) r) st l)
| br_other p us u d v h r st l : unrelated p = true -> broker fair (World us (p :: u) d v true h r st l) (World us u d v true h r st l)
| br_send p us u d v h r st l : reserved p = false -> broker fair (World us u d v true h r st l) (World us u (d ++ [p]) v true h r st l)
| br_cut us u d v n h r st l : broker fair (World us u d v n h r st l) (World us [] d false false h r st l)
| br_forget us u d v h r st l : broker fair (World us u d v false h r st l) (World us u d v false false [] (st || h) l).

(* the client and the broker together *)
Inductive joint (c : config) (fair : bool) : sys -> world -> Prop :=
| j_init : joint c fair (init c) world0
| j_client s w e s' l w' : joint c fair s w -> step c e s = Some s' -> trace s' = trace s ++ l -> observes l w w' -> joint c fair s' w'
| j_broker s w w' : joint c fair s w -> broker fair w w' -> joint c fair s w'.

(* ---- what is to be seen of identifier i ----------------------------------------------------- *)

(* nothing is under way; request p was made; the publish x was passed on *)
Inductive stage := Free | Asked (p : packet) | Passed (x : publish).
Definition same (x y : publish) : Prop := y = x \/ PPublish y = dup (PPublish x).
(* does it concern identifier i? *)
Definition concerns (i : N) (e : seen) : bool :=
  match e with
  | Saw (OBegin p) | Saw (ORefuse p _) | Saw (OGiveUp p) => has_id i p
  | Saw (ORead (PPubAck a)) | Saw (ORead (PPubComp a)) => ak_id a =? i
  | Saw (ORead (PPubRec a)) => (ak_id a =? i) && rec_accepts (ak_rc a)
  | Pass x => has_id i (PPublish x)
  | _ => false
  end.
(* A publish is passed on only after it was asked for; one of QoS 2 once.  Success is reported only for a publish
   that was passed on. *)
Inductive next_stage (i : N) : stage -> seen -> stage -> Prop :=
| sg_ask t p : has_id i p = true -> next_stage i t (Saw (OBegin p)) (Asked p)
| sg_refuse t p e : has_id i p = true -> next_stage i t (Saw (ORefuse p e)) Free
| sg_give_up t p : has_id i p = true -> next_stage i t (Saw (OGiveUp p)) Free
| sg_pass x y : same x y -> has_id i (PPublish x) = true -> next_stage i (Asked (PPublish x)) (Pass y) (Passed x)
| sg_again x y : same x y -> pb_qos x = AtLeastOnce -> next_stage i (Passed x) (Pass y) (Passed x)
| sg_ack x a : ak_id a = i -> pb_qos x = AtLeastOnce -> next_stage i (Passed x) (Saw (ORead (PPubAck a))) Free
| sg_nack t a : ak_id a = i -> rec_accepts (ak_rc a) = false -> next_stage i t (Saw (ORead (PPubAck a))) Free
| sg_rec x a : ak_id a = i -> pb_qos x = ExactlyOnce -> next_stage i (Passed x) (Saw (ORead (PPubRec a))) (Passed x)
| sg_comp x a : ak_id a = i -> pb_qos x = ExactlyOnce -> next_stage i (Passed x) (Saw (ORead (PPubComp a))) Free
| sg_other t e : concerns i e = false -> next_stage i t e t.
Inductive follows (i : N) : list seen -> stage -> Prop :=
| fo_nil : follows i [] Free
| fo_snoc l t e t' : follows i l t -> next_stage i t e t' -> follows i (l ++ [e]) t'.

(* no new request with identifier i; none, and no publish with identifier i is passed on *)
Definition no_request (i : N) (e : seen) : Prop := match e with Saw (OBegin p) => has_id i p = false | _ => True end.
Definition neither (i : N) (e : seen) : Prop :=
  match e with Saw (OBegin p) => has_id i p = false | Pass x => has_id i (PPublish x) = false | _ => True end.
(* the last request with identifier i was a QoS 2 publish, and it was passed on once since *)
Definition done_once (i : N) (l : list seen) : Prop :=
  exists x y l1 l2 l3, l = l1 ++ Saw (OBegin (PPublish x)) :: l2 ++ Pass y :: l3 /\
    pb_pkid x = Some i /\ pb_qos x = ExactlyOnce /\ same x y /\ Forall (neither i) l2 /\ Forall (neither i) l3.
