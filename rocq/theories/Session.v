(* The session: available_packet_ids.rs, state.rs, state_handler.rs *)
From Verif Require Import Base VarInt Prims Props Codes Packets.

(* error.rs L64-89: enum HandlerError.  The three variants about closed network channels
   (IncomingNetworkChannelClosed, OutgoingNetworkChannelClosed, ClientChannelClosed) are never
   constructed by the functions modelled here. *)
Inductive herr :=
| MissingPacketId
| PacketIdChannelError (id : N)
| PacketIdCollision (id : N)
| Unsolicited (id : N) (t : pkt_type)
| UnexpectedPacket (t : pkt_type).

(* What a handler function does: it returns a value, returns an error, or panics. *)
Inductive hres (A : Type) := HOk (a : A) | HErr (e : herr) | HPanic.
Arguments HOk {A} a. Arguments HErr {A} e. Arguments HPanic {A}.

(* available_packet_ids.rs L8-11: the sending half of a bounded FIFO channel (crate async_channel).
   The receiving halves are held by the clients; [pl_open] is false when all of them are dropped. *)
Record pool := Pool { pl_ids : list N; pl_cap : N; pl_open : bool }.

(* available_packet_ids.rs L14-23.  async_channel::bounded panics for capacity 0; a session with
   send maximum 0 is therefore never built (hypothesis of the theorems). *)
Definition new_pool (max : N) : pool := Pool (map N.of_nat (seq 1 (N.to_nat max))) max true.

(* state.rs L15-33.  A BTreeSet<u16> is a list in strictly ascending order; the Vec of publishes is
   a list of the same length; the mutexes are left out (every function takes them for its whole
   duration or for single operations of the only thread that uses them). *)
Record state := State {
  st_pool : pool;
  st_sub : list N;
  st_unsub : list N;
  st_pub : list (option publish);
  st_order : list N;
  st_rel : list N;
  st_in : list N }.

(* The functions take &self and change the state behind mutexes: what they changed before an error
   or a panic stays changed. *)
Definition M (A : Type) := state -> state * hres A.
Definition ret {A} (a : A) : M A := fun s => (s, HOk a).
Definition fail {A} (e : herr) : M A := fun s => (s, HErr e).
Definition panic {A} : M A := fun s => (s, HPanic).
Definition mbind {A B} (m : M A) (k : A -> M B) : M B :=
  fun s => match m s with
           | (s', HOk a) => k a s'
           | (s', HErr e) => (s', HErr e)
           | (s', HPanic) => (s', HPanic)
           end.
Notation "'do' x <- m ; k" := (mbind m (fun x => k))
  (at level 200, x pattern, m at level 100, k at level 200, right associativity).

(* BTreeSet::insert and remove: the new set, and whether it changed *)
Fixpoint set_insert (x : N) (l : list N) : list N * bool :=
  match l with
  | [] => ([x], true)
  | y :: l' => if x <? y then (x :: l, true)
               else if x =? y then (l, false)
               else let (r, b) := set_insert x l' in (y :: r, b)
  end.
Fixpoint set_remove (x : N) (l : list N) : list N * bool :=
  match l with
  | [] => ([], false)
  | y :: l' => if x =? y then (l', true) else let (r, b) := set_remove x l' in (y :: r, b)
  end.

(* Vec indexing: the entry and the vector with the entry replaced; None when out of bounds *)
Fixpoint vec_at {A} (i : nat) (v : A) (l : list A) : option (A * list A) :=
  match l, i with
  | [], _ => None
  | y :: l', O => Some (y, v :: l')
  | y :: l', S i' => match vec_at i' v l' with Some (old, r) => Some (old, y :: r) | None => None end
  end.

(* state.rs L36-49 *)
Definition new_state (receive_maximum : N) (p : pool) : state :=
  State p [] [] (repeat None (N.to_nat receive_maximum)) [] [] [].

(* available_packet_ids.rs L25-43; async_channel::try_send looks at "closed" before "full". *)
Definition mark_available (id : N) : M unit :=
  fun s =>
    let p := st_pool s in
    if negb (pl_open p) then (s, HErr (PacketIdChannelError id))
    else if pl_cap p <=? len (pl_ids p) then (s, HPanic)
    else (State (Pool (pl_ids p ++ [id]) (pl_cap p) (pl_open p)) (st_sub s) (st_unsub s) (st_pub s)
            (st_order s) (st_rel s) (st_in s), HOk tt).

(* state.rs L51-53 *)
Definition make_pkid_available (id : N) : M unit := mark_available id.

(* state.rs L57-59 *)
Definition add_incoming_pub (id : N) : M bool :=
  fun s => let (l, b) := set_insert id (st_in s) in
    (State (st_pool s) (st_sub s) (st_unsub s) (st_pub s) (st_order s) (st_rel s) l, HOk b).
(* state.rs L62-64 *)
Definition remove_incoming_pub (id : N) : M bool :=
  fun s => let (l, b) := set_remove id (st_in s) in
    (State (st_pool s) (st_sub s) (st_unsub s) (st_pub s) (st_order s) (st_rel s) l, HOk b).

(* state.rs L66-77.  `(pkid - 1) as usize` is u16 arithmetic: for 0 it panics, or wraps to 65535
   when overflow checks are off, which is out of bounds since receive_maximum is a u16. *)
Definition add_outgoing_pub (id : N) (p : publish) : M unit :=
  fun s =>
    if id =? 0 then (s, HPanic)
    else match vec_at (N.to_nat (id - 1)) (Some p) (st_pub s) with
    | None => (s, HPanic)
    | Some (old, v) =>
      if is_some old
      then (State (st_pool s) (st_sub s) (st_unsub s) v (st_order s) (st_rel s) (st_in s), HErr (PacketIdCollision id))
      else (State (st_pool s) (st_sub s) (st_unsub s) v (st_order s ++ [id]) (st_rel s) (st_in s), HOk tt)
    end.

(* state.rs L79-93.  The loop removes the first occurrence from the queue; the indexing panics for
   0 (usize underflow, or wrap to a huge index) and beyond the vector. *)
Definition remove_outgoing_pub (id : N) : M (option publish) :=
  fun s =>
    let s := State (st_pool s) (st_sub s) (st_unsub s) (st_pub s) (fst (set_remove id (st_order s))) (st_rel s) (st_in s) in
    if id =? 0 then (s, HPanic)
    else match vec_at (N.to_nat (id - 1)) None (st_pub s) with
    | None => (s, HPanic)
    | Some (old, v) => (State (st_pool s) (st_sub s) (st_unsub s) v (st_order s) (st_rel s) (st_in s), HOk old)
    end.

(* state.rs L95-97 *)
Definition add_outgoing_rel (id : N) : M bool :=
  fun s => let (l, b) := set_insert id (st_rel s) in
    (State (st_pool s) (st_sub s) (st_unsub s) (st_pub s) (st_order s) l (st_in s), HOk b).
(* state.rs L100-102 *)
Definition remove_outgoing_rel (id : N) : M bool :=
  fun s => let (l, b) := set_remove id (st_rel s) in
    (State (st_pool s) (st_sub s) (st_unsub s) (st_pub s) (st_order s) l (st_in s), HOk b).
(* state.rs L104-106 *)
Definition add_outgoing_sub (id : N) : M bool :=
  fun s => let (l, b) := set_insert id (st_sub s) in
    (State (st_pool s) l (st_unsub s) (st_pub s) (st_order s) (st_rel s) (st_in s), HOk b).
(* state.rs L109-111 *)
Definition remove_outgoing_sub (id : N) : M bool :=
  fun s => let (l, b) := set_remove id (st_sub s) in
    (State (st_pool s) l (st_unsub s) (st_pub s) (st_order s) (st_rel s) (st_in s), HOk b).
(* state.rs L113-115 *)
Definition add_outgoing_unsub (id : N) : M bool :=
  fun s => let (l, b) := set_insert id (st_unsub s) in
    (State (st_pool s) (st_sub s) l (st_pub s) (st_order s) (st_rel s) (st_in s), HOk b).
(* state.rs L118-120 *)
Definition remove_outgoing_unsub (id : N) : M bool :=
  fun s => let (l, b) := set_remove id (st_unsub s) in
    (State (st_pool s) (st_sub s) l (st_pub s) (st_order s) (st_rel s) (st_in s), HOk b).

(* PubRel::new (pubrel/mod.rs), PubRec::new, PubComp::new: success and no properties *)
Definition plain_ack (id : N) : ack := Ack id RSuccess no_props.

(* state.rs L151 *)
Definition set_dup (p : publish) : publish :=
  Publish true (pb_qos p) (pb_retain p) (pb_topic p) (pb_pkid p) (pb_props p) (pb_payload p).

(* state.rs L149-153: the loop over the queue; None is a panic (index out of bounds, or unwrap of
   an empty entry) *)
Fixpoint resend (v : list (option publish)) (order : list N) : option (list packet) :=
  match order with
  | [] => Some []
  | i :: order' =>
    if i =? 0 then None
    else match nth_error v (N.to_nat (i - 1)) with
    | Some (Some p) => match resend v order' with
                       | Some r => Some (PPublish (set_dup p) :: r)
                       | None => None
                       end
    | _ => None
    end
  end.

(* state.rs L123-172.  On the panic path the state is left as it is (the panic comes before any
   field is cleared). *)
Definition reset (retransmission : bool) : M (list N * list packet) :=
  fun s =>
    if retransmission then
      match resend (st_pub s) (st_order s) with
      | None => (s, HPanic)
      | Some pubs =>
        (State (st_pool s) [] [] (st_pub s) (st_order s) (st_rel s) [],
         HOk (st_sub s ++ st_unsub s, pubs ++ map (fun i => PPubRel (plain_ack i)) (st_rel s)))
      end
    else
      (State (st_pool s) [] [] (repeat None (length (st_pub s))) [] [] [],
       HOk (st_sub s ++ st_unsub s ++ st_order s, [])).

(* state_handler.rs L62-85 *)
Definition handle_incoming_publish (p : publish) : M (option packet * bool) :=
  match pb_qos p with
  | AtMostOnce => ret (None, true)
  | AtLeastOnce =>
    match pb_pkid p with
    | None => fail MissingPacketId
    | Some i => ret (Some (PPubAck (plain_ack i)), true)
    end
  | ExactlyOnce =>
    match pb_pkid p with
    | None => fail MissingPacketId
    | Some i =>
      do fresh <- add_incoming_pub i;
      ret (Some (PPubRec (plain_ack i)), fresh && negb (pb_dup p))
    end
  end.

(* state_handler.rs L87-98 *)
Definition handle_incoming_puback (a : ack) : M (option packet) :=
  do old <- remove_outgoing_pub (ak_id a);
  if is_some old then do _ <- make_pkid_available (ak_id a); ret None
  else fail (Unsolicited (ak_id a) TPubAck).

(* state_handler.rs L100-121 *)
Definition handle_incoming_pubrec (a : ack) : M (option packet) :=
  do old <- remove_outgoing_pub (ak_id a);
  match old with
  | Some _ =>
    match ak_rc a with
    | RSuccess | RNoMatchingSubscribers =>
      do _ <- add_outgoing_rel (ak_id a);
      ret (Some (PPubRel (plain_ack (ak_id a))))
    | _ => ret None
    end
  | None => fail (Unsolicited (ak_id a) TPubRec)
  end.

(* state_handler.rs L123-131 *)
Definition handle_incoming_pubrel (a : ack) : M (option packet) :=
  do _ <- remove_incoming_pub (ak_id a);
  ret (Some (PPubComp (plain_ack (ak_id a)))).

(* state_handler.rs L133-142 *)
Definition handle_incoming_pubcomp (a : ack) : M (option packet) :=
  do b <- remove_outgoing_rel (ak_id a);
  if b then do _ <- make_pkid_available (ak_id a); ret None
  else fail (Unsolicited (ak_id a) TPubComp).

(* state_handler.rs L144-153 *)
Definition handle_incoming_suback (a : suback) : M (option packet) :=
  do b <- remove_outgoing_sub (sa_id a);
  if b then do _ <- make_pkid_available (sa_id a); ret None
  else fail (Unsolicited (sa_id a) TSubAck).

(* state_handler.rs L155-164 *)
Definition handle_incoming_unsuback (a : suback) : M (option packet) :=
  do b <- remove_outgoing_unsub (sa_id a);
  if b then do _ <- make_pkid_available (sa_id a); ret None
  else fail (Unsolicited (sa_id a) TUnsubAck).

(* state_handler.rs L47-60 *)
Definition handle_incoming_packet (p : packet) : M (option packet * bool) :=
  let with_true (m : M (option packet)) := do r <- m; ret (r, true) in
  match p with
  | PPublish x => handle_incoming_publish x
  | PPubAck a => with_true (handle_incoming_puback a)
  | PPubRec a => with_true (handle_incoming_pubrec a)
  | PPubRel a => with_true (handle_incoming_pubrel a)
  | PPubComp a => with_true (handle_incoming_pubcomp a)
  | PSubAck a => with_true (handle_incoming_suback a)
  | PUnsubAck a => with_true (handle_incoming_unsuback a)
  | _ => fail (UnexpectedPacket (type_of p))
  end.

(* state_handler.rs L171-173 *)
Fixpoint make_all_available (ids : list N) : M unit :=
  match ids with
  | [] => ret tt
  | i :: ids' => do _ <- make_pkid_available i; make_all_available ids'
  end.

(* state_handler.rs L166-178; [clean_start] is the field of StateHandler set by new (L31-37) *)
Definition handle_incoming_connack (clean_start : bool) (c : connack) : M (option (list packet)) :=
  match ca_rc c with
  | RSuccess =>
    do (ids, re) <- reset (ca_session_present c && negb clean_start);
    do _ <- make_all_available ids;
    ret (Some re)
  | _ => ret None
  end.

(* state_handler.rs L197-219.  Both QoS arms do the same; the unwrap of a missing identifier is a
   panic. *)
Definition handle_outgoing_publish (p : publish) : M unit :=
  match pb_qos p with
  | AtMostOnce => ret tt
  | AtLeastOnce | ExactlyOnce =>
    match pb_pkid p with
    | None => panic
    | Some i => add_outgoing_pub i p
    end
  end.

(* state_handler.rs L180-195 with L221-242.  (The unreachable! of L190 is compiled only in tests.) *)
Definition handle_outgoing_packet (p : packet) : M unit :=
  match p with
  | PPublish x => handle_outgoing_publish x
  | PSubscribe x => do _ <- add_outgoing_sub (sb_id x); ret tt
  | PUnsubscribe x => do _ <- add_outgoing_unsub (ub_id x); ret tt
  | _ => ret tt
  end.
