(* What the history of observations says about requests and identifiers, independently of the code:
   a ledger kept by somebody who only sees the log.  It uses from the model only the vocabulary of
   observations and packets. *)
From Verif Require Import Base VarInt Prims Props Codes Packets Options Session Client System.

Definition trace (s : sys) : list out := map snd (y_log s).

(* the identifier of a request that is acknowledged *)
Definition req_id (p : packet) : option N :=
  match p with
  | PPublish x => pb_pkid x
  | PSubscribe x => Some (sb_id x)
  | PUnsubscribe x => Some (ub_id x)
  | _ => None
  end.
Definition req_ids (l : list packet) : list N := flat_map (fun p => opt_list (req_id p)) l.
Definition has_id (i : N) (p : packet) : bool :=
  match req_id p with Some j => i =? j | None => false end.
Definition without (i : N) (l : list packet) : list packet := filter (fun p => negb (has_id i p)) l.
Definition without_req (p : packet) (l : list packet) : list packet :=
  match req_id p with Some i => without i l | None => l end.
Definition is_pub (p : packet) : bool := match p with PPublish _ => true | _ => false end.

(* Is request p the one that acknowledgement a answers?  (MQTT 5, 4.3 and 3.8, 3.10: PUBACK and PUBREC
   answer a publish, SUBACK a subscribe, UNSUBACK an unsubscribe, with the same identifier.) *)
Definition answers (a p : packet) : bool :=
  match a, p with
  | PPubAck x, PPublish _ => has_id (ak_id x) p
  | PPubRec x, PPublish _ => has_id (ak_id x) p
  | PSubAck x, PSubscribe _ => has_id (sa_id x) p
  | PUnsubAck x, PUnsubscribe _ => has_id (sa_id x) p
  | _, _ => false
  end.
(* the identifier an acknowledgement carries *)
Definition ack_id (a : packet) : option N :=
  match a with
  | PPubAck x | PPubRec x | PPubRel x | PPubComp x => Some (ak_id x)
  | PSubAck x | PUnsubAck x => Some (sa_id x)
  | _ => None
  end.
(* a PUBREC that accepts the message (the two codes below 128 of MQTT 5 table 3-5) *)
Definition rec_accepts (r : rc) : bool :=
  match r with RSuccess | RNoMatchingSubscribers => true | _ => false end.

Record ledger := Ledger {
  lg_open : list packet;     (* begun, not yet written *)
  lg_sent : list packet;     (* written, first acknowledgement awaited; in the order written *)
  lg_rel : list N;           (* PUBREC received, PUBCOMP awaited *)
  lg_lost : list N;          (* identifiers that are neither free nor in use any more *)
  lg_clients : bool;         (* some client handle exists *)
  lg_expect : list packet;   (* the publishes to send again on this connection *)
  lg_expect_rel : list N }.  (* and the released exchanges to continue *)

Definition ledger0 : ledger := Ledger [] [] [] [] true [] [].

Definition dup (p : packet) : packet :=
  match p with
  | PPublish x => PPublish (Publish true (pb_qos x) (pb_retain x) (pb_topic x) (pb_pkid x) (pb_props x) (pb_payload x))
  | _ => p
  end.

(* [clean]: the options ask for a clean start *)
Definition ledger_step (clean : bool) (g : ledger) (o : out) : ledger :=
  let 'Ledger op se re lo cl ex er := g in
  match o with
  | OBegin p => if is_some (req_id p) then Ledger (op ++ [p]) se re lo cl ex er else g
  | ORefuse p _ | OGiveUp p | OWriteFail FromClient p =>
    Ledger (without_req p op) se re (lo ++ opt_list (req_id p)) cl ex er
  | OWrite FromClient p =>
    Ledger (without_req p op) (if is_some (req_id p) then se ++ [p] else se) re lo cl ex er
  | ODropClients => Ledger op se re lo false ex er
  | ORead (PPubComp a) =>
    let here := existsb (N.eqb (ak_id a)) re in
    Ledger op se (filter (fun i => negb (ak_id a =? i)) re)
      (lo ++ if here && negb cl then [ak_id a] else []) cl ex er
  | ORead (PPubRec a) =>
    let here := existsb (answers (PPubRec a)) se in
    Ledger op (filter (fun p => negb (answers (PPubRec a) p)) se)
      (re ++ if here && rec_accepts (ak_rc a) then [ak_id a] else [])
      (lo ++ if here && negb (rec_accepts (ak_rc a)) then [ak_id a] else []) cl ex er
  | ORead a =>
    Ledger op (filter (fun p => negb (answers a p)) se) re
      (lo ++ if cl then [] else req_ids (filter (answers a) se)) cl ex er
  | OAnswer (PConnAck a) =>
    match ca_rc a with
    | RSuccess =>
      if ca_session_present a && negb clean
      then let pubs := filter is_pub se in
           Ledger op pubs re (lo ++ if cl then [] else req_ids (filter (fun p => negb (is_pub p)) se)) cl
             (map dup pubs) re
      else Ledger op [] [] (lo ++ re ++ if cl then [] else req_ids se) cl [] []
    | _ => g
    end
  | _ => g
  end.

(* the identifiers that this observation sets free *)
Definition frees (clean : bool) (g : ledger) (o : out) : list N :=
  match o with
  | ORead (PPubComp a) => if existsb (N.eqb (ak_id a)) (lg_rel g) then [ak_id a] else []
  | ORead (PPubRec _) => []
  | ORead a => req_ids (filter (answers a) (lg_sent g))
  | OAnswer (PConnAck a) =>
    match ca_rc a with
    | RSuccess => if ca_session_present a && negb clean
                  then req_ids (filter (fun p => negb (is_pub p)) (lg_sent g))
                  else req_ids (lg_sent g)
    | _ => []
    end
  | _ => []
  end.

Definition ledger_of (clean : bool) (l : list out) : ledger := fold_left (ledger_step clean) l ledger0.

(* identifiers of all unfinished requests *)
Definition in_flight (g : ledger) : list N := req_ids (lg_open g) ++ req_ids (lg_sent g) ++ lg_rel g.

(* 1, 2, ..., n *)
Definition ids_upto (n : N) : list N := map N.of_nat (seq 1 (N.to_nat n)).

(* Configurations that can be built: the options hold u16 values, and a send maximum of 0 makes the
   construction panic (async_channel::bounded). *)
Definition config_ok (c : config) : Prop :=
  1 <= send_max (cf_opts c) <= 65535 /\ receive_max (cf_opts c) <= 65535.

(* acknowledgements of requests, and whether one is awaited *)
Definition is_ack (a : packet) : bool :=
  match a with PPubAck _ | PPubRec _ | PPubComp _ | PSubAck _ | PUnsubAck _ => true | _ => false end.
Definition awaited (g : ledger) (a : packet) : bool :=
  match a with
  | PPubComp x => existsb (N.eqb (ak_id x)) (lg_rel g)
  | _ => existsb (answers a) (lg_sent g)
  end.

(* acknowledgements whose identifier can never have been given out (0), or has no place in a table
   with [rmax] entries *)
Definition off_table (rmax i : N) : bool := (i =? 0) || (rmax <? i).

(* the exchange of identifier i ends by observation o: an acknowledgement that completes it, or a
   reconnection on which the broker answers that it has no session, or (for subscriptions) any *)
Definition ends (clean : bool) (g : ledger) (o : out) (i : N) : Prop :=
  match o with
  | ORead (PPubAck a) => ak_id a = i /\ exists x, In (PPublish x) (lg_sent g) /\ pb_pkid x = Some i
  | ORead (PPubComp a) => ak_id a = i /\ In i (lg_rel g)
  | ORead (PSubAck a) => sa_id a = i /\ exists x, In (PSubscribe x) (lg_sent g) /\ sb_id x = i
  | ORead (PUnsubAck a) => sa_id a = i /\ exists x, In (PUnsubscribe x) (lg_sent g) /\ ub_id x = i
  | OAnswer (PConnAck a) =>
    ca_rc a = RSuccess /\
    exists p, In p (lg_sent g) /\ req_id p = Some i /\
      (ca_session_present a = true /\ clean = false -> is_pub p = false)
  | _ => False
  end.

(* the ways in which an identifier gets lost *)
Definition loses (clean : bool) (g : ledger) (o : out) (i : N) : Prop :=
  match o with
  | ORefuse p _ | OGiveUp p | OWriteFail FromClient p => req_id p = Some i
  | ORead (PPubRec a) => ak_id a = i /\ rec_accepts (ak_rc a) = false
  | OAnswer (PConnAck a) => In i (lg_rel g) /\ (ca_session_present a = false \/ clean = true) \/ lg_clients g = false
  | ORead _ => lg_clients g = false
  | _ => False
  end.

(* every observation in its place: the trace before it and the observation satisfy P *)
Definition everywhere (P : list out -> out -> Prop) (l : list out) : Prop :=
  forall l1 o l2, l = l1 ++ o :: l2 -> P l1 o.

(* the observation just before the panic, and why it panics *)
Definition panics_after (rmax : N) (o : out) : Prop :=
  match o with
  | ORead (PPubAck a) | ORead (PPubRec a) => off_table rmax (ak_id a) = true
  | OWrite FromClient (PPublish x) => exists i, pb_pkid x = Some i /\ rmax < i
  | _ => False
  end.
Definition panic_ok (rmax : N) (l : list out) (o : out) : Prop :=
  o = OPanic -> exists l0 o0, l = l0 ++ [o0] /\ panics_after rmax o0.

(* the free identifiers, as the client sees them *)
Definition pool_of (s : sys) : list N := pl_ids (st_pool (y_state s)).

Definition now_ledger (c : config) (s : sys) : ledger := ledger_of (op_clean_start (cf_opts c)) (trace s).

(* identifier i is never again in the pool or in use *)
Definition gone_for_good (c : config) (s : sys) (i : N) : Prop :=
  1 <= i <= send_max (cf_opts c) /\
  forall es s', exec c es s = Some s' -> ~ In i (pool_of s') /\ ~ In i (in_flight (now_ledger c s')).
