(* Dropping the Network value, and calls that wait for an identifier.

   The client holds the receiver of the identifiers and the sender of the requests (client.rs L21-30), the network the
   other two ends (available_packet_ids.rs L9-11 in the session; tokio/network.rs L31, smol/network.rs L37).  When the
   network is dropped its fields go in the order in which they are declared: first the session (tokio/network.rs L30,
   smol/network.rs L34), then the receiver of the requests.  Between the two another thread may make a step.

   async_channel: a receiver obtains what is in a closed channel and then fails; a send into a closed channel fails
   at once, a send that waits for room fails when the channel is closed.

   If the future of connect or run is alive it is dropped before; the network makes no step after that, so where it
   was does not matter and is left as it is. *)
From Verif Require Import Base VarInt Prims Props Codes Packets Options Session Client System.

(* what a call returns (error.rs L99-104); CrDropped: its future was dropped *)
Inductive cres := CrOk | CrInvalid (e : verr) | CrNoNetworkChannel | CrDropped.

(* l_ids: the sender of identifiers lives.  l_req: the receiver of requests lives.  l_next: number of calls so far.
   l_need: calls before the identifier.  l_send: the calls whose requests are [y_wait].  l_ends: calls that have
   returned. *)
Record lsys := LSys {
  l_sys : sys;
  l_ids : bool;
  l_req : bool;
  l_next : N;
  l_need : list (N * call);
  l_send : list N;
  l_ends : list (N * cres) }.
Definition linit (c : config) : lsys := LSys (init c) true true 0 [] [] [].

(* events of the network task and its surroundings *)
Definition by_network (e : event) : bool :=
  match e with ECall _ | ESend _ | EGiveUp _ | EDropClients => false | _ => true end.

Inductive levent :=
| LNet (e : event)       (* an event of the network task; time *)
| LDropSession           (* the network is being dropped: the session is gone *)
| LDropRequests          (* ... and the receiver of the requests *)
| LCall (k : call)       (* a client call is made *)
| LBegin (i : nat)       (* the i-th call takes an identifier if it needs one, and validates *)
| LSend (i : nat)        (* the i-th call sends its request *)
| LLeave (i : nat)       (* the future of a call is dropped before *)
| LLeaveSend (i : nat)   (* ... or while it sends *)
| LDropClients.

Definition lstep (c : config) (x : levent) (g : lsys) : option lsys :=
  let s := l_sys g in
  match x with
  | LNet e =>
    if by_network e && l_ids g && l_req g then
      match step c e s with Some s' => Some (LSys s' true true (l_next g) (l_need g) (l_send g) (l_ends g)) | None => None end
    else match e with ETick d => Some (LSys (set_now (y_now s + d) s) (l_ids g) (l_req g) (l_next g) (l_need g) (l_send g) (l_ends g)) | _ => None end
  | LDropSession => if l_ids g then Some (LSys s false (l_req g) (l_next g) (l_need g) (l_send g) (l_ends g)) else None
  | LDropRequests =>
    if l_req g && negb (l_ids g) then Some (LSys s (l_ids g) false (l_next g) (l_need g) (l_send g) (l_ends g)) else None
  | LCall k =>
    if pl_open (st_pool (y_state s))
    then Some (LSys s (l_ids g) (l_req g) (l_next g + 1) (l_need g ++ [(l_next g, k)]) (l_send g) (l_ends g)) else None
  | LBegin i => (* client.rs L78-82 and the like *)
    match pick i (l_need g) with
    | Some ((n, k), rest) =>
      match client_call (max_packet (cf_opts c)) k (st_pool (y_state s)) with
      | None => if l_ids g then None
                else Some (LSys s (l_ids g) (l_req g) (l_next g) rest (l_send g) (l_ends g ++ [(n, CrNoNetworkChannel)]))
      | Some (_, r) =>
        match begin_call c k s with
        | Some s' =>
          match r with
          | inl (_, e) => Some (LSys s' (l_ids g) (l_req g) (l_next g) rest (l_send g) (l_ends g ++ [(n, CrInvalid e)]))
          | inr _ => Some (LSys s' (l_ids g) (l_req g) (l_next g) rest (l_send g ++ [n]) (l_ends g))
          end
        | None => None
        end
      end
    | None => None
    end
  | LSend i => (* client.rs L83, L146, L198 and the like *)
    match pick i (l_send g) with
    | Some (n, rest) =>
      if l_req g then
        match send_call i s with
        | Some s' => Some (LSys s' (l_ids g) (l_req g) (l_next g) (l_need g) rest (l_ends g ++ [(n, CrOk)]))
        | None => None
        end
      else
        match give_up i s with
        | Some s' => Some (LSys s' (l_ids g) (l_req g) (l_next g) (l_need g) rest (l_ends g ++ [(n, CrNoNetworkChannel)]))
        | None => None
        end
    | None => None
    end
  | LLeave i =>
    match pick i (l_need g) with
    | Some ((n, _), rest) => Some (LSys s (l_ids g) (l_req g) (l_next g) rest (l_send g) (l_ends g ++ [(n, CrDropped)]))
    | None => None
    end
  | LLeaveSend i =>
    match pick i (l_send g), give_up i s with
    | Some (n, rest), Some s' => Some (LSys s' (l_ids g) (l_req g) (l_next g) (l_need g) rest (l_ends g ++ [(n, CrDropped)]))
    | _, _ => None
    end
  | LDropClients =>
    match l_need g with
    | [] => match drop_clients s with Some s' => Some (LSys s' (l_ids g) (l_req g) (l_next g) [] (l_send g) (l_ends g)) | None => None end
    | _ => None
    end
  end.
Fixpoint lexec (c : config) (xs : list levent) (g : lsys) : option lsys :=
  match xs with
  | [] => Some g
  | x :: xs => match lstep c x g with Some g => lexec c xs g | None => None end
  end.
