(* Client, channel, session and network loop as one transition system: lib.rs L94-237,
   tokio/network.rs, tokio/stream.rs, smol/network.rs, smol/stream.rs.

   The state of the system changes by events.  An event is one synchronous piece of the code between
   two await points, or something the environment does (time passes, a client calls, the broker
   sends, a write succeeds or fails, the user's handler returns).  An execution is any list of events
   each of which is enabled; every interleaving of clients and network loop is such a list.

   Simplifications, besides those noted at the definitions:
   - Reading is abstracted to packets: at a point where the code reads, the environment supplies any
     packet or any error.  The byte level is modelled in TokioRead.v, SmolStream.v and Wire.v.
   - The futures returned by run and connect are not dropped before they finish (see Cancel.v, WireDrop.v).
   - The Network value and the receiving end of the request channel live for ever (see Shutdown.v).
   - Two calls of Instant::now() without an await in between give the same instant. *)
From Verif Require Import Base VarInt Prims Props Codes Packets Options Session Client.

Inductive runtime := Tokio | Smol.

(* What is fixed when the network and the client are built (lib.rs L194-209, L224-236). *)
Record config := Config { cf_rt : runtime; cf_opts : options }.

(* lib.rs L94 *)
Definition CHANNEL_SIZE : N := 100.

(* lib.rs L139-148 *)
Inductive status := ShutdownSignal | IncomingDisconnect | OutgoingDisconnect | KeepAliveTimeout.

(* error.rs L12-43: ConnectionError.  The payloads of the read errors are dropped;
   NoIncomingPacketHandler and JoinError are never constructed. *)
Inductive cerr :=
| NoNetwork
| NoOutgoingPacketSender
| DeserializationError
| SerializationError (e : serr)
| Io
| ConnectionRefused (r : rc)
| NotConnAck (p : packet)
| HandlerErr (e : herr).

(* tokio/network.rs L22-32 and smol/network.rs L22-38.  [nt_connected] is network.is_some().
   [nt_keep] is the field keep_alive_interval of smol (tokio keeps the interval in the options).
   [nt_await] is await_pingresp: a field in smol, a local variable of tokio_select in tokio.
   [nt_buf] is outgoing_packet_buffer (smol).  The write buffer of the smol Stream (stream.rs L29)
   is empty between writes and dropped with the stream after an error. *)
Record net := Net {
  nt_connected : bool;
  nt_opts : options;
  nt_keep : N;
  nt_last : N;
  nt_await : option N;
  nt_perform : bool;
  nt_buf : list packet }.

(* What the loop does after the user's handler has returned. *)
Inductive after := AfterPing | AfterDisconnect | AfterPacket (reply : option packet).

(* Where the network task is.  Every constructor but the first and the last is an await point. *)
Inductive pc :=
| PIdle                                    (* neither connect nor run is running *)
| PConnWrite                               (* tokio stream.rs L25, smol stream.rs L66 *)
| PConnRead                                (* tokio stream.rs L27, smol stream.rs L68 *)
| PConnHandle (re : option (list packet))  (* tokio network.rs L72, smol network.rs L80 *)
| PConnResend (re : list packet)           (* tokio network.rs L74, smol network.rs L82 *)
| PSelect (since : N)                      (* tokio network.rs L129, smol network.rs L143 *)
| PHandle (a : after)                      (* tokio L137, L141, L147; smol L152, L156, L162 *)
| PReply (p : packet)                      (* tokio L149, L154 *)
| PFlush (ps : list packet)                (* smol L174 *)
| PRequest (p : packet)                    (* tokio L171, smol L183 *)
| PPing                                    (* tokio L184, smol L201 *)
| PBye                                     (* tokio L190, smol L208 *)
| PCrash.                                  (* the task has panicked *)

(* Who asked for a packet to be written. *)
Inductive origin := FromConnect | FromClient | FromReply | FromResend | FromTimer.

(* What can be observed. *)
Inductive out :=
| OBegin (p : packet)            (* a client call took an identifier (if it needs one) and built p *)
| OAccept (p : packet)           (* the request was put in the channel; the call returned Ok *)
| ORefuse (p : packet) (e : verr)  (* the call returned a validation error *)
| OGiveUp (p : packet)           (* a call was dropped while it waited for room in the channel *)
| ODropClients                   (* the last client handle was dropped *)
| OConnect                       (* connect was called *)
| OConnectEnd (r : option cerr)  (* connect returned, Ok is None *)
| ORun                           (* run was called and there is a connection *)
| ORunEnd (r : status + cerr)    (* run returned *)
| OAnswer (p : packet)           (* connect read the broker's answer *)
| ORead (p : packet)             (* run read a packet *)
| OHandle (p : packet)           (* the user's handler was called *)
| OHandled                       (* ... and has returned *)
| OWrite (o : origin) (p : packet)              (* a packet was written and flushed *)
| OWriteFail (o : origin) (p : packet)          (* a write or flush failed *)
| OPanic.

(* y_log: everything observed so far with its time, oldest first.  y_wait: requests of calls that
   wait for room in the channel. *)
Record sys := Sys {
  y_state : state;
  y_wait : list packet;
  y_chan : list packet;
  y_net : net;
  y_pc : pc;
  y_now : N;
  y_log : list (N * out) }.

Definition set_state (x : state) (s : sys) := Sys x (y_wait s) (y_chan s) (y_net s) (y_pc s) (y_now s) (y_log s).
Definition set_wait (x : list packet) (s : sys) := Sys (y_state s) x (y_chan s) (y_net s) (y_pc s) (y_now s) (y_log s).
Definition set_chan (x : list packet) (s : sys) := Sys (y_state s) (y_wait s) x (y_net s) (y_pc s) (y_now s) (y_log s).
Definition set_net (x : net) (s : sys) := Sys (y_state s) (y_wait s) (y_chan s) x (y_pc s) (y_now s) (y_log s).
Definition set_pc (x : pc) (s : sys) := Sys (y_state s) (y_wait s) (y_chan s) (y_net s) x (y_now s) (y_log s).
Definition set_now (x : N) (s : sys) := Sys (y_state s) (y_wait s) (y_chan s) (y_net s) (y_pc s) x (y_log s).
Definition log (l : list out) (s : sys) :=
  Sys (y_state s) (y_wait s) (y_chan s) (y_net s) (y_pc s) (y_now s) (y_log s ++ map (pair (y_now s)) l).

Definition set_connected (b : bool) (n : net) := Net b (nt_opts n) (nt_keep n) (nt_last n) (nt_await n) (nt_perform n) (nt_buf n).
Definition set_last (t : N) (n : net) := Net (nt_connected n) (nt_opts n) (nt_keep n) t (nt_await n) (nt_perform n) (nt_buf n).
Definition set_await (a : option N) (n : net) := Net (nt_connected n) (nt_opts n) (nt_keep n) (nt_last n) a (nt_perform n) (nt_buf n).
Definition set_buf (b : list packet) (n : net) := Net (nt_connected n) (nt_opts n) (nt_keep n) (nt_last n) (nt_await n) (nt_perform n) b.
Definition set_pool (p : pool) (s : state) := State p (st_sub s) (st_unsub s) (st_pub s) (st_order s) (st_rel s) (st_in s).

(* lib.rs L194-209, L224-236; tokio/network.rs L35-49, smol/network.rs L41-59; the clock starts at 0 *)
Definition init (c : config) : sys :=
  let o := cf_opts c in
  Sys (new_state (receive_max o) (new_pool (send_max o))) [] []
    (Net false o (op_keep_alive o) 0 None true []) PIdle 0 [].

Inductive event :=
| ETick (d : N)           (* time passes *)
| ECall (c : call)        (* a client call takes its identifier (if any) and validates *)
| ESend (i : nat)         (* the i-th waiting call puts its request in the channel *)
| EGiveUp (i : nat)       (* the future of the i-th waiting call is dropped *)
| EDropClients            (* the last client handle is dropped *)
| EConnect                (* the user calls connect with a new stream *)
| ERun                    (* the user calls run *)
| EPacket (p : packet)    (* the pending read yields a packet *)
| EPartial                (* bytes arrive that do not complete a packet *)
| EReadErr (e : cerr)     (* the pending read fails *)
| EOutgoing               (* select! takes the request branch *)
| ETimer                  (* select! takes a timer branch *)
| EHandled                (* the user's handler returns *)
| EWrite (ok : bool)      (* the pending write and flush complete or fail *)
| EWrites (oks : list bool) (ok : bool).  (* the pending write_packets: each write, and the flush *)

(* the serialisation error of a packet: Packet::async_write (tokio), Packet::write (smol) *)
Definition ser_err (rt : runtime) (p : packet) : option serr :=
  match rt with Tokio => w_err (awrite_packet p) | Smol => w_err (write_packet p) end.

(* outcome of writing one packet *)
Definition write_result (rt : runtime) (p : packet) (ok : bool) : option cerr :=
  match ser_err rt p with
  | Some e => Some (SerializationError e)
  | None => if ok then None else Some Io
  end.

(* tokio/network.rs L101-104 and smol/network.rs L107-114: run returns.  (smol clears its fields;
   in tokio they are local or do not exist.) *)
Definition end_run (rt : runtime) (r : status + cerr) (s : sys) : sys :=
  let n := set_connected false (y_net s) in
  let n := match rt with Smol => set_buf [] (set_await None n) | Tokio => n end in
  log [ORunEnd r] (set_pc PIdle (set_net n s)).

Definition end_connect (r : option cerr) (s : sys) : sys := log [OConnectEnd r] (set_pc PIdle s).

Definition crash_now (s : sys) : sys := log [OPanic] (set_pc PCrash s).

(* tokio/network.rs L120-126: the instant at which both sleep futures of the iteration are ready *)
Definition tokio_deadline (n : net) : N :=
  match nt_await n with
  | Some i => i + op_keep_alive (nt_opts n)
  | None => nt_last n + op_keep_alive (nt_opts n)
  end.
(* smol/network.rs L133-140; [since] is when this call of smol_select began *)
Definition smol_deadline (since : N) (n : net) : N :=
  if negb (nt_perform n) then since + from_secs 3600
  else match nt_await n with
       | Some i => i + nt_keep n
       | None => nt_last n + nt_keep n
       end.

(* ---- connect -------------------------------------------------------------------------------- *)

(* tokio/network.rs L62-69, smol/network.rs L70-77 *)
Definition apply_connack (rt : runtime) (now : N) (c : connack) (n : net) : net :=
  let n := set_last now n in
  match rt with
  | Tokio =>
    let o := match server_keep_alive (ca_props c) with
             | Some k => with_keep_alive (from_secs k) (nt_opts n)
             | None => nt_opts n
             end in
    Net (nt_connected n) o (nt_keep n) (nt_last n) (nt_await n)
      (if op_keep_alive o =? 0 then false else nt_perform n) (nt_buf n)
  | Smol =>
    let k := match server_keep_alive (ca_props c) with Some k => from_secs k | None => nt_keep n end in
    Net (nt_connected n) (nt_opts n) k (nt_last n) (nt_await n)
      (if k =? 0 then false else nt_perform n) (nt_buf n)
  end.

(* the answer to CONNECT: tokio/stream.rs L27-38 with tokio/network.rs L61-72, smol/stream.rs L68-77
   with smol/network.rs L69-80.  The state handler's clean_start is that of the options at
   construction (state_handler.rs L31-37). *)
Definition connect_answer (c : config) (p : packet) (s : sys) : sys :=
  let s := log [OAnswer p] s in
  match p with
  | PConnAck a =>
    match ca_rc a with
    | RSuccess =>
      let s := set_net (apply_connack (cf_rt c) (y_now s) a (y_net s)) s in
      let (st, r) := handle_incoming_connack (op_clean_start (cf_opts c)) a (y_state s) in
      let s := set_state st s in
      match r with
      | HOk re => log [OHandle p] (set_pc (PConnHandle re) s)
      | HErr e => end_connect (Some (HandlerErr e)) s
      | HPanic => crash_now s
      end
    | r => end_connect (Some (ConnectionRefused r)) s
    end
  | _ => end_connect (Some (NotConnAck p)) s
  end.

(* tokio/network.rs L78-80, smol/network.rs L86-88 *)
Definition connected (s : sys) : sys :=
  end_connect None (set_net (set_connected true (y_net s)) s).

(* tokio/stream.rs L65-73: the results of the single writes are thrown away, only the flush counts *)
Fixpoint tokio_writes (o : origin) (ps : list packet) (oks : list bool) : list out :=
  match ps with
  | [] => []
  | p :: ps' =>
    let (b, oks') := match oks with [] => (true, []) | b :: r => (b, r) end in
    match write_result Tokio p b with
    | None => OWrite o p :: tokio_writes o ps' oks'
    | Some _ => OWriteFail o p :: tokio_writes o ps' oks'
    end
  end.

(* smol/stream.rs L138-156: everything is serialised first; an error there or in the write is an
   error of the whole *)
Definition smol_write_all (ps : list packet) (ok : bool) : option cerr :=
  match find (fun p => is_some (ser_err Smol p)) ps with
  | Some p => match ser_err Smol p with Some e => Some (SerializationError e) | None => None end
  | None => if ok then None else Some Io
  end.
Definition smol_writes (o : origin) (ps : list packet) (ok : bool) : list out :=
  map (match smol_write_all ps ok with None => OWrite o | Some _ => OWriteFail o end) ps.

(* retransmission: tokio/network.rs L73-80, smol/network.rs L81-88 *)
Definition connect_resend (c : config) (ps : list packet) (oks : list bool) (ok : bool) (s : sys) : sys :=
  match cf_rt c with
  | Tokio =>
    let s := log (tokio_writes FromResend ps oks) s in
    if ok then connected (set_net (set_last (y_now s) (y_net s)) s)
    else end_connect (Some Io) s
  | Smol =>
    let s := log (smol_writes FromResend ps ok) s in
    match smol_write_all ps ok with
    | None => connected (set_net (set_last (y_now s) (y_net s)) s)
    | Some e => end_connect (Some e) s
    end
  end.

(* ---- the loop ------------------------------------------------------------------------------- *)

(* back to the top of the loop: tokio/network.rs L120, smol/network.rs L104-106 *)
Definition again (s : sys) : sys := set_pc (PSelect (y_now s)) s.

(* smol/network.rs L174: the buffer is drained into the write buffer, then written *)
Definition smol_flush (s : sys) : sys :=
  set_pc (PFlush (nt_buf (y_net s))) (set_net (set_buf [] (y_net s)) s).
(* smol/network.rs L164, L168 *)
Definition smol_push (p : packet) (s : sys) : sys :=
  set_net (set_buf (nt_buf (y_net s) ++ [p]) (y_net s)) s.

(* what follows the handler, or follows directly when the handler is not called: tokio/network.rs
   L148-157, smol/network.rs L163-174 *)
Definition reply_now (rt : runtime) (r : option packet) (s : sys) : sys :=
  match rt with
  | Tokio => match r with Some p => set_pc (PReply p) s | None => again s end
  | Smol => match r with Some p => smol_flush (smol_push p s) | None => smol_flush s end
  end.

(* an incoming packet: tokio/network.rs L130-161, smol/network.rs L144-180 *)
Definition incoming (rt : runtime) (p : packet) (s : sys) : sys :=
  let s := log [ORead p] s in
  match p with
  | PPingResp => log [OHandle p] (set_pc (PHandle AfterPing) s)
  | PDisconnect _ => log [OHandle p] (set_pc (PHandle AfterDisconnect) s)
  | _ =>
    let (st, r) := handle_incoming_packet p (y_state s) in
    let s := set_state st s in
    match r with
    | HErr e => end_run rt (inr (HandlerErr e)) s
    | HPanic => crash_now s
    | HOk (reply, true) => log [OHandle p] (set_pc (PHandle (AfterPacket reply)) s)
    | HOk (reply, false) => reply_now rt reply s
    end
  end.

(* the handler has returned: tokio/network.rs L138, L142, L148-151; smol/network.rs L153, L157, L163-165 *)
Definition handled (rt : runtime) (a : after) (s : sys) : sys :=
  let s := log [OHandled] s in
  match a with
  | AfterPing =>
    let s := set_net (set_await None (y_net s)) s in
    match rt with Tokio => again s | Smol => smol_flush s end
  | AfterDisconnect => end_run rt (inl IncomingDisconnect) s
  | AfterPacket r => reply_now rt r s
  end.

(* tokio/network.rs L162-166, smol/network.rs L181-182: recv() yields the oldest request, or an
   error when the channel is empty and all clients are gone; otherwise the branch is not ready *)
Definition outgoing (rt : runtime) (s : sys) : option sys :=
  match y_chan s with
  | p :: rest => Some (set_pc (PRequest p) (set_chan rest s))
  | [] => if pl_open (st_pool (y_state s)) then None
          else Some (end_run rt (inr NoOutgoingPacketSender) s)
  end.

(* tokio/network.rs L182-192: two sleep branches with guards *)
Definition tokio_timer (s : sys) : option sys :=
  let n := y_net s in
  if y_now s <? tokio_deadline n then None
  else match nt_await n with
       | None => if nt_perform n then Some (set_pc PPing s) else None
       | Some _ => Some (set_pc PBye s)
       end.
(* smol/network.rs L198-211 *)
Definition smol_timer (since : N) (s : sys) : option sys :=
  let n := y_net s in
  if y_now s <? smol_deadline since n then None
  else match nt_await n with
       | None => if nt_perform n then Some (set_pc PPing s) else Some (set_pc PBye s)
       | Some _ => Some (set_pc PBye s)
       end.
Definition timer (rt : runtime) (since : N) (s : sys) : option sys :=
  match rt with Tokio => tokio_timer s | Smol => smol_timer since s end.

(* the packet of tokio/network.rs L189-190, smol/network.rs L207-208 *)
Definition bye : packet := PDisconnect (Disconnect RKeepAliveTimeout no_props).

(* the write of a request has ended: tokio/network.rs L171-180, smol/network.rs L183-196.  The
   session learns of the request only after the write has succeeded. *)
Definition request_written (rt : runtime) (p : packet) (ok : bool) (s : sys) : sys :=
  match write_result rt p ok with
  | Some e => end_run rt (inr e) (log [OWriteFail FromClient p] s)
  | None =>
    let s := log [OWrite FromClient p] s in
    let (st, r) := handle_outgoing_packet p (y_state s) in
    let s := set_state st s in
    match r with
    | HErr e => end_run rt (inr (HandlerErr e)) s
    | HPanic => crash_now s
    | HOk _ =>
      let s := set_net (set_last (y_now s) (y_net s)) s in
      match type_of p with
      | TDisconnect => end_run rt (inl OutgoingDisconnect) s
      | _ => again s
      end
    end
  end.

(* tokio/network.rs L149-150, L154-155 *)
Definition reply_written (p : packet) (ok : bool) (s : sys) : sys :=
  match write_result Tokio p ok with
  | Some e => end_run Tokio (inr e) (log [OWriteFail FromReply p] s)
  | None => let s := log [OWrite FromReply p] s in again (set_net (set_last (y_now s) (y_net s)) s)
  end.
(* smol/network.rs L174-179: the time of the last action is set even when nothing was written *)
Definition flushed (ps : list packet) (ok : bool) (s : sys) : sys :=
  let s := log (smol_writes FromReply ps ok) s in
  match smol_write_all ps ok with
  | Some e => end_run Smol (inr e) s
  | None => again (set_net (set_last (y_now s) (y_net s)) s)
  end.
(* tokio/network.rs L184-186, smol/network.rs L201-204 *)
Definition ping_written (rt : runtime) (ok : bool) (s : sys) : sys :=
  match write_result rt PPingReq ok with
  | Some e => end_run rt (inr e) (log [OWriteFail FromTimer PPingReq] s)
  | None =>
    let s := log [OWrite FromTimer PPingReq] s in
    again (set_net (set_await (Some (y_now s)) (set_last (y_now s) (y_net s))) s)
  end.
(* tokio/network.rs L190-191, smol/network.rs L208-209 *)
Definition bye_written (rt : runtime) (ok : bool) (s : sys) : sys :=
  match write_result rt bye ok with
  | Some e => end_run rt (inr e) (log [OWriteFail FromTimer bye] s)
  | None => end_run rt (inl KeepAliveTimeout) (log [OWrite FromTimer bye] s)
  end.

(* run: tokio/network.rs L96-101 with L118, smol/network.rs L100-104 *)
Definition start_run (rt : runtime) (s : sys) : sys :=
  if nt_connected (y_net s) then
    let n := match rt with Tokio => set_await None (y_net s) | Smol => y_net s end in
    again (log [ORun] (set_net n s))
  else log [ORunEnd (inr NoNetwork)] s.

(* ---- clients -------------------------------------------------------------------------------- *)

(* client.rs, see Client.v: up to the send into the channel *)
Definition begin_call (c : config) (k : call) (s : sys) : option sys :=
  let p := st_pool (y_state s) in
  if pl_open p then
    match client_call (max_packet (cf_opts c)) k p with
    | None => None
    | Some (p', r) =>
      let s' := set_state (set_pool p' (y_state s)) s in
      match r with
      | inl (pkt, e) => Some (log [OBegin pkt; ORefuse pkt e] s')
      | inr pkt => Some (log [OBegin pkt] (set_wait (y_wait s' ++ [pkt]) s'))
      end
    end
  else None.

Fixpoint pick {A} (i : nat) (l : list A) : option (A * list A) :=
  match l, i with
  | [], _ => None
  | x :: l', O => Some (x, l')
  | x :: l', S i' => match pick i' l' with Some (y, r) => Some (y, x :: r) | None => None end
  end.

(* to_network_s.send(packet).await: completes when the bounded channel has room (lib.rs L198, L225) *)
Definition send_call (i : nat) (s : sys) : option sys :=
  match pick i (y_wait s) with
  | Some (p, rest) =>
    if len (y_chan s) <? CHANNEL_SIZE
    then Some (log [OAccept p] (set_chan (y_chan s ++ [p]) (set_wait rest s)))
    else None
  | None => None
  end.
Definition give_up (i : nat) (s : sys) : option sys :=
  match pick i (y_wait s) with
  | Some (p, rest) => Some (log [OGiveUp p] (set_wait rest s))
  | None => None
  end.
Definition drop_clients (s : sys) : option sys :=
  match y_wait s with
  | [] => let p := st_pool (y_state s) in
          Some (log [ODropClients] (set_state (set_pool (Pool (pl_ids p) (pl_cap p) false) (y_state s)) s))
  | _ => None
  end.

(* ---- the transition function; None: the event is not enabled --------------------------------- *)
Definition step (c : config) (e : event) (s : sys) : option sys :=
  let rt := cf_rt c in
  match e with
  | ETick d => Some (set_now (y_now s + d) s)
  | ECall k => begin_call c k s
  | ESend i => send_call i s
  | EGiveUp i => give_up i s
  | EDropClients => drop_clients s
  | EConnect =>
    match y_pc s with
    | PIdle => Some (log [OConnect] (set_pc PConnWrite s))
    | _ => None
    end
  | ERun => match y_pc s with PIdle => Some (start_run rt s) | _ => None end
  | EPacket p =>
    match y_pc s with
    | PConnRead => Some (connect_answer c p s)
    | PSelect _ => Some (incoming rt p s)
    | _ => None
    end
  | EPartial =>
    match y_pc s with
    | PSelect _ => Some (match rt with Tokio => s | Smol => again s end)
    | _ => None
    end
  | EReadErr e =>
    match y_pc s with
    | PConnRead => Some (end_connect (Some e) s)
    | PSelect _ => Some (end_run rt (inr e) s)
    | _ => None
    end
  | EOutgoing => match y_pc s with PSelect _ => outgoing rt s | _ => None end
  | ETimer => match y_pc s with PSelect since => timer rt since s | _ => None end
  | EHandled =>
    match y_pc s with
    | PConnHandle re =>
      let s := log [OHandled] s in
      Some (match re with Some ps => set_pc (PConnResend ps) s | None => connected s end)
    | PHandle a => Some (handled rt a s)
    | _ => None
    end
  | EWrite ok =>
    match y_pc s with
    | PConnWrite =>
      let p := create_connect (nt_opts (y_net s)) in
      Some (match write_result rt p ok with
            | None => log [OWrite FromConnect p] (set_pc PConnRead s)
            | Some e => end_connect (Some e) (log [OWriteFail FromConnect p] s)
            end)
    | PReply p => Some (reply_written p ok s)
    | PFlush ps => Some (flushed ps ok s)
    | PRequest p => Some (request_written rt p ok s)
    | PPing => Some (ping_written rt ok s)
    | PBye => Some (bye_written rt ok s)
    | _ => None
    end
  | EWrites oks ok =>
    match y_pc s with
    | PConnResend ps => Some (connect_resend c ps oks ok s)
    | _ => None
    end
  end.

(* An execution: every event is enabled. *)
Fixpoint exec (c : config) (es : list event) (s : sys) : option sys :=
  match es with
  | [] => Some s
  | e :: es' => match step c e s with Some s' => exec c es' s' | None => None end
  end.

Definition reachable (c : config) (s : sys) : Prop := exists es, exec c es (init c) = Some s.
