(* System.v and the readers of SmolStream.v and TokioRead.v together: the client as a system that
   receives bytes.  tokio/network.rs L52-81, L96-193; smol/network.rs L60-89, L100-212.

   [chk] as in SmolStream.v.  A chunk is what one call of read on the connection returns (smol), or some
   of the bytes that have arrived (tokio); an empty chunk is the end of the stream. *)
From Verif Require Import Base VarInt Prims Props Codes Packets Options Session Client System SmolStream TokioRead.

(* A connection, seen from the reading side.  sr_buf: read_buffer (smol/stream.rs L26); in tokio what
   the reading future in progress has taken.  sr_need: smol's connect is in read_required_bytes.
   sr_in: arrived and not read.  The last three only record what happened: sr_all: all bytes that
   arrived; sr_got: the packets read; sr_torn: a reading future that had taken bytes was dropped. *)
Record stream := Stream {
  sr_buf : bytes;
  sr_need : option waiting;
  sr_in : list bytes;
  sr_all : bytes;
  sr_got : list packet;
  sr_torn : bool }.

(* a new connection when connect begins to read (smol/stream.rs L56-68, L80-86) *)
Definition new_stream (chk : bool) : stream :=
  Stream [] (match read_round chk [] with inl w => Some w | inr _ => None end) [] [] [] false.
Definition arrive (ch : bytes) (r : stream) : stream :=
  Stream (sr_buf r) (sr_need r) (sr_in r ++ [ch]) (sr_all r ++ ch) (sr_got r) (sr_torn r).

Inductive sread :=
| SNone                          (* nothing has arrived *)
| SMore (r : stream)             (* no packet yet *)
| SPacket (p : packet) (r : stream)
| SFail (e : cerr)
| SPanic.

Definition some_bytes (b : bytes) : list bytes := match b with [] => [] | _ => [b] end.
(* tokio/stream.rs L27, L41-43: the future takes the next bytes *)
Definition tokio_take (ch : bytes) (rest : list bytes) (r : stream) : sread :=
  match aread_packet (sr_buf r ++ ch) with
  | AOk p _ tl => SPacket p (Stream [] (sr_need r) (some_bytes tl ++ rest) (sr_all r) (sr_got r ++ [p]) (sr_torn r))
  | AShort => SMore (Stream (sr_buf r ++ ch) (sr_need r) rest (sr_all r) (sr_got r) (sr_torn r))
  | AErr _ => SFail DeserializationError
  | ACrash _ => SPanic
  end.
(* smol/network.rs L144-149: read_bytes, then parse_message once *)
Definition smol_take (chk : bool) (ch : bytes) (rest : list bytes) (r : stream) : sread :=
  match parse_message chk (sr_buf r ++ ch) with
  | MPacket p b => SPacket p (Stream b None rest (sr_all r) (sr_got r ++ [p]) (sr_torn r))
  | MMore b => SMore (Stream b None rest (sr_all r) (sr_got r) (sr_torn r))
  | MBad _ => SFail DeserializationError
  | MPanic => SPanic
  end.
(* smol/stream.rs L80-124: connect is in read_required_bytes *)
Definition smol_answer (chk : bool) (w : waiting) (ch : bytes) (rest : list bytes) (r : stream) : sread :=
  match read_more chk w ch (sr_buf r ++ ch) with
  | inl w => SMore (Stream (sr_buf r ++ ch) (Some w) rest (sr_all r) (sr_got r) (sr_torn r))
  | inr (MPacket p b) => SPacket p (Stream b None rest (sr_all r) (sr_got r ++ [p]) (sr_torn r))
  | inr (MMore _) => SNone (* read_more never says so *)
  | inr (MBad _) => SFail Io (* an io::Error with the deserialisation error inside: L88, L99 *)
  | inr MPanic => SPanic
  end.
(* the end of the stream: read_exact fails (tokio), smol/stream.rs L105-106 *)
Definition take_chunk (rt : runtime) (chk : bool) (r : stream) : sread :=
  match sr_in r with
  | [] => SNone
  | [] :: _ => SFail Io
  | ch :: rest =>
    match rt with
    | Tokio => tokio_take ch rest r
    | Smol => match sr_need r with Some w => smol_answer chk w ch rest r | None => smol_take chk ch rest r end
    end
  end.
(* tokio/network.rs L129: another branch of select! completes; smol's read_bytes keeps nothing in the future *)
Definition drop_read (rt : runtime) (r : stream) : stream :=
  match rt with
  | Tokio => Stream [] (sr_need r) (sr_in r) (sr_all r) (sr_got r) (sr_torn r || match sr_buf r with [] => false | _ => true end)
  | Smol => r
  end.

(* w_new: the stream given to connect.  w_net: the field network, meaningful when it is Some.
   w_dead: the network task has panicked while reading (System knows only the panics of the handler). *)
Record wire := Wire { w_sys : sys; w_new : stream; w_net : stream; w_dead : bool }.
Definition winit (c : config) (chk : bool) : wire := Wire (init c) (new_stream chk) (new_stream chk) false.

Inductive wevent :=
| WArrive (fresh : bool) (ch : bytes)  (* bytes arrive on w_new (true) or w_net *)
| WRead                                (* the pending read gets the next chunk *)
| WEvent (e : event).                  (* anything else *)

Definition is_read (e : event) : bool := match e with EPacket _ | EPartial | EReadErr _ => true | _ => false end.
Definition is_client (e : event) : bool :=
  match e with ETick _ | ECall _ | ESend _ | EGiveUp _ | EDropClients => true | _ => false end.
(* connect returns Ok in this event, and puts its stream in place: tokio/network.rs L73-80, smol L81-88 *)
Definition opens (c : config) (e : event) (s : sys) : bool :=
  match e, y_pc s with
  | EHandled, PConnHandle None => true
  | EWrites _ ok, PConnResend ps =>
    match cf_rt c with Tokio => ok | Smol => negb (is_some (smol_write_all ps ok)) end
  | _, _ => false
  end.

Definition wevents (c : config) (chk : bool) (e : event) (w : wire) : option wire :=
  if is_read e || (w_dead w && negb (is_client e)) then None
  else match step c e (w_sys w) with
       | None => None
       | Some s =>
         Some (match e with
               | EConnect => Wire s (new_stream chk) (w_net w) (w_dead w)
               | EOutgoing | ETimer => Wire s (w_new w) (drop_read (cf_rt c) (w_net w)) (w_dead w)
               | _ => Wire s (w_new w) (if opens c e (w_sys w) then w_new w else w_net w) (w_dead w)
               end)
       end.

(* what the read gives to the code above it *)
Definition read_result (c : config) (res : sread) (put : stream -> sys -> wire) (r : stream) (s : sys) : option wire :=
  match res with
  | SNone => None
  | SMore r' =>
    match cf_rt c, y_pc s with
    | Smol, PSelect _ => option_map (put r') (step c EPartial s)
    | _, _ => Some (put r' s)
    end
  | SPacket p r' => option_map (put r') (step c (EPacket p) s)
  | SFail e => option_map (put r) (step c (EReadErr e) s)
  | SPanic => let w := put r s in Some (Wire (w_sys w) (w_new w) (w_net w) true)
  end.
Definition wread (c : config) (chk : bool) (w : wire) : option wire :=
  if w_dead w then None
  else match y_pc (w_sys w) with
       | PConnRead => read_result c (take_chunk (cf_rt c) chk (w_new w)) (fun r s => Wire s r (w_net w) false) (w_new w) (w_sys w)
       | PSelect _ => read_result c (take_chunk (cf_rt c) chk (w_net w)) (fun r s => Wire s (w_new w) r false) (w_net w) (w_sys w)
       | _ => None
       end.

Definition wstep (c : config) (chk : bool) (x : wevent) (w : wire) : option wire :=
  match x with
  | WArrive true ch => Some (Wire (w_sys w) (arrive ch (w_new w)) (w_net w) (w_dead w))
  | WArrive false ch => Some (Wire (w_sys w) (w_new w) (arrive ch (w_net w)) (w_dead w))
  | WRead => wread c chk w
  | WEvent e => wevents c chk e w
  end.
Fixpoint wexec (c : config) (chk : bool) (xs : list wevent) (w : wire) : option wire :=
  match xs with
  | [] => Some w
  | x :: xs => match wstep c chk x w with Some w => wexec c chk xs w | None => None end
  end.
Definition wreachable (c : config) (chk : bool) (w : wire) : Prop := exists xs, wexec c chk xs (winit c chk) = Some w.
