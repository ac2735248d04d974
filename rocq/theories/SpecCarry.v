(* C78, C79: the client of Wire.v and the brokers of SpecSource.v and SpecPolite.v, connected by a network that carries bytes
   (SpecBytes.v: pipe, felt). *)
From Verif Require Import Base VarInt Prims Props Codes Packets Options Session Client System SpecSession SpecCodec SpecRead SpecOut SpecEnd SmolStream TokioRead Wire SpecPolite SpecSource SpecBytes.

(* Any broker whose state is W.  [note w o]: what is recorded of an observation of the client.  [serves k w q ps v w']: the
   broker goes on with the queue q, sends ps, and v says whether what the client writes still arrives.  [leaves k w ps w']:
   the broker sends ps and closes the connection.  [gentle]: the client never abandons a read in the middle of a packet. *)
Inductive carried {W : Type} (note : W -> out -> W) (serves : pipe -> W -> list packet -> list packet -> bool -> W -> Prop) (leaves : pipe -> W -> list packet -> W -> Prop)
    (w0 : W) (c : config) (chk gentle : bool) : wire -> pipe -> W -> Prop :=
| cy_init : carried note serves leaves w0 c chk gentle (winit c chk) pipe0 w0
| cy_client x i k w i' l k' : carried note serves leaves w0 c chk gentle i k w -> is_arrival x = false -> wire_ok x -> wstep c chk x i = Some i' ->
    trace (w_sys i') = trace (w_sys i) ++ l -> felt_all (cf_rt c) l k k' -> (gentle = true -> sr_torn (w_net i') = false) ->
    carried note serves leaves w0 c chk gentle i' k' (fold_left note l w)
| cy_arrive ch rest us u q v i w i' : carried note serves leaves w0 c chk gentle i (Pipe us u q (ch ++ rest) v) w -> wstep c chk (WArrive (negb us) ch) i = Some i' ->
    carried note serves leaves w0 c chk gentle i' (Pipe us u q rest v) w
| cy_decode p b rest us q d v i w : carried note serves leaves w0 c chk gentle i (Pipe us (b ++ rest) q d v) w -> packet_ok p -> encodes p b ->
    carried note serves leaves w0 c chk gentle i (Pipe us rest (q ++ [p]) d v) w
| cy_broker i k w q ps v w' bs : carried note serves leaves w0 c chk gentle i k w -> serves k w q ps v w' -> Forall2 sent ps bs ->
    carried note serves leaves w0 c chk gentle i (Pipe (pi_used k) (pi_up k) q (pi_down k ++ concat bs) v) w'
| cy_close i k w ps w' bs : carried note serves leaves w0 c chk gentle i k w -> leaves k w ps w' -> Forall2 sent ps bs ->
    carried note serves leaves w0 c chk gentle i (Pipe (pi_used k) [] [] (pi_down k ++ concat bs) false) w'.

(* ---- the broker of SpecSource.v ---- *)
(* the broker sees the packets that it has decoded *)
Definition at_source (k : pipe) (w : source) : source :=
  Source (Line (pi_used k) (pi_queue k) [] (pi_live k)) (so_in w) (so_session w) (so_out w) (so_again w) (so_log w).
Definition source_note (w : source) (o : out) : source :=
  let off := match o with OConnect => true | _ => false end in
  Source (so_line w) (if off then false else so_in w) (so_session w) (so_out w) (if off then [] else so_again w) (so_log w ++ [Client o]).
(* It does what it may; either it has accepted CONNECT, or it has dealt with at most one packet and sent nothing (while so_in
   is false nothing is to be sent again). *)
Definition source_serves (k : pipe) (w : source) (q ps : list packet) (v : bool) (w' : source) : Prop :=
  source_step (at_source k w) w' /\ so_line w' = Line (pi_used k) q ps v /\
  (so_in w' = true \/ so_in w' = so_in w /\ v = pi_live k /\ ps = [] /\ so_again w' = so_again w /\ (q = pi_queue k \/ exists p, pi_queue k = p :: q)).
Definition source_leaves (k : pipe) (w : source) (ps : list packet) (w' : source) : Prop :=
  source_step (at_source k w) w' /\ so_line w' = Line (pi_used k) [] ps false /\ so_in w' = false.
Definition sourced_bytes (c : config) (chk gentle : bool) : wire -> pipe -> source -> Prop := carried source_note source_serves source_leaves source0 c chk gentle.

(* ---- the broker of SpecPolite.v: it has no memory ---- *)
Definition polite_serves (k : pipe) (w : unit) (q ps : list packet) (v : bool) (w' : unit) : Prop :=
  polite (Line (pi_used k) (pi_queue k) [] (pi_live k)) (Line (pi_used k) q ps v) /\ v = pi_live k.
Definition polite_leaves (k : pipe) (w : unit) (ps : list packet) (w' : unit) : Prop := ps = [].
Definition polite_bytes (c : config) (chk gentle : bool) (i : wire) (k : pipe) : Prop :=
  carried (fun w _ => w) polite_serves polite_leaves tt c chk gentle i k tt.
