(* C77: the client of Wire.v and the broker of SpecWorld.v, connected by a network that carries bytes.

   The client writes each packet as its writer encodes it.  The broker decodes what arrives as MQTT 5 says, and encodes
   what it sends as MQTT 5 says; those bytes arrive at the client in pieces of any size. *)
From Verif Require Import Base VarInt Prims Props Codes Packets Options Session Client System SpecSession SpecCodec SpecRead SpecOut SpecEnd SmolStream TokioRead Wire SpecWorld.

(* The connection.  pi_used: the client uses it (connect has succeeded and run has not returned).  pi_up, pi_down: the
   bytes on the way to the broker and to the client.  pi_queue: the packets that the broker has decoded and not dealt
   with.  pi_live: what the client writes arrives. *)
Record pipe := Pipe { pi_used : bool; pi_up : bytes; pi_queue : list packet; pi_down : bytes; pi_live : bool }.
Definition pipe0 : pipe := Pipe false [] [] [] false.

(* What an observation of the client means for the connection.  The client connects only when it has no connection.  Of a
   packet whose write failed some bytes may arrive; if the packet does not arrive completely, nothing arrives after
   it. *)
Inductive felt (rt : runtime) : out -> pipe -> pipe -> Prop :=
| fe_connect u q d v : felt rt OConnect (Pipe false u q d v) (Pipe false [] [] [] true)
| fe_write o p us u q d v : felt rt (OWrite o p) (Pipe us u q d v) (Pipe us (if v then u ++ wire_bytes rt p else u) q d v)
| fe_fail o p b t on us u q d v : wire_bytes rt p = b ++ t -> (on = true -> b = [] \/ encodes p b) ->
    felt rt (OWriteFail o p) (Pipe us u q d v) (Pipe us (if v then u ++ b else u) q d (v && on))
| fe_open us u q d v : felt rt (OConnectEnd None) (Pipe us u q d v) (Pipe true u q d v)
| fe_end e us u q d v : felt rt (ORunEnd e) (Pipe us u q d v) (Pipe false u q d v)
| fe_other o us u q d v :
    match o with OConnect | OWrite _ _ | OWriteFail _ _ | OConnectEnd None | ORunEnd _ => False | _ => True end ->
    felt rt o (Pipe us u q d v) (Pipe us u q d v).
Inductive felt_all (rt : runtime) : list out -> pipe -> pipe -> Prop :=
| fa_nil k : felt_all rt [] k k
| fa_cons o l k k' k'' : felt rt o k k' -> felt_all rt l k' k'' -> felt_all rt (o :: l) k k''.

(* The broker of SpecWorld.v, as far as it does not concern the connection. *)
Definition at_broker (k : pipe) (w : world) : world :=
  World (pi_used k) (pi_queue k) [] (pi_live k) (wd_in w) (wd_session w) (wd_rcv w) (wd_stale w) (wd_log w).
(* what is recorded of an observation of the client *)
Definition note (w : world) (o : out) : world :=
  World (wd_used w) (wd_up w) (wd_down w) (wd_live w) (match o with OConnect => false | _ => wd_in w end) (wd_session w) (wd_rcv w)
    (match o with OAnswer p => wd_stale w && negb (told p) | _ => wd_stale w end) (wd_log w ++ [Saw o]).
(* the broker goes on reading from the connection *)
Definition keeps (w w' : world) : Prop :=
  wd_in w' = true \/ wd_in w' = wd_in w /\ wd_live w' = wd_live w /\ wd_up w' = wd_up w.
Definition shuts (w' : world) : Prop := wd_in w' = false /\ wd_live w' = false /\ wd_up w' = [].

Definition is_arrival (x : wevent) : bool := match x with WArrive _ _ => true | _ => false end.
(* [fair] as in SpecWorld.v.  [gentle]: the client never abandons a read in the middle of a packet. *)
Inductive linked_up (c : config) (chk fair gentle : bool) : wire -> pipe -> world -> Prop :=
| lu_init : linked_up c chk fair gentle (winit c chk) pipe0 world0
| lu_client x i k w i' l k' : linked_up c chk fair gentle i k w -> is_arrival x = false -> wire_ok x -> wstep c chk x i = Some i' ->
    trace (w_sys i') = trace (w_sys i) ++ l -> felt_all (cf_rt c) l k k' -> (gentle = true -> sr_torn (w_net i') = false) ->
    linked_up c chk fair gentle i' k' (fold_left note l w)
(* some bytes arrive at the client; no bytes: the connection ends *)
| lu_arrive ch rest us u q v i w i' : linked_up c chk fair gentle i (Pipe us u q (ch ++ rest) v) w -> wstep c chk (WArrive (negb us) ch) i = Some i' ->
    linked_up c chk fair gentle i' (Pipe us u q rest v) w
| lu_decode p b rest us q d v i w : linked_up c chk fair gentle i (Pipe us (b ++ rest) q d v) w -> packet_ok p -> encodes p b ->
    linked_up c chk fair gentle i (Pipe us rest (q ++ [p]) d v) w
| lu_broker i k w w' bs : linked_up c chk fair gentle i k w -> broker fair (at_broker k w) w' -> keeps (at_broker k w) w' -> Forall2 sent (wd_down w') bs ->
    linked_up c chk fair gentle i (Pipe (pi_used k) (pi_up k) (wd_up w') (pi_down k ++ concat bs) (wd_live w')) w'
| lu_close i k w w' bs : linked_up c chk fair gentle i k w -> broker fair (at_broker k w) w' -> shuts w' -> Forall2 sent (wd_down w') bs ->
    linked_up c chk fair gentle i (Pipe (pi_used k) [] [] (pi_down k ++ concat bs) false) w'.
