(* Time: what the log with its times says about keep-alive, and which executions are punctual. *)
From Verif Require Import Base VarInt Prims Props Codes Packets Options Session Client System.

Record clock := Clock {
  ck_run : option N;    (* when the run in progress was called *)
  ck_write : N;         (* the last successful write *)
  ck_read : N;          (* the last packet read by run *)
  ck_ping : option N;   (* the PINGREQ of this run that is not answered *)
  ck_promise : N;       (* the interval the broker counts on: that of CONNECT, or of CONNACK *)
  ck_own : N;           (* the interval last set: by the options, or by a CONNACK *)
  ck_zero : bool }.     (* a connection was accepted while the latter was 0 *)

Definition clock_step (k : clock) (x : N * out) : clock :=
  let (t, o) := x in
  match o with
  | ORun => Clock (Some t) (ck_write k) (ck_read k) None (ck_promise k) (ck_own k) (ck_zero k)
  | ORunEnd _ | OPanic => Clock None (ck_write k) (ck_read k) None (ck_promise k) (ck_own k) (ck_zero k)
  | OWrite FromConnect (PConnect c) =>
    Clock (ck_run k) t (ck_read k) (ck_ping k) (from_secs (cn_keep_alive c)) (ck_own k) (ck_zero k)
  | OWrite FromTimer PPingReq => Clock (ck_run k) t (ck_read k) (Some t) (ck_promise k) (ck_own k) (ck_zero k)
  | OWrite _ _ => Clock (ck_run k) t (ck_read k) (ck_ping k) (ck_promise k) (ck_own k) (ck_zero k)
  | ORead p =>
    Clock (ck_run k) (ck_write k) t (match p with PPingResp => None | _ => ck_ping k end) (ck_promise k) (ck_own k) (ck_zero k)
  | OAnswer (PConnAck a) =>
    match ca_rc a with
    | RSuccess =>
      let own := match server_keep_alive (ca_props a) with Some n => from_secs n | None => ck_own k end in
      Clock (ck_run k) (ck_write k) (ck_read k) (ck_ping k)
        (match server_keep_alive (ca_props a) with Some n => from_secs n | None => ck_promise k end)
        own (ck_zero k || (own =? 0))
    | _ => k
    end
  | _ => k
  end.
(* keep: the interval of the options *)
Definition clock_of (keep : N) (l : list (N * out)) : clock := fold_left clock_step l (Clock None 0 0 None 0 keep false).
Definition now_clock (c : config) (s : sys) : clock := clock_of (op_keep_alive (cf_opts c)) (y_log s).

(* The task waits in select! for a packet, a request or a timer. *)
Definition selecting (s : sys) : bool := match y_pc s with PSelect _ => true | _ => false end.
(* The task waits for a handler or for a write. *)
Definition busy (s : sys) : bool :=
  match y_pc s with PHandle _ | PReply _ | PFlush _ | PRequest _ | PPing | PBye => true | _ => false end.
Definition by_clients (e : event) : bool :=
  match e with ECall _ | ESend _ | EGiveUp _ | EDropClients => true | _ => false end.
Definition is_tick (e : event) : bool := match e with ETick _ => true | _ => false end.
Definition is_timer (e : event) : bool := match e with ETimer => true | _ => false end.

(* Timers fire when due: time does not pass beyond an instant at which one can fire.  A handler or a
   write takes at most D.  If D is not 0, a timer that can fire is preferred to a packet or a request
   that is ready at the same time.  e: when the task began to wait where it waits. *)
Inductive punctual (c : config) (D : N) : sys -> N -> Prop :=
| pu_init : punctual c D (init c) 0
| pu_tick s e d : punctual c D s e ->
    (selecting s = true -> forall d', d' < d -> step c ETimer (set_now (y_now s + d') s) = None) ->
    (busy s = true -> y_now s + d <= e + D) ->
    punctual c D (set_now (y_now s + d) s) e
| pu_client s e x s' : punctual c D s e -> by_clients x = true -> step c x s = Some s' -> punctual c D s' e
| pu_net s e x s' : punctual c D s e -> by_clients x = false -> is_tick x = false -> step c x s = Some s' ->
    (selecting s = true -> D <> 0 -> is_timer x = false -> step c ETimer s = None) ->
    punctual c D s' (y_now s').

(* the interval can be told to the broker: whole seconds, 16 bits *)
Definition expressible (c : config) : Prop := exists k, k < 65536 /\ op_keep_alive (cf_opts c) = from_secs k.
(* the broker's interval has 16 bits, as on the wire *)
Definition short_keep (l : list out) : Prop :=
  forall a k, In (OAnswer (PConnAck a)) l -> server_keep_alive (ca_props a) = Some k -> k < 65536.
