(* The user's handler: event_handlers.rs.

   System leaves the handler abstract: it is called (OHandle) and returns at some time (EHandled).  Here
   the handler is a program that awaits client calls and then returns.  All calls of the example handlers
   are publish(..).await.unwrap(), so a refused call panics. *)
From Verif Require Import Base VarInt Prims Props Codes Packets Options Session Client System.

(* what handle does with a packet: its calls, one after the other, then its end *)
Inductive ending (A : Type) := Return (m : A) | Panics.
Arguments Return {A} _.
Arguments Panics {A}.
Record plan (A : Type) := Plan { pn_calls : list call; pn_end : ending A }.
Arguments Plan {A} _ _.
Arguments pn_calls {A} _.
Arguments pn_end {A} _.
Definition handler (A : Type) := A -> packet -> plan A.

(* event_handlers.rs L15-17, L39-41: () and NOP *)
Definition nop : handler unit := fun _ _ => Plan [] (Return tt).

(* += 1 on an unsigned integer with bound [top]; chk: debug build *)
Definition add_one (chk : bool) (top n : N) : ending N :=
  if n <? top then Return (n + 1) else if chk then Panics else Return 0.
(* L59-68: PingResp; ping_resp_received is a u32.  Printing is left out. *)
Definition ping_resp (chk : bool) : handler N :=
  fun n p => Plan [] (match p with PPingResp => add_one chk 4294967295 n | _ => Return n end).

(* str::to_lowercase on ASCII letters.  No other character has a lower case in which p, i, n or g stands
   next to another ASCII letter: U+0130 becomes an i with a combining dot, U+212A a k. *)
Definition lower (b : N) : N := if in_range 65 90 b then b + 32 else b.
Fixpoint starts (pat s : bytes) : bool :=
  match pat, s with
  | [], _ => true
  | x :: pat, y :: s => (x =? y) && starts pat s
  | _ :: _, [] => false
  end.
Fixpoint contains (pat s : bytes) : bool :=
  starts pat s || match s with [] => false | _ :: s => contains pat s end.
Definition PING : bytes := [112; 105; 110; 103].
Definition PONG : bytes := [112; 111; 110; 103].
(* str::is_char_boundary (the text is valid UTF-8) *)
Definition char_boundary (n : N) (s : bytes) : bool :=
  match nth_error s (N.to_nat n) with Some b => negb (in_range 128 191 b) | None => true end.
(* L91-116: PingPong; number is a u16.  L98: &payload[0..max_len] panics unless max_len is a boundary *)
Definition ping_pong (chk : bool) : handler N :=
  fun n p =>
    match p with
    | PPublish x =>
      if utf8_valid (pb_payload x) then
        if char_boundary (N.min (len (pb_payload x)) 10) (pb_payload x) then
          if contains PING (map lower (pb_payload x)) then
            Plan [CPublish (pb_qos x) (pb_retain x) (pb_topic x) PONG no_props]
              (if pb_retain x then Return n else add_one chk 65535 n)
          else Plan [] (Return n)
        else Plan [] Panics
      else Plan [] (Return n)
    | _ => Plan [] (Return n)
    end.

(* System with a handler.  hs_plan: what is left of the running handler.  hs_wait: the handler awaits the send
   of the call at this place in y_wait.  hs_dead: the handler has panicked, and with it the network task. *)
Record hsys (A : Type) := HSys { hs_sys : sys; hs_mem : A; hs_plan : option (plan A); hs_wait : option nat; hs_dead : bool }.
Arguments HSys {A} _ _ _ _ _.
Arguments hs_sys {A} _.
Arguments hs_mem {A} _.
Arguments hs_plan {A} _.
Arguments hs_wait {A} _.
Arguments hs_dead {A} _.
Definition hinit {A} (c : config) (m : A) : hsys A := HSys (init c) m None None false.

Inductive hevent :=
| HEnv (e : event)   (* as in System; not the return of the handler *)
| HCall              (* the handler begins its next call *)
| HReturn.           (* the handler returns *)

Definition handling (q : pc) : bool := match q with PConnHandle _ | PHandle _ => true | _ => false end.
Definition of_client (e : event) : bool :=
  match e with ETick _ | ECall _ | ESend _ | EGiveUp _ | EDropClients => true | _ => false end.
(* the place of the handler's call when the i-th waiting call leaves; None: it is the one that leaves *)
Definition shift (i : nat) (w : option nat) : option nat :=
  match w with
  | Some j => if Nat.eqb i j then None else Some (if Nat.ltb i j then Nat.pred j else j)
  | None => None
  end.
Definition own (i : nat) (w : option nat) : bool := match w with Some j => Nat.eqb i j | None => false end.

Definition henv {A} (f : handler A) (c : config) (e : event) (h : hsys A) : option (hsys A) :=
  if hs_dead h && negb (of_client e) then None else
  match e with
  | EHandled => None
  | EGiveUp i =>
    if own i (hs_wait h) then None
    else option_map (fun s => HSys s (hs_mem h) (hs_plan h) (shift i (hs_wait h)) (hs_dead h)) (step c e (hs_sys h))
  | ESend i => option_map (fun s => HSys s (hs_mem h) (hs_plan h) (shift i (hs_wait h)) (hs_dead h)) (step c e (hs_sys h))
  | EPacket p =>
    option_map (fun s => HSys s (hs_mem h) (if handling (y_pc s) then Some (f (hs_mem h) p) else None) None (hs_dead h)) (step c e (hs_sys h))
  | _ => option_map (fun s => HSys s (hs_mem h) (hs_plan h) (hs_wait h) (hs_dead h)) (step c e (hs_sys h))
  end.
(* the call is refused exactly when it does not wait afterwards *)
Definition hcall {A} (c : config) (h : hsys A) : option (hsys A) :=
  match hs_plan h, hs_wait h, hs_dead h with
  | Some (Plan (k :: ks) e), None, false =>
    match step c (ECall k) (hs_sys h) with
    | Some s =>
      Some (if len (y_wait s) =? len (y_wait (hs_sys h)) then HSys s (hs_mem h) None None true
            else HSys s (hs_mem h) (Some (Plan ks e)) (Some (length (y_wait (hs_sys h)))) false)
    | None => None
    end
  | _, _, _ => None
  end.
Definition hreturn {A} (c : config) (h : hsys A) : option (hsys A) :=
  match hs_plan h, hs_wait h, hs_dead h with
  | Some (Plan [] (Return m)), None, false => option_map (fun s => HSys s m None None false) (step c EHandled (hs_sys h))
  | Some (Plan [] Panics), None, false => Some (HSys (hs_sys h) (hs_mem h) None None true)
  | _, _, _ => None
  end.
Definition hstep {A} (f : handler A) (c : config) (x : hevent) (h : hsys A) : option (hsys A) :=
  match x with
  | HEnv e => henv f c e h
  | HCall => hcall c h
  | HReturn => hreturn c h
  end.
Fixpoint hexec {A} (f : handler A) (c : config) (xs : list hevent) (h : hsys A) : option (hsys A) :=
  match xs with
  | [] => Some h
  | x :: xs => match hstep f c x h with Some h => hexec f c xs h | None => None end
  end.
Definition hreachable {A} (f : handler A) (c : config) (m : A) (h : hsys A) : Prop := exists xs, hexec f c xs (hinit c m) = Some h.
