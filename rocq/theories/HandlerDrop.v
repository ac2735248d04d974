(* Handlers together with dropped futures.

   The future of a handler is part of the future of connect or run (tokio/network.rs L72, L137, L141, L147,
   smol/network.rs L80, L152, L156, L162).  Dropping connect or run therefore drops the handler too, at the await at
   which it is: it makes no further call and does not return.  If it awaits the send of a request then the future
   of that call is dropped, which is EGiveUp of System for that call.

   A plan (Handlers.v) has no memory between its calls, so it does not say what a handler that is dropped has
   changed until then.  It may have changed anything: DDrop carries the memory that it leaves.  When no handler
   is running the memory stays.  A handler that has panicked has taken its task along; that future is not
   dropped here. *)
From Verif Require Import Base VarInt Prims Props Codes Packets Options Session Client System Handlers Cancel.

Inductive devent (A : Type) :=
| DStep (x : hevent)   (* as in Handlers *)
| DDrop (m : A).       (* the future of connect or run is dropped *)
Arguments DStep {A} _.
Arguments DDrop {A} _.

Definition hdrop {A} (c : config) (m : A) (h : hsys A) : option (hsys A) :=
  if hs_dead h then None else
  let m := if handling (y_pc (hs_sys h)) then m else hs_mem h in
  match (match hs_wait h with Some j => step c (EGiveUp j) (hs_sys h) | None => Some (hs_sys h) end) with
  | Some s => option_map (fun s => HSys s m None None false) (drop_task s)
  | None => None
  end.
Definition dstep {A} (f : handler A) (c : config) (x : devent A) (h : hsys A) : option (hsys A) :=
  match x with
  | DStep x => hstep f c x h
  | DDrop m => hdrop c m h
  end.
Fixpoint dexec {A} (f : handler A) (c : config) (xs : list (devent A)) (h : hsys A) : option (hsys A) :=
  match xs with
  | [] => Some h
  | x :: xs => match dstep f c x h with Some h => dexec f c xs h | None => None end
  end.
Definition dreachable {A} (f : handler A) (c : config) (m : A) (h : hsys A) : Prop := exists xs, dexec f c xs (hinit c m) = Some h.
