(* tokio/stream.rs L41-43 in the select! of tokio/network.rs L129-130: a packet is read by a future that
   takes bytes from the stream and is dropped when another branch completes first.

   The bytes a future has taken are its own; when it is dropped they are gone.  A future that is polled
   again continues where it was; as it is deterministic, this is the same as reading its bytes and the
   new ones from the beginning. *)
From Verif Require Import Base VarInt Prims Props Codes Packets.

(* tr_got: taken by the future in progress.  tr_in: arrived and not taken. *)
Record treader := TReader { tr_got : bytes; tr_in : bytes }.
Inductive tevent :=
| TArrive (b : bytes)
| TPoll                 (* the future is polled *)
| TDrop.                (* another branch completes: the future is dropped *)
Inductive tresult := TGot (ps : list packet) (r : treader) | TFail (e : derr) | TPanic.
Definition tstep (x : tevent) (r : treader) : tresult :=
  match x with
  | TArrive b => TGot [] (TReader (tr_got r) (tr_in r ++ b))
  | TPoll =>
    match aread_packet (tr_got r ++ tr_in r) with
    | AOk p _ rest => TGot [p] (TReader [] rest)
    | AShort => TGot [] (TReader (tr_got r ++ tr_in r) [])
    | AErr e => TFail e
    | ACrash _ => TPanic
    end
  | TDrop => TGot [] (TReader [] (tr_in r))
  end.
(* the packets read, and the state reached unless reading failed *)
Fixpoint tokio_reads (r : treader) (xs : list tevent) : list packet * option treader :=
  match xs with
  | [] => ([], Some r)
  | x :: xs =>
    match tstep x r with
    | TGot ps r => let (qs, o) := tokio_reads r xs in (ps ++ qs, o)
    | TFail _ | TPanic => ([], None)
    end
  end.
