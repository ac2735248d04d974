(* Dropping the future that connect or run returned, for the client that receives bytes (Wire.v).

   The future may be dropped at every await, as in Cancel.v.  If run is in its select!, the read in progress goes with
   it: tokio/network.rs L129 (the bytes that read_exact had taken are lost), smol/network.rs L144-149 (read_bytes
   puts what it has read into read_buffer without a further await, smol/stream.rs L103-111).  If connect is dropped, the
   stream given to it goes (tokio/network.rs L60-61, smol/network.rs L68-69): [w_new] is not used again until the next connect replaces it.
   A task that has panicked has no future left. *)
From Verif Require Import Base VarInt Prims Props Codes Packets Options Session Client System Cancel SmolStream TokioRead Wire.

Inductive devent := DWire (x : wevent) | DDrop.
Definition wdrop (c : config) (w : wire) : option wire :=
  if w_dead w then None
  else match drop_task (w_sys w) with
       | None => None
       | Some s =>
         Some (Wire s (w_new w) (match y_pc (w_sys w) with PSelect _ => drop_read (cf_rt c) (w_net w) | _ => w_net w end) false)
       end.
Definition dstep (c : config) (chk : bool) (x : devent) (w : wire) : option wire :=
  match x with DWire x => wstep c chk x w | DDrop => wdrop c w end.
Fixpoint dexec (c : config) (chk : bool) (xs : list devent) (w : wire) : option wire :=
  match xs with
  | [] => Some w
  | x :: xs => match dstep c chk x w with Some w => dexec c chk xs w | None => None end
  end.
Definition dreachable (c : config) (chk : bool) (w : wire) : Prop := exists xs, dexec c chk xs (winit c chk) = Some w.
(* bytes are below 256 *)
Definition dbytes (x : devent) : Prop := match x with DWire (WArrive _ ch) => all_bytes ch | _ => True end.
