(* Dropping the future that connect or run returned.

   The future can be dropped at every await, which is everywhere except [PIdle] and [PCrash].  What lives in
   the future goes: the packet being written, the stream given to connect, the reply to the packet the handler
   works on, tokio's await_pingresp (tokio/network.rs L118; [start_run] sets it anyway).  What lives in the struct
   Network stays: the connection, the session, smol's await_pingresp and keep_alive_interval
   (smol/network.rs L22-39).  smol's outgoing_packet_buffer is empty at every await: write_all drains it before it
   waits (smol/stream.rs L138-149).

   smol's write_buffer (smol/stream.rs L29) is below. *)
From Verif Require Import Base VarInt Prims Props Codes Packets Options Session Client System.

Definition drop_task (s : sys) : option sys :=
  match y_pc s with PIdle | PCrash => None | _ => Some (set_pc PIdle s) end.

Inductive cevent := CStep (e : event) | CDrop.
Definition cstep (c : config) (x : cevent) (s : sys) : option sys :=
  match x with CStep e => step c e s | CDrop => drop_task s end.
Fixpoint cexec (c : config) (xs : list cevent) (s : sys) : option sys :=
  match xs with
  | [] => Some s
  | x :: xs => match cstep c x s with Some s => cexec c xs s | None => None end
  end.

(* ---- bytes written to one connection ---------------------------------------------------------------- *)

(* how a write ends: everything is written; or it fails, or its future is dropped, when [k] bytes have been taken
   by the connection *)
Inductive ending := Complete | Cut (k : N).
(* sd_buf: smol's write_buffer.  sd_sent: what the connection has taken. *)
Record side := Side { sd_buf : bytes; sd_sent : bytes }.
Definition send_bytes (b : bytes) (e : ending) (x : side) : side :=
  match e with
  | Complete => Side [] (sd_sent x ++ b)
  | Cut k => Side b (sd_sent x ++ take k b)
  end.
(* smol/stream.rs L126-136, L138-156: the packets are appended to write_buffer, all of it is written, then it is
   cleared.  A packet that cannot be serialised ends the call before anything is written and is left out here. *)
Definition smol_send (ps : list packet) (e : ending) (x : side) : side :=
  send_bytes (sd_buf x ++ concat (map (fun p => w_bytes (write_packet p)) ps)) e x.
(* tokio/stream.rs L45-63: the packet is written piece by piece, there is no buffer.  L65-73 writes several; a
   write that fails there does not stop it, which is left out here (C58). *)
Definition tokio_send (ps : list packet) (e : ending) (x : side) : side :=
  Side [] (sd_sent (send_bytes (concat (map (fun p => w_bytes (awrite_packet p)) ps)) e x)).
Definition send (rt : runtime) (ps : list packet) (e : ending) (x : side) : side :=
  match rt with Tokio => tokio_send ps e x | Smol => smol_send ps e x end.
(* a new Stream: tokio/stream.rs L23, smol/stream.rs L56-63 *)
Definition side0 : side := Side [] [].
Definition send_all (rt : runtime) (l : list (list packet * ending)) : side :=
  fold_left (fun x pe => send rt (fst pe) (snd pe) x) l side0.
