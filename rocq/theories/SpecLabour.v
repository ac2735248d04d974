(* C80: the client of Wire.v and a broker that answers (SpecSettle.v), connected by a network that carries bytes
   (SpecBytes.v), and what is left to do for them when nothing disturbs the connection. *)
From Verif Require Import Base VarInt Prims Props Codes Packets Options Session Client System SpecSession SpecCodec SpecRead SpecOut SpecEnd SmolStream TokioRead Wire SpecPolite SpecSettle SpecBytes SpecCarry.

(* the broker deals with a packet that it has decoded, or sends something of its own accord *)
Definition answering (k : pipe) (q ps : list packet) : Prop :=
  deals (Line (pi_used k) (pi_queue k) [] (pi_live k)) (Line (pi_used k) q ps (pi_live k)).
Definition attentive_serves (k : pipe) (w : unit) (q ps : list packet) (v : bool) (w' : unit) : Prop :=
  v = pi_live k /\ (answering k q ps \/ q = pi_queue k /\ exists p, offers p = true /\ ps = [p]).
Definition attended_bytes (c : config) (chk gentle : bool) (i : wire) (k : pipe) : Prop :=
  carried (fun w _ => w) attentive_serves polite_leaves tt c chk gentle i k tt.

(* What remains to be done: as in SpecSettle.v; and bytes arrive, in pieces of any size but none of them empty; the client reads
   what has arrived; the broker decodes what it has received.  An end of the connection that has arrived already may be read. *)
Inductive labour (c : config) (chk gentle : bool) (i : wire) (k : pipe) : wire -> pipe -> Prop :=
| la_client x i' l k' : match x with WRead => True | WEvent e => effort (w_sys i) e | WArrive _ _ => False end -> wstep c chk x i = Some i' ->
    trace (w_sys i') = trace (w_sys i) ++ l -> felt_all (cf_rt c) l k k' -> (gentle = true -> sr_torn (w_net i') = false) -> labour c chk gentle i k i' k'
| la_arrive ch rest i' : pi_down k = ch ++ rest -> ch <> [] -> wstep c chk (WArrive (negb (pi_used k)) ch) i = Some i' ->
    labour c chk gentle i k i' (Pipe (pi_used k) (pi_up k) (pi_queue k) rest (pi_live k))
| la_decode p b rest : pi_up k = b ++ rest -> packet_ok p -> encodes p b -> labour c chk gentle i k i (Pipe (pi_used k) rest (pi_queue k ++ [p]) (pi_down k) (pi_live k))
| la_deals q ps bs : answering k q ps -> Forall2 sent ps bs -> labour c chk gentle i k i (Pipe (pi_used k) (pi_up k) q (pi_down k ++ concat bs) (pi_live k)).
Inductive labours (c : config) (chk gentle : bool) : wire -> pipe -> wire -> pipe -> Prop :=
| ls_none i k : labours c chk gentle i k i k
| ls_more i k i1 k1 i' k' : labour c chk gentle i k i1 k1 -> labours c chk gentle i1 k1 i' k' -> labours c chk gentle i k i' k'.
Definition all_done (c : config) (chk gentle : bool) (i : wire) (k : pipe) : Prop := forall i' k', ~ labour c chk gentle i k i' k'.
