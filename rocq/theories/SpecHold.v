(* C89: what the session state holds, written down from the log alone: the unfinished exchanges and nothing else. *)
From Verif Require Import Base VarInt Prims Props Codes Packets Options Session Client System SpecSession SpecTrace.

(* a set of identifiers, in ascending order *)
Fixpoint put (i : N) (l : list N) : list N :=
  match l with
  | [] => [i]
  | j :: r => if i <? j then i :: l else if i =? j then l else j :: put i r
  end.
Definition ascending (l : list N) : list N := fold_right put [] l.

(* the requests of each kind that await their first acknowledgement *)
Definition sub_ids (l : list packet) : list N := flat_map (fun p => match p with PSubscribe x => [sb_id x] | _ => [] end) l.
Definition unsub_ids (l : list packet) : list N := flat_map (fun p => match p with PUnsubscribe x => [ub_id x] | _ => [] end) l.
Definition messages (l : list packet) : list publish := flat_map (fun p => match p with PPublish x => [x] | _ => [] end) l.
Definition named (i : N) (x : publish) : bool := match pb_pkid x with Some j => j =? i | None => false end.
Definition name_of (x : publish) : list N := match pb_pkid x with Some i => [i] | None => [] end.

(* the session (state.rs L13-34) with these free identifiers, when the exchanges of [g] are unfinished and the messages [inn] are received and not
   released *)
Definition session_of (rmax : N) (free : pool) (g : ledger) (inn : list N) : state :=
  State free (ascending (sub_ids (lg_sent g))) (ascending (unsub_ids (lg_sent g)))
    (map (fun i => find (named i) (messages (lg_sent g))) (ids_upto rmax))
    (flat_map name_of (messages (lg_sent g)))
    (ascending (lg_rel g)) (ascending inn).

(* no exchange is unfinished: nothing begun, nothing awaited, nothing to be released *)
Definition settled (g : ledger) (inn : list N) : Prop := lg_open g = [] /\ lg_sent g = [] /\ lg_rel g = [] /\ inn = [].
