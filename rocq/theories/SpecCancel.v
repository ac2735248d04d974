(* Words for C61 and C62. *)
From Verif Require Import Base VarInt Prims Props Codes Packets Options Session Client System SpecSession Cancel.

(* a connect that succeeds *)
Definition is_open (o : out) : bool := match o with OConnectEnd None => true | _ => false end.
Definition opened (s s' : sys) : bool := existsb is_open (skipn (length (trace s)) (trace s')).

(* Reached by a program that drops the futures of connect and run, and after that calls run only when a later
   connect has succeeded.  [stale]: a future was dropped and no connect has succeeded since.  smol: no PINGREQ
   is unanswered when run is dropped. *)
Inductive careful (c : config) : sys -> bool -> Prop :=
| careful_init : careful c (init c) false
| careful_step s stale e s' : careful c s stale -> step c e s = Some s' -> (stale = true -> e <> ERun) ->
    careful c s' (stale && negb (opened s s'))
| careful_drop s stale s' : careful c s stale -> drop_task s = Some s' -> (cf_rt c = Smol -> nt_await (y_net s) = None) ->
    careful c s' true.

(* what is not merely the end of something *)
Definition visible (o : out) : bool :=
  match o with OHandled | OWriteFail _ _ | OConnectEnd _ | ORun | ORunEnd _ => false | _ => true end.
Definition shown (l : list (N * out)) : list (N * out) := filter (fun x => visible (snd x)) l.
