(* C93: what is to be seen of a handler that can be cut off. *)
From Verif Require Import Base VarInt Prims Props Codes Packets Options Session Client System SpecSession Handlers SpecHandler Cancel SpecCancel HandlerDrop.

(* as [served] (C68), but a handler may also be cut off: it has made some of its calls then, and is not heard of again *)
Inductive attended {A} (f : handler A) (m : A) : list out -> A -> Prop :=
| at_nil : attended f m [] m
| at_other l m1 o : attended f m l m1 -> between o -> attended f m (l ++ [o]) m1
| at_handle l m1 p ks m2 l2 : attended f m l m1 -> f m1 p = Plan ks (Return m2) -> Forall between l2 -> made ks l2 ->
    attended f m (l ++ OHandle p :: l2 ++ [OHandled]) m2
| at_cut l m1 p l2 m2 : attended f m l m1 -> Forall between l2 -> made_up_to (pn_calls (f m1 p)) l2 ->
    attended f m (l ++ OHandle p :: l2) m2.

(* As [careful] (C61), with a handler: futures are dropped, and after that run is called only when a later connect
   has succeeded. *)
Inductive prudent {A} (f : handler A) (c : config) (m : A) : hsys A -> bool -> Prop :=
| pr_init : prudent f c m (hinit c m) false
| pr_step h stale x h' : prudent f c m h stale -> hstep f c x h = Some h' -> (stale = true -> x <> HEnv ERun) ->
    prudent f c m h' (stale && negb (opened (hs_sys h) (hs_sys h')))
| pr_drop h stale m' h' : prudent f c m h stale -> hdrop c m' h = Some h' -> (cf_rt c = Smol -> nt_await (y_net (hs_sys h)) = None) ->
    prudent f c m h' true.
