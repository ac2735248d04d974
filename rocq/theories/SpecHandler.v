(* C68: what is to be seen of a handler that makes requests. *)
From Verif Require Import Base VarInt Prims Props Codes Packets Options Session Client System Handlers.

(* the request that a call makes; the identifier is free *)
Definition asks (k : call) (p : packet) : Prop :=
  match k, p with
  | CPublish q retain topic payload ps, PPublish x =>
    pb_dup x = false /\ pb_qos x = q /\ pb_retain x = retain /\ pb_topic x = topic /\ pb_props x = ps /\ pb_payload x = payload /\ (pb_pkid x = None <-> q = AtMostOnce)
  | CSubscribe topics ps, PSubscribe x => sb_topics x = topics /\ sb_props x = ps
  | CUnsubscribe topics ps, PUnsubscribe x => ub_topics x = topics /\ ub_props x = ps
  | CDisconnect d, PDisconnect d' => d' = d
  | _, _ => False
  end.

(* neither a call of the handler nor its return *)
Definition between (o : out) : Prop := match o with OHandle _ | OHandled => False | _ => True end.

(* the calls were made one after the other, and each was accepted before the next was made *)
Inductive made : list call -> list out -> Prop :=
| md_nil l : made [] l
| md_snoc ks k p l1 l2 l3 : made ks l1 -> asks k p -> made (ks ++ [k]) (l1 ++ OBegin p :: l2 ++ OAccept p :: l3).

(* Handler f, with m as its memory, was given the packets of the log in order; each time it made its calls and
   returned.  Its memory is now m'. *)
Inductive served {A} (f : handler A) (m : A) : list out -> A -> Prop :=
| sv_nil : served f m [] m
| sv_other l m1 o : served f m l m1 -> between o -> served f m (l ++ [o]) m1
| sv_handle l m1 p ks m2 l2 : served f m l m1 -> f m1 p = Plan ks (Return m2) -> Forall between l2 -> made ks l2 ->
    served f m (l ++ OHandle p :: l2 ++ [OHandled]) m2.

(* the first calls in ks were made and accepted, and at most one more was made *)
Definition made_up_to (ks : list call) (l : list out) : Prop :=
  exists ks1 ks2, ks = ks1 ++ ks2 /\
  (made ks1 l \/ exists k ks3 p l1 l2, ks2 = k :: ks3 /\ made ks1 l1 /\ asks k p /\ l = l1 ++ OBegin p :: l2).
(* the handler panics after its calls, or one of its calls was refused *)
Definition panicked {A} (a : plan A) (l : list out) : Prop :=
  (pn_end a = Panics /\ made (pn_calls a) l) \/
  exists ks1 k ks2 p e l1 l2, pn_calls a = ks1 ++ k :: ks2 /\ made ks1 l1 /\ asks k p /\ l = l1 ++ OBegin p :: ORefuse p e :: l2.
