(* C82: what MQTT 5 allows a client to ask for in PUBLISH, SUBSCRIBE and UNSUBSCRIBE *)
From Verif Require Import Base Prims Props Codes Packets Client System.

(* 4.7.3: no U+0000; 4.7.1: the wildcards # (35) and + (43) do not occur in a topic name *)
Definition name_lawful (t : bytes) : Prop := ~ In 0 t /\ ~ In 35 t /\ ~ In 43 t.
(* the levels of a topic filter: what / (47) separates *)
Fixpoint levels (cur : bytes) (t : bytes) : list bytes :=
  match t with
  | [] => [cur]
  | x :: t' => if x =? 47 then cur :: levels [] t' else levels (cur ++ [x]) t'
  end.
(* a wildcard stands for a whole level, # only for the last *)
Fixpoint placed (ls : list bytes) : Prop :=
  match ls with
  | [] => True
  | l :: rest => (In 35 l -> l = [35] /\ rest = []) /\ (In 43 l -> l = [43]) /\ placed rest
  end.
Definition filter_lawful (t : bytes) : Prop := t <> [] /\ ~ In 0 t /\ placed (levels [] t).
(* 4.8.2: $share/{name}/{filter} *)
Definition is_shared (t : bytes) : Prop := exists r, t = [36; 115; 104; 97; 114; 101; 47] ++ r.

(* PUBLISH from a client: 3.3.2.1 a topic name, or none and an alias; 3.3.2.3.4 the alias is not 0; 3.3.2.3.5 the response topic is a topic name;
   3.3.2.3.8 no subscription identifier *)
Definition publish_lawful (t : bytes) (ps : props) : Prop :=
  name_lawful t /\ (t = [] -> topic_alias ps <> None) /\ topic_alias ps <> Some 0 /\ (forall r, response_topic ps = Some r -> name_lawful r) /\
  subscription_identifier ps = None /\ subscription_identifiers ps = [].
(* SUBSCRIBE: 3.8.3 at least one topic filter, 3.8.3.1 no No Local on a shared subscription, 3.8.2.1.2 the identifier is not 0 *)
Definition subscribe_lawful (ts : list (bytes * sopts)) (ps : props) : Prop :=
  ts <> [] /\ Forall (fun t => filter_lawful (fst t) /\ (is_shared (fst t) -> so_nl (snd t) = false)) ts /\ subscription_identifier ps <> Some 0.
Definition unsubscribe_lawful (ts : list bytes) : Prop := ts <> [] /\ Forall filter_lawful ts.

Definition allowed_call (k : call) : Prop :=
  match k with
  | CPublish _ _ t _ ps => publish_lawful t ps
  | CSubscribe ts ps => subscribe_lawful ts ps
  | CUnsubscribe ts _ => unsubscribe_lawful ts
  | CDisconnect _ => True
  end.
Definition allowed (p : packet) : Prop :=
  match p with
  | PPublish x => publish_lawful (pb_topic x) (pb_props x)
  | PSubscribe x => subscribe_lawful (sb_topics x) (sb_props x)
  | PUnsubscribe x => unsubscribe_lawful (ub_topics x)
  | _ => True
  end.
