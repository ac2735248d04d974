(* C81: what the application asked for, and what becomes of it *)
From Verif Require Import Base Prims Props Codes Packets Client System.

(* p is the packet that the call asks for; the client chooses the identifier *)
Definition asks (k : call) (p : packet) : Prop :=
  match k, p with
  | CPublish q retain topic payload ps, PPublish x =>
      pb_dup x = false /\ pb_qos x = q /\ pb_retain x = retain /\ pb_topic x = topic /\ pb_payload x = payload /\ pb_props x = ps /\ (pb_pkid x = None <-> q = AtMostOnce)
  | CSubscribe ts ps, PSubscribe x => sb_topics x = ts /\ sb_props x = ps
  | CUnsubscribe ts ps, PUnsubscribe x => ub_topics x = ts /\ ub_props x = ps
  | CDisconnect d, PDisconnect d' => d' = d
  | _, _ => False
  end.
(* the calls that got as far as to have an identifier, in order *)
Definition calls_in (es : list event) : list call := flat_map (fun e => match e with ECall k => [k] | _ => [] end) es.
Definition begun_in (l : list out) : list packet := flat_map (fun o => match o with OBegin p => [p] | _ => [] end) l.
Definition refused_in (l : list out) : list packet := flat_map (fun o => match o with ORefuse p _ => [p] | _ => [] end) l.
Definition dropped_in (l : list out) : list packet := flat_map (fun o => match o with OGiveUp p => [p] | _ => [] end) l.
