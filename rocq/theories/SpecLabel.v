(* C88: the packet identifiers that the broker chooses, renamed by [f]. *)
From Verif Require Import Base Prims Props Codes Packets Session Client System.

Section Label.
Context (f : N -> N).
Definition label_ack (a : ack) : ack := Ack (f (ak_id a)) (ak_rc a) (ak_props a).
(* packets from the broker that carry an identifier of the broker *)
Definition label_in (p : packet) : packet :=
  match p with
  | PPublish x => PPublish (Publish (pb_dup x) (pb_qos x) (pb_retain x) (pb_topic x) (option_map f (pb_pkid x)) (pb_props x) (pb_payload x))
  | PPubRel a => PPubRel (label_ack a)
  | _ => p
  end.
(* packets to the broker that do *)
Definition label_reply (p : packet) : packet :=
  match p with
  | PPubAck a => PPubAck (label_ack a)
  | PPubRec a => PPubRec (label_ack a)
  | PPubComp a => PPubComp (label_ack a)
  | _ => p
  end.
Definition label_err (e : cerr) : cerr := match e with NotConnAck p => NotConnAck (label_in p) | _ => e end.
(* in what happens *)
Definition label_event (e : event) : event :=
  match e with
  | EPacket p => EPacket (label_in p)
  | EReadErr e => EReadErr (label_err e)
  | _ => e
  end.
(* in what is observed *)
Definition label_out (o : out) : out :=
  match o with
  | OConnectEnd (Some e) => OConnectEnd (Some (label_err e))
  | ORunEnd (inr e) => ORunEnd (inr (label_err e))
  | OAnswer p => OAnswer (label_in p)
  | ORead p => ORead (label_in p)
  | OHandle p => OHandle (label_in p)
  | OWrite FromReply p => OWrite FromReply (label_reply p)
  | OWriteFail FromReply p => OWriteFail FromReply (label_reply p)
  | _ => o
  end.
(* in the state: only the set of messages received in part *)
Definition label_set (l : list N) : list N := fold_right (fun x l => fst (set_insert x l)) [] (map f l).
Definition label_state (s : state) : state :=
  State (st_pool s) (st_sub s) (st_unsub s) (st_pub s) (st_order s) (st_rel s) (label_set (st_in s)).
Definition label_net (n : net) : net :=
  Net (nt_connected n) (nt_opts n) (nt_keep n) (nt_last n) (nt_await n) (nt_perform n) (map label_reply (nt_buf n)).
Definition label_pc (q : pc) : pc :=
  match q with
  | PHandle (AfterPacket r) => PHandle (AfterPacket (option_map label_reply r))
  | PReply p => PReply (label_reply p)
  | PFlush ps => PFlush (map label_reply ps)
  | _ => q
  end.
Definition label_sys (s : sys) : sys :=
  Sys (label_state (y_state s)) (y_wait s) (y_chan s) (label_net (y_net s)) (label_pc (y_pc s)) (y_now s)
    (map (fun x => (fst x, label_out (snd x))) (y_log s)).
End Label.
Definition one_to_one (f : N -> N) : Prop := forall i j, f i = f j -> i = j.
