(* C85: what the application and the broker talk about, renamed.  [f] renames topics and topic filters, [g] payloads. *)
From Verif Require Import Base Prims Props Codes Packets Session Client System.

Section Rename.
Context (f g : bytes -> bytes).
Definition ren_publish (x : publish) : publish :=
  Publish (pb_dup x) (pb_qos x) (pb_retain x) (f (pb_topic x)) (pb_pkid x) (pb_props x) (g (pb_payload x)).
Definition ren (p : packet) : packet :=
  match p with
  | PPublish x => PPublish (ren_publish x)
  | PSubscribe x => PSubscribe (Subscribe (sb_id x) (sb_props x) (map (fun t => (f (fst t), snd t)) (sb_topics x)))
  | PUnsubscribe x => PUnsubscribe (Unsubscribe (ub_id x) (ub_props x) (map f (ub_topics x)))
  | _ => p
  end.
Definition ren_call (c : call) : call :=
  match c with
  | CPublish q retain topic payload ps => CPublish q retain (f topic) (g payload) ps
  | CSubscribe topics ps => CSubscribe (map (fun t => (f (fst t), snd t)) topics) ps
  | CUnsubscribe topics ps => CUnsubscribe (map f topics) ps
  | CDisconnect d => CDisconnect d
  end.
Definition ren_err (e : cerr) : cerr := match e with NotConnAck p => NotConnAck (ren p) | _ => e end.
(* in what happens *)
Definition ren_event (e : event) : event :=
  match e with
  | ECall c => ECall (ren_call c)
  | EPacket p => EPacket (ren p)
  | EReadErr e => EReadErr (ren_err e)
  | _ => e
  end.
(* in what is observed *)
Definition ren_out (o : out) : out :=
  match o with
  | OBegin p => OBegin (ren p)
  | OAccept p => OAccept (ren p)
  | ORefuse p e => ORefuse (ren p) e
  | OGiveUp p => OGiveUp (ren p)
  | OConnectEnd (Some e) => OConnectEnd (Some (ren_err e))
  | ORunEnd (inr e) => ORunEnd (inr (ren_err e))
  | OAnswer p => OAnswer (ren p)
  | ORead p => ORead (ren p)
  | OHandle p => OHandle (ren p)
  | OWrite o p => OWrite o (ren p)
  | OWriteFail o p => OWriteFail o (ren p)
  | _ => o
  end.
(* in what the client keeps *)
Definition ren_state (s : state) : state :=
  State (st_pool s) (st_sub s) (st_unsub s) (map (option_map ren_publish) (st_pub s)) (st_order s) (st_rel s) (st_in s).
Definition ren_net (n : net) : net :=
  Net (nt_connected n) (nt_opts n) (nt_keep n) (nt_last n) (nt_await n) (nt_perform n) (map ren (nt_buf n)).
Definition ren_pc (q : pc) : pc :=
  match q with
  | PConnHandle re => PConnHandle (option_map (map ren) re)
  | PConnResend re => PConnResend (map ren re)
  | PHandle (AfterPacket r) => PHandle (AfterPacket (option_map ren r))
  | PReply p => PReply (ren p)
  | PFlush ps => PFlush (map ren ps)
  | PRequest p => PRequest (ren p)
  | _ => q
  end.
Definition ren_sys (s : sys) : sys :=
  Sys (ren_state (y_state s)) (map ren (y_wait s)) (map ren (y_chan s)) (ren_net (y_net s)) (ren_pc (y_pc s)) (y_now s)
    (map (fun x => (fst x, ren_out (snd x))) (y_log s)).
End Rename.
Definition same_len (f : bytes -> bytes) : Prop := forall b, len (f b) = len b.
