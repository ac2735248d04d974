(* What the network task may do, as a language of observations: an automaton that reads the log and
   says after each observation what must come next.  It knows the ledger (SpecSession.v) and the
   identifiers of the QoS 2 messages that were received and not released; it does not know the
   state of the client.  The order in which the loop turns to the broker, to the requests and to
   the timers is left open. *)
From Coq Require Import Permutation.
From Verif Require Import Base VarInt Prims Props Codes Packets Options Session Client System SpecSession.

(* what must come next *)
Inductive item :=
| IHandle (p : packet)        (* the handler is called with p *)
| IHandled                    (* the handler returns *)
| IReply (p : packet)         (* p is written in reply *)
| IResend (p : packet)        (* p is written again, or the attempt fails *)
| IOpen                       (* connect returns, with success or with an error *)
| INoConnect                  (* connect returns an error *)
| IRefused (e : cerr)         (* connect returns this error *)
| IEnd (r : status + cerr)    (* run returns r *)
| IFail                       (* run returns an error *)
| IPanic.

Inductive phase :=
| FIdle       (* neither connect nor run is running *)
| FOpening    (* connect has to send CONNECT *)
| FAnswer     (* connect waits for the answer *)
| FLoop       (* run is running *)
| FDead.      (* panicked *)

(* [n_open]: there is a connection; [n_todo]: what must come next, before anything else; [n_in]:
   received QoS 2 messages not yet released *)
Record nstate := NState { n_open : bool; n_phase : phase; n_todo : list item; n_in : list N; n_led : ledger }.
Definition nstate0 : nstate := NState false FIdle [] [] ledger0.

Definition by_client (o : out) : bool :=
  match o with OBegin _ | OAccept _ | ORefuse _ _ | OGiveUp _ | ODropClients => true | _ => false end.

Definition reply (a : packet) : list item := [IReply a].
Definition deliver (p : packet) : list item := [IHandle p; IHandled].
Definition refuse (e : herr) : list item := [IEnd (inr (HandlerErr e))].
Definition okay (i : N) : ack := Ack i RSuccess no_props.
Definition mem (i : N) (l : list N) : bool := existsb (N.eqb i) l.

(* reactions to a packet from the broker *)
Definition on_ack (rmax : N) (g : ledger) (p : packet) (i : N) : list item :=
  if awaited g p
  then if lg_clients g then deliver p else refuse (PacketIdChannelError i)
  else refuse (Unsolicited i (type_of p)).
Definition on_read (rmax : N) (g : ledger) (inn : list N) (p : packet) : list item :=
  match p with
  | PPingResp => deliver p
  | PDisconnect _ => deliver p ++ [IEnd (inl IncomingDisconnect)]
  | PPublish x =>
    match pb_qos x, pb_pkid x with
    | AtMostOnce, _ => deliver p
    | _, None => refuse MissingPacketId
    | AtLeastOnce, Some i => deliver p ++ reply (PPubAck (okay i))
    | ExactlyOnce, Some i =>
      if mem i inn || pb_dup x then reply (PPubRec (okay i)) else deliver p ++ reply (PPubRec (okay i))
    end
  | PPubRel a => deliver p ++ reply (PPubComp (okay (ak_id a)))
  | PPubAck a => if off_table rmax (ak_id a) then [IPanic] else on_ack rmax g p (ak_id a)
  | PPubRec a =>
    if off_table rmax (ak_id a) then [IPanic]
    else if awaited g p
    then deliver p ++ (if rec_accepts (ak_rc a) then reply (PPubRel (okay (ak_id a))) else [])
    else refuse (Unsolicited (ak_id a) TPubRec)
  | PPubComp a => on_ack rmax g p (ak_id a)
  | PSubAck a | PUnsubAck a => on_ack rmax g p (sa_id a)
  | _ => refuse (UnexpectedPacket (type_of p))
  end.
Definition in_after (inn : list N) (p : packet) : list N :=
  match p with
  | PPublish x =>
    match pb_qos x, pb_pkid x with
    | ExactlyOnce, Some i => i :: inn
    | _, _ => inn
    end
  | PPubRel a => filter (fun j => negb (ak_id a =? j)) inn
  | _ => inn
  end.

(* reaction to the broker's answer to CONNECT; [rel]: the released identifiers in any order *)
Definition resend_items (g : ledger) (rel : list N) : list item :=
  map IResend (lg_expect g ++ map (fun i => PPubRel (okay i)) rel).
Inductive on_answer (clean : bool) (g : ledger) (p : packet) : list N -> list N -> list item -> Prop :=
| oa_other inn : (forall a, p <> PConnAck a) -> on_answer clean g p inn inn [IRefused (NotConnAck p)]
| oa_refused inn a : p = PConnAck a -> ca_rc a <> RSuccess -> on_answer clean g p inn inn [IRefused (ConnectionRefused (ca_rc a))]
| oa_ok inn a rel : p = PConnAck a -> ca_rc a = RSuccess ->
    Permutation rel (lg_expect_rel (ledger_step clean g (OAnswer p))) ->
    on_answer clean g p inn [] (deliver p ++ resend_items (ledger_step clean g (OAnswer p)) rel ++ [IOpen])
| oa_no_clients inn a i : p = PConnAck a -> ca_rc a = RSuccess -> lg_clients g = false ->
    on_answer clean g p inn [] [IRefused (HandlerErr (PacketIdChannelError i))].

(* after the write of a request *)
Definition on_request (rmax : N) (p : packet) : list item :=
  match p with
  | PPublish x => match pb_pkid x with Some i => if rmax <? i then [IPanic] else [] | None => [] end
  | PDisconnect _ => [IEnd (inl OutgoingDisconnect)]
  | _ => []
  end.
Definition spoil (l : list item) : list item := map (fun it => match it with IOpen => INoConnect | _ => it end) l.
Definition timeout : packet := PDisconnect (Disconnect RKeepAliveTimeout no_props).

(* one observation of the network task *)
Inductive nact (c : config) (g : ledger) : bool -> phase -> list item -> list N -> out -> bool -> phase -> list item -> list N -> Prop :=
(* what must come next *)
| a_handle b f inn p rest : nact c g b f (IHandle p :: rest) inn (OHandle p) b f rest inn
| a_handled b f inn rest : nact c g b f (IHandled :: rest) inn OHandled b f rest inn
| a_reply b f inn p rest : nact c g b f (IReply p :: rest) inn (OWrite FromReply p) b f rest inn
| a_reply_fail b f inn p rest : nact c g b f (IReply p :: rest) inn (OWriteFail FromReply p) b f [IFail] inn
| a_resend b f inn p rest : nact c g b f (IResend p :: rest) inn (OWrite FromResend p) b f rest inn
| a_resend_fail b f inn p rest :
    nact c g b f (IResend p :: rest) inn (OWriteFail FromResend p) b f (match cf_rt c with Tokio => rest | Smol => spoil rest end) inn
| a_open b f inn : nact c g b f [IOpen] inn (OConnectEnd None) true FIdle [] inn
| a_open_fail b f inn e : nact c g b f [IOpen] inn (OConnectEnd (Some e)) b FIdle [] inn
| a_no_connect b f inn e : nact c g b f [INoConnect] inn (OConnectEnd (Some e)) b FIdle [] inn
| a_refused b f inn e : nact c g b f [IRefused e] inn (OConnectEnd (Some e)) b FIdle [] inn
| a_end b f inn r : nact c g b f [IEnd r] inn (ORunEnd r) false FIdle [] inn
| a_fail b f inn e : nact c g b f [IFail] inn (ORunEnd (inr e)) false FIdle [] inn
| a_panic b f inn : nact c g b f [IPanic] inn OPanic b FDead [] inn
(* connect *)
| a_connect b inn : nact c g b FIdle [] inn OConnect b FOpening [] inn
| a_sent b inn x : nact c g b FOpening [] inn (OWrite FromConnect (PConnect x)) b FAnswer [] inn
| a_sent_fail b inn x : nact c g b FOpening [] inn (OWriteFail FromConnect (PConnect x)) b FIdle [INoConnect] inn
| a_answer_fail b inn e : nact c g b FAnswer [] inn (OConnectEnd (Some e)) b FIdle [] inn
| a_answer b inn inn' p its : on_answer (op_clean_start (cf_opts c)) g p inn inn' its ->
    nact c g b FAnswer [] inn (OAnswer p) b FIdle its inn'
(* run *)
| a_run inn : nact c g true FIdle [] inn ORun true FLoop [] inn
| a_no_network inn : nact c g false FIdle [] inn (ORunEnd (inr NoNetwork)) false FIdle [] inn
| a_read b inn p : nact c g b FLoop [] inn (ORead p) b FLoop (on_read (receive_max (cf_opts c)) g inn p) (in_after inn p)
| a_read_fail b inn e : nact c g b FLoop [] inn (ORunEnd (inr e)) false FIdle [] inn
| a_request b inn p : nact c g b FLoop [] inn (OWrite FromClient p) b FLoop (on_request (receive_max (cf_opts c)) p) inn
| a_request_fail b inn p : nact c g b FLoop [] inn (OWriteFail FromClient p) b FLoop [IFail] inn
| a_ping b inn : nact c g b FLoop [] inn (OWrite FromTimer PPingReq) b FLoop [] inn
| a_ping_fail b inn : nact c g b FLoop [] inn (OWriteFail FromTimer PPingReq) b FLoop [IFail] inn
| a_bye b inn : nact c g b FLoop [] inn (OWrite FromTimer timeout) b FLoop [IEnd (inl KeepAliveTimeout)] inn
| a_bye_fail b inn : nact c g b FLoop [] inn (OWriteFail FromTimer timeout) b FLoop [IFail] inn.

Inductive nstep (c : config) (q : nstate) (o : out) : nstate -> Prop :=
| n_client : by_client o = true ->
    nstep c q o (NState (n_open q) (n_phase q) (n_todo q) (n_in q) (ledger_step (op_clean_start (cf_opts c)) (n_led q) o))
| n_net b f its inn : by_client o = false -> nact c (n_led q) (n_open q) (n_phase q) (n_todo q) (n_in q) o b f its inn ->
    nstep c q o (NState b f its inn (ledger_step (op_clean_start (cf_opts c)) (n_led q) o)).

Inductive nrun (c : config) : list out -> nstate -> Prop :=
| nrun_nil : nrun c [] nstate0
| nrun_snoc l q o q' : nrun c l q -> nstep c q o q' -> nrun c (l ++ [o]) q'.
