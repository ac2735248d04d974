(* Why connect and run return what they return: words for C60. *)
From Verif Require Import Base VarInt Prims Props Codes Packets Options Session Client System SpecSession SpecNet SpecTrace SpecCodec SpecOut SmolStream TokioRead Wire.

(* A read fails with an error of the connection or of the decoder (error.rs L45-52); [System.step] takes any
   error. *)
Definition real (e : event) : Prop :=
  match e with EReadErr x => x = Io \/ x = DeserializationError | _ => True end.

(* the last that the network task did *)
Definition ends (l e : list out) : Prop := exists t, net_of l = t ++ e.
(* there is a connection, and run is waiting for the broker, the client or the time *)
Definition looping (c : config) (l : list out) : Prop := exists q, nrun c l q /\ n_phase q = FLoop /\ n_todo q = [].
(* there is no connection and neither connect nor run is running *)
Definition unconnected (c : config) (l : list out) : Prop := exists q, nrun c l q /\ n_phase q = FIdle /\ n_todo q = [] /\ n_open q = false.

(* the last write failed; this or, in a group of packets written together, one before it could not be serialised *)
Definition not_written (rt : runtime) (l : list out) (x : serr) : Prop :=
  (exists o p, ends l [OWriteFail o p]) /\ exists o p, In (OWriteFail o p) l /\ ser_err rt p = Some x.
(* run returned r after l *)
Definition run_cause (c : config) (l : list out) (r : status + cerr) : Prop :=
  match r with
  | inl IncomingDisconnect => exists d, ends l [ORead (PDisconnect d); OHandle (PDisconnect d); OHandled]
  | inl OutgoingDisconnect => exists d, ends l [OWrite FromClient (PDisconnect d)]
  | inl KeepAliveTimeout => ends l [OWrite FromTimer timeout]
  | inl ShutdownSignal => False
  | inr NoNetwork => unconnected c l
  | inr NoOutgoingPacketSender => looping c l /\ In ODropClients l /\ tried l = accepted l
  | inr (HandlerErr e) => exists l0 p, l = l0 ++ [ORead p] /\ looping c l0 /\
      on_read (receive_max (cf_opts c)) (ledger_of (op_clean_start (cf_opts c)) l0) (received l0) p = [IEnd (inr (HandlerErr e))]
  | inr Io => looping c l \/ exists o p, ends l [OWriteFail o p]
  | inr DeserializationError => looping c l
  | inr (SerializationError x) => not_written (cf_rt c) l x
  | inr (ConnectionRefused _) | inr (NotConnAck _) => False
  end.

(* connect returned the error e after l *)
Definition connect_cause (c : config) (l : list out) (e : cerr) : Prop :=
  match e with
  | ConnectionRefused r => r <> RSuccess /\ exists a, ca_rc a = r /\ ends l [OAnswer (PConnAck a)]
  | NotConnAck p => ends l [OAnswer p] /\ forall a, p <> PConnAck a
  | HandlerErr e => In ODropClients l /\ (exists i, e = PacketIdChannelError i) /\ exists a, ca_rc a = RSuccess /\ ends l [OAnswer (PConnAck a)]
  | Io => exists o, ends l [o] /\
      match o with OWrite FromConnect _ | OWrite FromResend _ | OWriteFail FromConnect _ | OWriteFail FromResend _ | OHandled => True | _ => False end
  | DeserializationError => exists x, ends l [OWrite FromConnect (PConnect x)]
  | SerializationError x => not_written (cf_rt c) l x
  | NoNetwork | NoOutgoingPacketSender => False
  end.

(* ---- executions that start from bytes (Wire.v) ---------------------------------------------------------- *)
(* bytes are below 256; calls as in C57 *)
Definition wire_ok (x : wevent) : Prop :=
  match x with WArrive _ ch => all_bytes ch | WEvent e => event_ok e | WRead => True end.
