(* C87: when the two runtimes have done the same. *)
From Verif Require Import Base Prims Props Codes Packets Options Session Client System.

(* the keep-alive timers do not fire, and no write of a retransmission fails *)
Definition steady (e : event) : Prop :=
  match e with
  | ETimer => False
  | EWrites oks ok => ok = true /\ Forall (eq true) oks
  | _ => True
  end.

(* options that give authentication data give a method as well *)
Definition auth_paired (o : options) : Prop := op_auth_data o <> None -> op_auth_method o <> None.

(* Once a broker has named its own keep-alive interval, tokio puts it into the next CONNECT and smol does not (C44):
   the interval in CONNECT is left out of the comparison. *)
Definition no_interval (p : packet) : packet :=
  match p with
  | PConnect c => PConnect (Connect (cn_clean_start c) (cn_will c) (cn_username c) (cn_password c) 0 (cn_props c) (cn_client_id c))
  | _ => p
  end.
Definition compared (x : N * out) : N * out :=
  (fst x, match snd x with OWrite o p => OWrite o (no_interval p) | OWriteFail o p => OWriteFail o (no_interval p) | o => o end).

(* the session, the calls that wait, the requests in the channel, whether there is a connection, the time, and everything seen so far with its time *)
Definition outcome (s : sys) : state * list packet * list packet * bool * N * list (N * out) :=
  (y_state s, y_wait s, y_chan s, nt_connected (y_net s), y_now s, map compared (y_log s)).
Definition possible (rt : runtime) (o : options) (x : state * list packet * list packet * bool * N * list (N * out)) : Prop :=
  exists es s, Forall steady es /\ exec (Config rt o) es (init (Config rt o)) = Some s /\ outcome s = x.
