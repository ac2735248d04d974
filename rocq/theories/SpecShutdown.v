(* What is claimed about calls when the network is gone *)
From Verif Require Import Base VarInt Prims Props Codes Packets Options Session Client System Shutdown.

(* what clients alone can add to the log *)
Definition client_log (o : out) : Prop :=
  match o with OBegin _ | OAccept _ | ORefuse _ _ | OGiveUp _ | ODropClients => True | _ => False end.
(* the calls that have not returned *)
Definition unreturned (g : lsys) : list N := map fst (l_need g) ++ l_send g.
(* a call goes on *)
Definition goes_on (x : levent) : Prop := match x with LBegin _ | LSend _ => True | _ => False end.
(* no call can go on *)
Definition all_wait (c : config) (g : lsys) : Prop := forall x, goes_on x -> lstep c x g = None.
(* the numbers of the calls that have been made *)
Definition call_numbers (g : lsys) : list N := map N.of_nat (seq 0 (N.to_nat (l_next g))).
(* the calls that were made, in order *)
Definition calls_of (xs : list levent) : list call := flat_map (fun x => match x with LCall k => [k] | _ => [] end) xs.
(* the network is gone *)
Definition gone (g : lsys) : Prop := l_ids g = false /\ l_req g = false.
(* events of clients, and time *)
Definition not_network (e : event) : Prop := match e with ECall _ | ESend _ | EGiveUp _ | EDropClients | ETick _ => True | _ => False end.
