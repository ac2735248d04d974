(* Concrete executions for P_Hold.v. *)
From Verif Require Import Base VarInt Prims Props Codes Packets Options Session Client System SpecSession SpecNet SpecTrace SpecHold Scenario LoopCases Cases.

(* a message of each QoS, a subscription and its opposite; the QoS 2 message is half acknowledged, another one has arrived *)
Definition hd_open : list event :=
  sc_connect false ++ sc_do (sc_pub AtLeastOnce) ++ sc_do (sc_pub ExactlyOnce) ++ sc_do sc_sub ++ sc_do sc_unsub ++
  sc_in_reply (PPubRec (sc_ack 2)) ++ sc_in_reply (PPublish (lc_pub false ExactlyOnce (Some 7))).
(* and the rest; smol flushes also when there is nothing to write *)
Definition hd_in (rt : runtime) (p : packet) : list event := sc_in p ++ match rt with Tokio => [] | Smol => [EWrite true] end.
Definition hd_rest (rt : runtime) : list event :=
  sc_in_reply (PPubRel (sc_ack 7)) ++ hd_in rt (PUnsubAck (SubAck 4 no_props [RSuccess])) ++ hd_in rt (PPubComp (sc_ack 2)) ++
  hd_in rt (PPubAck (sc_ack 1)) ++ hd_in rt (PSubAck (SubAck 3 no_props [RSuccess])).
Lemma hold_case rt : config_ok (lc_cfg rt) /\ exists s s', exec (lc_cfg rt) hd_open (init (lc_cfg rt)) = Some s /\ exec (lc_cfg rt) (hd_open ++ hd_rest rt) (init (lc_cfg rt)) = Some s' /\
  reachable (lc_cfg rt) s /\ reachable (lc_cfg rt) s' /\ y_pc s <> PCrash /\ y_pc s' <> PCrash /\
  (let h := y_state s in (st_sub h, st_unsub h, st_order h, st_rel h, st_in h) = ([3], [4], [1], [2], [7])) /\
  st_pub (y_state s) = Some (lc_pub false AtLeastOnce (Some 1)) :: repeat None 9 /\
  settled (now_ledger (lc_cfg rt) s') (received (trace s')) /\ y_state s' = new_state 10 (Pool [5; 6; 7; 8; 9; 10; 4; 2; 1; 3] 10 true).
Proof.
  split; [destruct rt; (split; [split; vm_compute; discriminate|vm_compute; discriminate])|].
  exists (run_to (lc_cfg rt) hd_open), (run_to (lc_cfg rt) (hd_open ++ hd_rest rt)).
  assert (exec (lc_cfg rt) hd_open (init (lc_cfg rt)) = Some (run_to (lc_cfg rt) hd_open)) as E1 by (destruct rt; vm_compute; reflexivity).
  assert (exec (lc_cfg rt) (hd_open ++ hd_rest rt) (init (lc_cfg rt)) = Some (run_to (lc_cfg rt) (hd_open ++ hd_rest rt))) as E2 by (destruct rt; vm_compute; reflexivity).
  split; [exact E1|]. split; [exact E2|]. split; [now exists hd_open|]. split; [now exists (hd_open ++ hd_rest rt)|]. clear.
  destruct rt; (split; [vm_compute; discriminate|]); (split; [vm_compute; discriminate|]); repeat apply conj; vm_compute; reflexivity.
Qed.
