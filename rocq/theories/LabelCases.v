(* Concrete executions for P_Label.v. *)
From Verif Require Import Base VarInt Prims Props Codes Packets Options Session Client System SpecSession SpecNet SpecTrace SpecLabel Scenario LoopCases.

Definition lb_swap (i : N) : N := if i =? 3 then 9 else if i =? 9 then 3 else i.
Lemma lb_one : one_to_one lb_swap.
Proof. intros i j. unfold lb_swap. destruct (N.eqb_spec i 3), (N.eqb_spec j 3), (N.eqb_spec i 9), (N.eqb_spec j 9); lia. Qed.
(* two messages of QoS 2, the first of them is released; beside them a message goes out under identifier 1 *)
Definition lb_events : list event :=
  sc_connect false ++ sc_do (sc_pub AtLeastOnce) ++ sc_in_reply (PPublish (lc_pub false ExactlyOnce (Some 3))) ++ sc_in_reply (PPublish (lc_pub false ExactlyOnce (Some 9))) ++
  sc_in_reply (PPubRel (sc_ack 3)) ++ [EPacket (PPubAck (sc_ack 1)); EHandled].
Definition lb_given (l : list out) : nat := length (filter (fun o => match o with OHandle (PPublish _) => true | _ => false end) l).
Lemma label_case rt : one_to_one lb_swap /\ config_ok (lc_cfg rt) /\ exists s s', exec (lc_cfg rt) lb_events (init (lc_cfg rt)) = Some s /\
  exec (lc_cfg rt) (map (label_event lb_swap) lb_events) (init (lc_cfg rt)) = Some s' /\ st_in (y_state s) = [9] /\ st_in (y_state s') = [3] /\
  In (OWrite FromReply (PPubComp (sc_ack 3))) (trace s) /\ In (OWrite FromReply (PPubComp (sc_ack 9))) (trace s') /\ lb_given (trace s) = 2%nat /\ lb_given (trace s') = 2%nat.
Proof.
  split; [exact lb_one|]. split; [destruct rt; (split; [split; vm_compute; discriminate|vm_compute; discriminate])|].
  exists (run_to (lc_cfg rt) lb_events), (run_to (lc_cfg rt) (map (label_event lb_swap) lb_events)). destruct rt; repeat apply conj; try (vm_compute; reflexivity); vm_compute; tauto.
Qed.
(* if the two messages have the same identifier, the second is taken for the first *)
Lemma label_sharp rt : ~ one_to_one (fun _ => 3) /\ exists s s', exec (lc_cfg rt) (firstn 16 lb_events) (init (lc_cfg rt)) = Some s /\ lb_given (trace s) = 2%nat /\
  exec (lc_cfg rt) (firstn 14 (map (label_event (fun _ => 3)) lb_events) ++ [EWrite true]) (init (lc_cfg rt)) = Some s' /\ lb_given (trace s') = 1%nat.
Proof.
  split; [intros H; specialize (H 3 9 eq_refl); discriminate|].
  exists (run_to (lc_cfg rt) (firstn 16 lb_events)), (run_to (lc_cfg rt) (firstn 14 (map (label_event (fun _ => 3)) lb_events) ++ [EWrite true])). destruct rt; repeat apply conj; vm_compute; reflexivity.
Qed.
