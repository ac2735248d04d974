(* C81: a case with every fate *)
From Verif Require Import Base VarInt Prims Props Codes Packets Options Session Client System SpecSession SpecNet SpecTrace SpecAsk SpecAllow Scenario LoopCases.

(* a client that takes packets of at most 20 bytes, and a payload of 40 *)
Definition ak_cfg (rt : runtime) : config :=
  Config rt (match set_maximum_packet_size 20 (sc_opts 10 10 false) with Some o => o | None => sc_opts 10 10 false end).
Definition ak_long : call := CPublish AtLeastOnce true sc_topic (repeat 97 40) no_props.
Definition ak_events (rt : runtime) : list event := lc_three rt ++ lc_resume true [] ++ [ECall ak_long; ECall sc_sub; EGiveUp 0; ECall sc_unsub; ECall (sc_pub AtMostOnce)].
Lemma ask_case rt : exists s l1 o l2 p, config_ok (ak_cfg rt) /\ exec (ak_cfg rt) (ak_events rt) (init (ak_cfg rt)) = Some s /\ len (calls_in (ak_events rt)) = 8 /\
  len (accepted (trace s)) = 4 /\ len (refused_in (trace s)) = 1 /\ len (dropped_in (trace s)) = 1 /\ len (y_wait s) = 2 /\ len (tried (trace s)) = 4 /\
  trace s = l1 ++ o :: l2 /\ attempt FromResend p o /\ p = PPublish (lc_pub true AtLeastOnce (Some 1)).
Proof.
  set (s := run_to (ak_cfg rt) (ak_events rt)). set (o := OWrite FromResend (PPublish (lc_pub true AtLeastOnce (Some 1)))).
  set (f := fun x => match x with OWrite FromResend _ => true | _ => false end).
  exists s, (before f (trace s)), o, (behind f (trace s)), (PPublish (lc_pub true AtLeastOnce (Some 1))).
  split; [destruct rt; (split; [split; vm_compute; discriminate|vm_compute; discriminate])|]. split; [destruct rt; vm_compute; reflexivity|].
  repeat apply conj; first [left; reflexivity|destruct rt; vm_compute; reflexivity].
Qed.
Lemma allowed_case rt : (forall k, In (ECall k) (ak_events rt) -> allowed_call k) /\ exists s l1 o l2 p, config_ok (ak_cfg rt) /\ exec (ak_cfg rt) (ak_events rt) (init (ak_cfg rt)) = Some s /\
  trace s = l1 ++ o :: l2 /\ attempt FromResend p o /\ p = PPublish (lc_pub true AtLeastOnce (Some 1)).
Proof.
  split; [|destruct (ask_case rt) as (s & l1 & o & l2 & p & H); exists s, l1, o, l2, p; tauto].
  assert (publish_lawful sc_topic no_props) as HP.
  { unfold publish_lawful, name_lawful. unfold sc_topic. cbn [In no_props topic_alias response_topic subscription_identifier subscription_identifiers]. intuition (try discriminate; try congruence). }
  assert (filter_lawful sc_topic) as HF.
  { unfold filter_lawful, sc_topic. change (levels [] [116]) with [[116]]. cbn. intuition (try discriminate). }
  intros k H. cbn in H. repeat destruct H as [H|H]; try discriminate H; try (injection H as <-; first [exact HP|idtac]); try contradiction.
  1,2: (split; [discriminate|]; split; [|discriminate]; constructor; [|constructor]; split; [exact HF|reflexivity]).
  split; [discriminate|]. constructor; [exact HF|constructor].
Qed.
