(* C82 *)
From Verif Require Import Base VarInt Prims Props Codes Packets Options Session Client System SpecSession SpecNet SpecTrace SpecCodec SpecOut SpecAsk SpecAllow Scenario LoopCases AskFacts.

Lemma asks_allowed k p : asks k p -> (allowed_call k <-> allowed p).
Proof.
  destruct k, p; cbn; try tauto.
  - intros (_ & _ & _ & -> & _ & -> & _). tauto.
  - intros (-> & ->). tauto.
  - intros (-> & _). tauto.
Qed.
Lemma dup_allowed p : allowed p -> allowed (dup p).
Proof. now destruct p. Qed.
Lemma allowed_out c es s l1 o l2 org p : config_ok c -> exec c es (init c) = Some s -> (forall k, In (ECall k) es -> allowed_call k) ->
  trace s = l1 ++ o :: l2 -> org = FromClient \/ org = FromResend -> attempt org p o -> allowed p.
Proof.
  intros HC HE HL HT [-> | ->] HA.
  - destruct (written_asked c es s p HC HE) as (k & HK & HS).
    + apply in_flat_map. exists o. split; [rewrite HT; apply in_or_app; right; now left|]. destruct HA as [-> | ->]; now left.
    + apply (asks_allowed _ _ HS), HL, HK.
  - destruct (resent_asked c es s p l1 o l2 HC HE HT HA) as [(i & ->)|(k & q & HK & HS & -> & _)]; [exact I|]. apply dup_allowed, (asks_allowed _ _ HS), HL, HK.
Qed.

(* well-typed calls that MQTT 5 forbids *)
Definition tp_alias0 : props := set_prop TopicAlias (V16 0) no_props.
Definition tp_so (nl : bool) : sopts := SOpts RhZero false nl AtMostOnce.
Definition tp_calls : list call :=
  [CPublish AtLeastOnce false [97; 47; 35] sc_payload no_props;                         (* publish to a/# *)
   CPublish AtLeastOnce false [97; 0] sc_payload no_props;                              (* U+0000 *)
   CPublish AtLeastOnce false [] sc_payload no_props;                                   (* neither topic nor alias *)
   CPublish AtLeastOnce false sc_topic sc_payload tp_alias0;                            (* alias 0 *)
   CPublish AtLeastOnce false sc_topic sc_payload (set_prop ResponseTopic (VStr [43]) no_props);
   CSubscribe [([97; 35], tp_so false)] no_props;                                       (* a# *)
   CSubscribe [([35; 47; 97], tp_so false)] no_props;                                   (* #/a *)
   CSubscribe [([36; 115; 104; 97; 114; 101; 47; 103; 47; 97], tp_so true)] no_props;   (* $share/g/a, No Local *)
   CSubscribe [] no_props;
   CUnsubscribe [[97; 43]] no_props;
   CUnsubscribe [] no_props].
Definition tp_events (k : call) : list event := sc_connect false ++ sc_do k.
Definition tp_packet (k : call) : packet := build k 1.
Lemma tp_wild rt : Forall (fun k => ~ allowed_call k /\ exists es s p, config_ok (lc_cfg rt) /\ exec (lc_cfg rt) es (init (lc_cfg rt)) = Some s /\
  (forall k', In (ECall k') es -> k' = k) /\ asks k p /\ In (OWrite FromClient p) (trace s)) tp_calls.
Proof.
  assert (config_ok (lc_cfg rt)) as HC by (destruct rt; (split; [split; vm_compute; discriminate|vm_compute; discriminate])).
  assert (Forall (fun k => exists es s p, config_ok (lc_cfg rt) /\ exec (lc_cfg rt) es (init (lc_cfg rt)) = Some s /\
    (forall k', In (ECall k') es -> k' = k) /\ asks k p /\ In (OWrite FromClient p) (trace s)) tp_calls) as X.
  { apply Forall_forall. intros k HK. 
    assert (nth_error (rev (trace (run_to (lc_cfg rt) (tp_events k)))) 0 = Some (OWrite FromClient (tp_packet k)) /\ is_some (exec (lc_cfg rt) (tp_events k) (init (lc_cfg rt))) = true) as [E1 E2].
    { revert k HK. apply (proj1 (Forall_forall _ _)). unfold tp_calls. repeat constructor; destruct rt; vm_compute; reflexivity. }
    destruct (exec _ _ _) as [s|] eqn:EE; [|discriminate E2]. exists (tp_events k), s, (tp_packet k). split; [exact HC|]. split; [exact EE|]. split.
    { intros k' H. cbn in H. repeat destruct H as [H|H]; try discriminate H; [now injection H|destruct H]. }
    split; [apply build_asks|]. unfold run_to in E1. rewrite EE in E1. apply nth_error_In in E1. now apply in_rev. }
  revert X. unfold tp_calls. intros X. repeat match type of X with Forall _ (_ :: _) => apply Forall_cons_iff in X as [? X] | Forall _ [] => clear X end.
  repeat (apply Forall_cons; [split; [|assumption]; cbn|]); [..|apply Forall_nil].
  - intros ((_ & HH & _) & _). apply HH. cbn; auto.
  - intros ((HH & _) & _). apply HH. cbn; auto.
  - intros (_ & HH & _). now apply HH.
  - intros (_ & _ & HH & _). now apply HH.
  - intros (_ & _ & _ & HH & _). destruct (HH [43] eq_refl) as (_ & _ & Y). apply Y. left. reflexivity.
  - intros (_ & HH & _). apply Forall_inv in HH. destruct HH as [(_ & _ & Y) _]. cbn in Y. destruct Y as [Y _]. destruct Y as [Z _]; [right; left; reflexivity|discriminate Z].
  - intros (_ & HH & _). apply Forall_inv in HH. destruct HH as [(_ & _ & Y) _]. cbn in Y. destruct Y as [Y _]. destruct Y as [_ Z]; [left; reflexivity|discriminate Z].
  - intros (_ & HH & _). apply Forall_inv in HH. destruct HH as [_ Y]. cbn in Y. discriminate Y. now exists [103; 47; 97].
  - intros (HH & _). now apply HH.
  - intros (_ & HH). apply Forall_inv in HH. destruct HH as (_ & _ & Y). cbn in Y. destruct Y as (_ & Y & _). discriminate Y. right. left. reflexivity.
  - intros (HH & _). now apply HH.
Qed.
