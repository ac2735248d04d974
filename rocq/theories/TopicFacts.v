(* Topics of subscribe and unsubscribe *)
From Verif Require Import Base VarInt Prims Props Codes Packets Options Session Client System SpecCodec SpecOut Topics SpecTopics BaseFacts PrimFacts PropsFacts GoodFacts CodecFacts LimitMore.

Lemma section_none sec : spec_section_of no_props sec -> sec = [0].
Proof.
  intros (its & A & _ & ->). assert (its = []) as ->; [|reflexivity]. destruct its as [|[t v] its]; [reflexivity|]. exfalso.
  specialize (A t). unfold vals in A. cbn [filter fst] in A. replace (ptype_eqb t t) with true in A by (now destruct t).
  rewrite prop_vals_no_props in A. discriminate A.
Qed.
Lemma asked_said x : spec_data (fst (into_single x)) ++ [spec_sopts (snd (into_single x))] = asked x.
Proof.
  destruct x as [t|t []|t [rh rap nl q]]; cbn [into_single fst snd asked]; unfold spec_data; rewrite <- app_assoc; try reflexivity.
  do 3 f_equal. unfold spec_sopts. cbn [so_rh so_rap so_nl so_qos]. destruct rh, rap, nl, q; reflexivity.
Qed.
Lemma topics_asked a : map into_single (all_asked a) = subscribe_topics a.
Proof. now destruct a. Qed.
Lemma topics_left a : all_left a = unsubscribe_topics a.
Proof. destruct a; [reflexivity|]. cbn. now rewrite map_id. Qed.
Lemma one_fst l : map fst (map into_single l) = map topic_of l.
Proof. rewrite map_map. apply map_ext. now intros []. Qed.

Lemma subscribe_says rt max a pl pl' p : Forall (fun x => utf8 (topic_of x)) (all_asked a) -> all_asked a <> [] -> Forall (fun i => i < 65536) (pl_ids pl) ->
  max <= 268435455 -> client_call max (call_subscribe a) pl = Some (pl', inr p) ->
  exists id, pl_ids pl = id :: pl_ids pl' /\ wire_bytes rt p = plain_frame 130 id (concat (map asked (all_asked a))).
Proof.
  intros HU HN HI HM H. unfold client_call in H. cbn [call_subscribe needs_id] in H. destruct (pl_ids pl) as [|id ids]; [discriminate|].
  inversion HI; subst. cbn [build validate call_subscribe call_unsubscribe] in H. destruct (validate_subscribe _ _) eqn:HV; [discriminate|]. injection H as <- <-. cbn [pl_ids]. exists id. split; [reflexivity|].
  assert (RQ : rq_ok (RqSubscribe (Subscribe id no_props (subscribe_topics a)))).
  { cbn [rq_ok]. split; [assumption|]. split; [apply no_props_ok|]. cbn [sb_topics]. rewrite <- topics_asked. apply Forall_map. eapply Forall_impl; [|exact HU]. now intros []. }
  destruct (request_written max _ RQ HV) as (_ & _ & E1 & E2 & _); [|assumption|].
  { cbn [rq_topics sb_topics]. rewrite <- topics_asked, one_fst. intros E. apply HN. now destruct (all_asked a). }
  assert (E : encodes (rq_packet (RqSubscribe (Subscribe id no_props (subscribe_topics a)))) (wire_bytes rt (PSubscribe (Subscribe id no_props (subscribe_topics a))))) by (destruct rt; [exact E2|exact E1]).
  destruct E as (body & (sec & HS & ->) & _ & ->). cbn [sb_props sb_id sb_topics] in *. apply section_none in HS as ->.
  unfold plain_frame. rewrite <- topics_asked, map_map. rewrite (map_ext _ asked); [reflexivity|]. apply asked_said.
Qed.
Lemma unsubscribe_says rt max a pl pl' p : Forall utf8 (all_left a) -> all_left a <> [] -> Forall (fun i => i < 65536) (pl_ids pl) ->
  max <= 268435455 -> client_call max (call_unsubscribe a) pl = Some (pl', inr p) ->
  exists id, pl_ids pl = id :: pl_ids pl' /\ wire_bytes rt p = plain_frame 162 id (concat (map (fun t => spec_u16 (len t) ++ t) (all_left a))).
Proof.
  rewrite topics_left.
  intros HU HN HI HM H. unfold client_call in H. cbn [call_unsubscribe needs_id] in H. destruct (pl_ids pl) as [|id ids]; [discriminate|].
  inversion HI; subst. cbn [build validate call_subscribe call_unsubscribe] in H. destruct (validate_unsubscribe _ _) eqn:HV; [discriminate|]. injection H as <- <-. cbn [pl_ids]. exists id. split; [reflexivity|].
  assert (RQ : rq_ok (RqUnsubscribe (Unsubscribe id no_props (unsubscribe_topics a)))).
  { cbn [rq_ok]. split; [assumption|]. split; [apply no_props_ok|assumption]. }
  destruct (request_written max _ RQ HV) as (_ & _ & E1 & E2 & _); [assumption|assumption|].
  assert (E : encodes (rq_packet (RqUnsubscribe (Unsubscribe id no_props (unsubscribe_topics a)))) (wire_bytes rt (PUnsubscribe (Unsubscribe id no_props (unsubscribe_topics a))))) by (destruct rt; [exact E2|exact E1]).
  destruct E as (body & (sec & HS & ->) & _ & ->). cbn [ub_props ub_id ub_topics] in *. apply section_none in HS as ->. reflexivity.
Qed.
Definition tp_arg : sub_arg := SubMany [OneTopic [97]; OneQos [98; 47; 35] AtLeastOnce; OneOpts [99] (SOpts RhTwo true true ExactlyOnce)].
Lemma subscribe_case : Forall (fun x => utf8 (topic_of x)) (all_asked tp_arg) /\ all_asked tp_arg <> [] /\ Forall (fun i => i < 65536) [7; 8] /\
  exists p, client_call 100 (call_subscribe tp_arg) (Pool [7; 8] 10 true) = Some (Pool [8] 10 true, inr p) /\
  plain_frame 130 7 (concat (map asked (all_asked tp_arg))) = [130; 17; 0; 7; 0; 0; 1; 97; 0; 0; 3; 98; 47; 35; 1; 0; 1; 99; 46].
Proof.
  split.
  { apply Forall_forall. intros x Hx. exists (topic_of x). cbn [all_asked tp_arg In] in Hx.
    destruct Hx as [<-|[<-|[<-|[]]]]; (split; [repeat constructor; unfold scalar; cbn; lia|reflexivity]). }
  split; [discriminate|]. split; [repeat constructor|]. eexists. split; vm_compute; reflexivity.
Qed.
Lemma unsubscribe_case : exists p, client_call 100 (call_unsubscribe (UnsubMany [[97]; [98]])) (Pool [7; 8] 10 true) = Some (Pool [8] 10 true, inr p) /\
  w_bytes (write_packet p) = [162; 9; 0; 7; 0; 0; 1; 97; 0; 1; 98].
Proof. exists (PUnsubscribe (Unsubscribe 7 no_props [[97]; [98]])). split; [vm_compute; reflexivity|]. vm_compute. reflexivity. Qed.
