(* Size limits of requests *)
From Verif Require Import Base VarInt Prims Props Codes Packets SpecCodec BaseFacts Utf8Facts VarIntFacts PrimFacts PacketFacts EncFacts CodecFacts CodecMore FrameFacts InjFacts Check Witness StrictMore.

(* What a client can ask for: strings are Rust strings (UTF-8) of any length.  Property strings are
   taken to fit; topics need not. *)
Definition pub_request (p : publish) : Prop :=
  utf8 (pb_topic p) /\ opt_ok (fun i => i < 65536) (pb_pkid p) /\ (pb_pkid p = None <-> pb_qos p = AtMostOnce) /\
  props_ok publish_cfg (pb_props p) /\ all_bytes (pb_payload p).
Definition sub_request (s : subscribe) : Prop :=
  sb_id s < 65536 /\ props_ok subscribe_cfg (sb_props s) /\ Forall (fun t => utf8 (fst t)) (sb_topics s).
Definition unsub_request (u : unsubscribe) : Prop :=
  ub_id u < 65536 /\ props_ok unsubscribe_cfg (ub_props u) /\ Forall utf8 (ub_topics u).

(* a request, what validation says about it, and the packet it becomes *)
Inductive request := RqPublish (p : publish) | RqSubscribe (s : subscribe) | RqUnsubscribe (u : unsubscribe).
Definition rq_packet (r : request) : packet :=
  match r with RqPublish p => PPublish p | RqSubscribe s => PSubscribe s | RqUnsubscribe u => PUnsubscribe u end.
Definition rq_valid (max : N) (r : request) : option verr :=
  match r with RqPublish p => validate_publish max p | RqSubscribe s => validate_subscribe max s | RqUnsubscribe u => validate_unsubscribe max u end.
Definition rq_ok (r : request) : Prop :=
  match r with RqPublish p => pub_request p | RqSubscribe s => sub_request s | RqUnsubscribe u => unsub_request u end.
Definition rq_topics (r : request) : list bytes :=
  match r with RqPublish p => [pb_topic p] | RqSubscribe s => map fst (sb_topics s) | RqUnsubscribe u => ub_topics u end.

Lemma first_long_none {A} (f : A -> bytes) l : first_long f l = None -> Forall (fun x => len (f x) <= 65535) l.
Proof.
  unfold first_long. intros H. apply Forall_forall. intros x Hx. destruct (find _ l) eqn:E; [discriminate|].
  pose proof (find_none _ _ E x Hx) as F. cbv beta in F. unfold MAXIMUM_TOPIC_SIZE in F. lia.
Qed.
Lemma valid_topics max r : rq_valid max r = None -> Forall (fun t => len t <= 65535) (rq_topics r).
Proof.
  destruct r; cbn [rq_valid rq_topics]; unfold validate_publish, validate_subscribe, validate_unsubscribe; intros H.
  - destruct (max <? _); [discriminate|]. destruct (N.ltb_spec MAXIMUM_TOPIC_SIZE (len (pb_topic p))); [discriminate|].
    constructor; [assumption|constructor].
  - destruct (max <? _); [discriminate|]. destruct (first_long _ _) eqn:E; [discriminate|]. apply first_long_none in E.
    apply Forall_forall. intros t Ht. apply in_map_iff in Ht as (x & <- & Hx). rewrite Forall_forall in E. exact (E x Hx).
  - destruct (max <? _); [discriminate|]. destruct (first_long _ _) eqn:E; [discriminate|]. now apply first_long_none in E.
Qed.
Lemma valid_len max r : rq_valid max r = None -> body_len (rq_packet r) <= max.
Proof.
  destruct r; cbn [rq_valid rq_packet body_len]; unfold validate_publish, validate_subscribe, validate_unsubscribe; intros H;
    match type of H with context [max <? ?x] => destruct (N.ltb_spec max x); [discriminate|assumption] end.
Qed.
Lemma valid_packet_ok max r : rq_ok r -> rq_valid max r = None -> rq_topics r <> [] -> packet_ok (rq_packet r).
Proof.
  intros HR HV HT. apply valid_topics in HV. destruct r; cbn [rq_ok rq_topics rq_packet packet_ok] in *.
  - destruct HR as (A & B & C & D & E). inversion HV; subst. split; [split; assumption|]. auto.
  - destruct HR as (A & B & C). split; [assumption|]. split; [assumption|]. split.
    + rewrite Forall_forall in *. intros x Hx. split; [exact (C x Hx)|exact (HV (fst x) (in_map fst _ _ Hx))].
    + intros E. apply HT. now rewrite E.
  - destruct HR as (A & B & C). split; [assumption|]. split; [assumption|]. split; [|assumption].
    rewrite Forall_forall in *. intros x Hx. split; [exact (C x Hx)|exact (HV x Hx)].
Qed.
Lemma rq_no_auth r : packet_ok (rq_packet r) -> well_formed (rq_packet r) /\ no_empty_auth (rq_packet r).
Proof.
  intros HO. assert (N : authentication_data (packet_props (rq_packet r)) = None).
  { destruct r; cbn [rq_packet packet_ok packet_props] in *; [destruct HO as (_ & _ & _ & HP & _)|destruct HO as (_ & HP & _)|destruct HO as (_ & HP & _)];
      (destruct (authentication_data _) eqn:E; [|reflexivity]); exfalso; destruct HP as (HP & _);
      match type of HP with forall t v, get_prop t ?p = _ -> _ => specialize (HP AuthenticationData) end; cbn [get_prop] in HP; rewrite E in HP;
      destruct (HP _ eq_refl) as [HI _]; apply inb_in in HI; discriminate HI. }
  unfold no_empty_auth. split; [split; [assumption|]|rewrite N; discriminate]. unfold auth_method_ok. rewrite N. congruence.
Qed.

Lemma vlen_bound n : variable_integer_len n <= 4.
Proof. unfold variable_integer_len. repeat (destruct (_ <=? _) || destruct (_ <? _)); lia. Qed.

Lemma request_written max r : rq_ok r -> rq_valid max r = None -> rq_topics r <> [] -> max <= 268435455 ->
  let p := rq_packet r in
  w_err (write_packet p) = None /\ w_err (awrite_packet p) = None /\
  encodes p (w_bytes (write_packet p)) /\ encodes p (w_bytes (awrite_packet p)) /\
  (forall rest, read_packet (w_bytes (write_packet p) ++ rest) = RPacket p rest /\
                read_packet (w_bytes (awrite_packet p) ++ rest) = RPacket p rest) /\
  (one_topic p -> forall rest, aread_packet (w_bytes (write_packet p) ++ rest) = AOk p (body_len p) rest /\
                aread_packet (w_bytes (awrite_packet p) ++ rest) = AOk p (body_len p) rest).
Proof.
  intros HR HV HT HM. cbv zeta. pose proof (valid_packet_ok max r HR HV HT) as HO. pose proof (valid_len _ _ HV) as HL.
  destruct (rq_no_auth r HO) as [HW HN]. set (p := rq_packet r) in *.
  assert (HL' : body_len p <= MAXVAR) by (unfold MAXVAR; lia). pose proof (wf_auth _ HW HN) as HA.
  assert (HI : no_assigned_id p).
  { unfold no_assigned_id. destruct (assigned_client_identifier (packet_props p)) eqn:E; [exfalso|reflexivity].
    subst p. destruct r; cbn [rq_packet packet_ok packet_props] in *; [destruct HO as (_ & _ & _ & HP & _)|destruct HO as (_ & HP & _)|destruct HO as (_ & HP & _)];
      destruct HP as (HP & _); specialize (HP AssignedClientIdentifier); cbn [get_prop] in HP; rewrite E in HP;
      destruct (HP _ eq_refl) as [HI _]; apply inb_in in HI; discriminate HI. }
  assert (E1 : w_err (write_packet p) = None) by (now rewrite write_packet_spec).
  assert (E2 : w_err (awrite_packet p) = None) by apply (awrite_packet_spec p HO HA HL' HI).
  assert (X : not_short_ack p /\ no_will_pfi p) by (subst p; destruct r; split; exact I). destruct X as [X1 X2].
  split; [assumption|]. split; [assumption|]. split; [now apply sync_encodes|]. split; [now apply async_encodes|].
  split; [intros rest; split; [now apply sync_roundtrip|now apply async_to_sync]|].
  intros H1 rest. split; [now apply sync_to_async|now apply async_roundtrip].
Qed.
Lemma request_size max r : rq_ok r -> rq_valid max r = None -> rq_topics r <> [] -> max <= 268435455 ->
  let p := rq_packet r in
  len (w_bytes (write_packet p)) <= max + 5 /\ len (w_bytes (awrite_packet p)) <= max + 5 /\ body_len p <= max.
Proof.
  intros HR HV HT HM. cbv zeta. destruct (request_written max r HR HV HT HM) as (E1 & E2 & _).
  pose proof (valid_packet_ok max r HR HV HT) as HO. destruct (rq_no_auth r HO) as [HW HN]. pose proof (valid_len _ _ HV) as HL.
  assert (HI : no_assigned_id (rq_packet r)).
  { unfold no_assigned_id. destruct (assigned_client_identifier (packet_props (rq_packet r))) eqn:E; [exfalso|reflexivity].
    destruct r; cbn [rq_packet packet_ok packet_props] in *; [destruct HO as (_ & _ & _ & HP & _)|destruct HO as (_ & HP & _)|destruct HO as (_ & HP & _)];
      destruct HP as (HP & _); specialize (HP AssignedClientIdentifier); cbn [get_prop] in HP; rewrite E in HP;
      destruct (HP _ eq_refl) as [HI _]; apply inb_in in HI; discriminate HI. }
  destruct (announced_partial (rq_packet r) HW HN) as [A B]. destruct (A E1) as (_ & A1 & _). destruct (B HI E2) as (_ & B1 & _).
  rewrite <- A1, <- B1. pose proof (vlen_bound (body_len (rq_packet r))).
  assert (EP : packet_len (rq_packet r) = 1 + variable_integer_len (body_len (rq_packet r)) + body_len (rq_packet r)) by (destruct r; reflexivity).
  lia.
Qed.

Definition w_pub_max : request := RqPublish (Publish false AtMostOnce false s_abc None no_props [1; 2; 3; 4]).
Lemma size_refuted : exists max r, rq_ok r /\ rq_valid max r = None /\ rq_topics r <> [] /\
  max < len (w_bytes (write_packet (rq_packet r))) /\ max < len (w_bytes (awrite_packet (rq_packet r))).
Proof.
  exists 10, w_pub_max. split.
  - split; [now apply utf8_spec|]. split; [exact I|]. split; [split; reflexivity|]. split; [apply propsb_ok; reflexivity|].
    apply bytesb_ok; reflexivity.
  - split; [reflexivity|]. split; [discriminate|]. split; reflexivity.
Qed.
Lemma size_case : rq_ok w_pub_max /\ rq_valid 10 w_pub_max = None /\ rq_topics w_pub_max <> [] /\ rq_valid 9 w_pub_max <> None.
Proof.
  split; [split; [now apply utf8_spec|]; split; [exact I|]; split; [split; reflexivity|]; split; [apply propsb_ok; reflexivity|]; apply bytesb_ok; reflexivity|].
  split; [reflexivity|]. split; discriminate.
Qed.

(* a SUBSCRIBE without topics passes validation, is written, and is refused by every reader *)
Definition w_no_topics : request := RqSubscribe (Subscribe 1 no_props []).
Lemma transmit_refuted : exists r, rq_ok r /\ rq_valid 100 r = None /\
  w_err (write_packet (rq_packet r)) = None /\ w_err (awrite_packet (rq_packet r)) = None /\
  (exists e, read_packet (w_bytes (write_packet (rq_packet r))) = RBad e []) /\
  aread_packet (w_bytes (awrite_packet (rq_packet r))) = AShort.
Proof.
  exists w_no_topics. split; [split; [reflexivity|]; split; [apply propsb_ok; reflexivity|constructor]|].
  split; [reflexivity|]. split; [reflexivity|]. split; [reflexivity|]. split; [eexists|]; vm_compute; reflexivity.
Qed.

(* ---- strings of more than 65535 bytes ---- *)
Definition long_string : bytes := repeat 97 (N.to_nat 65537).
Definition w_long : packet := PPublish (Publish false AtMostOnce false s_abc None (mkp publish_cfg [(ContentType, VStr long_string)]) []).
Lemma long_refuted : exists p s, content_type (packet_props p) = Some s /\ utf8 s /\ 65535 < len s /\
  rq_valid 268435455 (RqPublish (match p with PPublish q => q | _ => Publish false AtMostOnce false [] None no_props [] end)) = None /\
  w_err (write_packet p) = None /\ w_err (awrite_packet p) = None /\
  (forall rest, read_packet (w_bytes (write_packet p)) <> RPacket p rest) /\
  (forall n rest, aread_packet (w_bytes (awrite_packet p)) <> AOk p n rest).
Proof.
  exists w_long, long_string. split; [reflexivity|]. split; [apply utf8_spec; vm_compute; reflexivity|].
  split; [vm_compute; reflexivity|]. split; [vm_compute; reflexivity|]. split; [vm_compute; reflexivity|].
  split; [vm_compute; reflexivity|]. split.
  - intros rest. assert (E : (match read_packet (w_bytes (write_packet w_long)) with RBad _ _ => true | _ => false end) = true) by (vm_compute; reflexivity).
    intros C. rewrite C in E. clear C. discriminate E.
  - intros n rest. assert (E : (match aread_packet (w_bytes (awrite_packet w_long)) with AErr _ => true | _ => false end) = true) by (vm_compute; reflexivity).
    intros C. rewrite C in E. clear C. discriminate E.
Qed.
Lemma long_topics_refused max r t : In t (rq_topics r) -> 65535 < len t -> rq_valid max r <> None.
Proof. intros HI HL HV. apply valid_topics in HV. rewrite Forall_forall in HV. specialize (HV t HI). cbv beta in HV. lia. Qed.
