(* Executable versions of the well-formedness predicates, for the examples *)
From Verif Require Import Base Prims Props Codes Packets SpecCodec BaseFacts Utf8Facts PacketFacts EncFacts.

Definition bytesb (l : bytes) : bool := forallb (fun b => b <? 256) l.
Definition strb (s : bytes) : bool := utf8_valid s && (len s <=? 65535).
Definition binb (s : bytes) : bool := bytesb s && (len s <=? 65535).
Definition valb (v : pval) : bool :=
  match v with
  | V8 n => n <? 256 | V16 n => n <? 65536 | V32 n => n <? 4294967296 | VVar n => n <=? MAXVAR
  | VStr s => strb s | VBin s => binb s | VQos _ | VBool _ => true | VPair k v => strb k && strb v
  end.
Definition all_ptypes : list ptype :=
  [PayloadFormatIndicator; MessageExpiryInterval; ContentType; ResponseTopic; CorrelationData;
   SubscriptionIdentifier; SessionExpiryInterval; AssignedClientIdentifier; ServerKeepAlive;
   AuthenticationMethod; AuthenticationData; RequestProblemInformation; WillDelayInterval;
   RequestResponseInformation; ResponseInformation; ServerReference; ReasonString; ReceiveMaximum;
   TopicAliasMaximum; TopicAlias; MaximumQos; RetainAvailable; UserProperty; MaximumPacketSize;
   WildcardSubscriptionAvailable; SubscriptionIdentifierAvailable; SharedSubscriptionAvailable].
Lemma all_ptypes_ok t : In t all_ptypes.
Proof. destruct t; cbn; tauto. Qed.
Definition inb (t : ptype) (l : list ptype) : bool := existsb (ptype_eqb t) l.
Lemma inb_ok t l : inb t l = true -> In t l.
Proof. unfold inb. rewrite existsb_exists. intros (x & H & E). apply ptype_eqb_eq in E. now subst. Qed.

Definition propsb (cfg : pcfg) (p : props) : bool :=
  forallb (fun t => match get_prop t p with Some v => inb t (c_decl cfg) && valb v | None => true end) all_ptypes &&
  forallb (fun kv => strb (fst kv) && strb (snd kv)) (user_properties p) &&
  (match user_properties p with [] => true | _ => inb UserProperty (c_decl cfg) end) &&
  forallb (fun n => n <=? MAXVAR) (subscription_identifiers p) &&
  (match subscription_identifiers p with [] => true | _ => inb SubscriptionIdentifier (c_decl cfg) && c_sublist cfg end) &&
  (negb (c_sublist cfg) || negb (is_some (subscription_identifier p))).

Lemma bytesb_ok l : bytesb l = true -> all_bytes l.
Proof. unfold bytesb. rewrite forallb_forall. intros H. apply Forall_forall. intros x Hx. apply H in Hx. unfold is_byte. lia. Qed.
Lemma strb_ok s : strb s = true -> str_ok s.
Proof. unfold strb. rewrite !andb_true_iff. intros [H2 H3]. apply str_ok_intro; [assumption|lia]. Qed.
Lemma binb_ok s : binb s = true -> bin_ok s.
Proof. unfold binb, bin_ok. rewrite !andb_true_iff. intros [H1 H3]. split; [now apply bytesb_ok|lia]. Qed.
Lemma valb_ok v : valb v = true -> val_ok v.
Proof.
  destruct v; cbn [valb val_ok]; intros; try lia; auto using strb_ok, binb_ok. apply andb_true_iff in H as [H1 H2].
  split; now apply strb_ok.
Qed.
Lemma forallb_Forall {A} (f : A -> bool) (P : A -> Prop) l : (forall x, f x = true -> P x) -> forallb f l = true -> Forall P l.
Proof. intros H. rewrite forallb_forall. intros HF. apply Forall_forall. auto. Qed.

Lemma propsb_ok cfg p : propsb cfg p = true -> props_ok cfg p.
Proof.
  unfold propsb, props_ok. rewrite !andb_true_iff. intros [[[[[H1 H2] H3] H4] H5] H6].
  split; [|split; [|split; [|split; [|split]]]].
  - intros t v E. rewrite forallb_forall in H1. specialize (H1 t (all_ptypes_ok t)). cbv beta in H1. rewrite E in H1.
    apply andb_true_iff in H1 as [A B]. split; [now apply inb_ok|now apply valb_ok].
  - eapply forallb_Forall; [|exact H2]. intros x Hx. apply andb_true_iff in Hx as [A B]. split; now apply strb_ok.
  - intros N. destruct (user_properties p); [congruence|now apply inb_ok].
  - eapply forallb_Forall; [|exact H4]. cbv beta. intros x Hx. lia.
  - intros N. destruct (subscription_identifiers p); [congruence|]. apply andb_true_iff in H5 as [A B]. split; [now apply inb_ok|assumption].
  - intros E. rewrite E in H6. cbn in H6. destruct (subscription_identifier p); [discriminate|reflexivity].
Qed.

Definition optb {A} (f : A -> bool) (o : option A) : bool := match o with Some a => f a | None => true end.
Lemma optb_ok {A} (f : A -> bool) (P : A -> Prop) o : (forall x, f x = true -> P x) -> optb f o = true -> opt_ok P o.
Proof. destruct o; cbn; auto. Qed.
Definition willb (w : will) : bool := propsb will_cfg (wl_props w) && strb (wl_topic w) && binb (wl_payload w).
Lemma willb_ok w : willb w = true -> will_ok w.
Proof. unfold willb, will_ok. rewrite !andb_true_iff. intros [[A B] C]. auto using propsb_ok, strb_ok, binb_ok. Qed.
Definition codeb (tbl : list rc) (c : rc) : bool := existsb (rc_eqb c) tbl.
Lemma codeb_ok tbl c : codeb tbl c = true -> code_ok tbl c.
Proof. unfold codeb, code_ok. rewrite existsb_exists. intros (x & H & E). apply rc_eqb_eq in E. now subst. Qed.
Definition ackb (tbl : list rc) (cfg : pcfg) (a : ack) : bool :=
  (ak_id a <? 65536) && codeb tbl (ak_rc a) && propsb cfg (ak_props a).
Lemma ackb_ok tbl cfg a : ackb tbl cfg a = true -> ack_ok tbl cfg a.
Proof. unfold ackb, ack_ok. rewrite !andb_true_iff. intros [[A B] C]. split; [lia|]. auto using codeb_ok, propsb_ok. Qed.
Definition subackb (tbl : list rc) (cfg : pcfg) (a : suback) : bool :=
  (sa_id a <? 65536) && propsb cfg (sa_props a) && forallb (codeb tbl) (sa_codes a).
Lemma subackb_ok tbl cfg a : subackb tbl cfg a = true -> suback_ok tbl cfg a.
Proof.
  unfold subackb, suback_ok. rewrite !andb_true_iff. intros [[A B] C]. split; [lia|]. split; [auto using propsb_ok|].
  eapply forallb_Forall; [|exact C]. apply codeb_ok.
Qed.

Definition packetb (p : packet) : bool :=
  match p with
  | PConnect c => (cn_keep_alive c <? 65536) && propsb connect_cfg (cn_props c) && optb willb (cn_will c) &&
      optb strb (cn_username c) && optb strb (cn_password c) && strb (cn_client_id c)
  | PConnAck c => codeb connack_codes (ca_rc c) && propsb connack_cfg (ca_props c)
  | PPublish p => strb (pb_topic p) && optb (fun i => i <? 65536) (pb_pkid p) &&
      Bool.eqb (is_some (pb_pkid p)) (negb (qos_to_u8 (pb_qos p) =? 0)) && propsb publish_cfg (pb_props p) && bytesb (pb_payload p)
  | PPubAck a => ackb puback_codes puback_cfg a
  | PPubRec a => ackb pubrec_codes pubrec_cfg a
  | PPubRel a => ackb pubrel_codes pubrel_cfg a
  | PPubComp a => ackb pubcomp_codes pubcomp_cfg a
  | PSubscribe s => (sb_id s <? 65536) && propsb subscribe_cfg (sb_props s) &&
      forallb (fun t => strb (fst t)) (sb_topics s) && negb (len (sb_topics s) =? 0)
  | PSubAck s => subackb suback_codes suback_cfg s
  | PUnsubscribe u => (ub_id u <? 65536) && propsb unsubscribe_cfg (ub_props u) &&
      forallb strb (ub_topics u) && negb (len (ub_topics u) =? 0)
  | PUnsubAck u => subackb unsuback_codes unsuback_cfg u
  | PPingReq | PPingResp => true
  | PDisconnect d => codeb disconnect_codes (dc_rc d) && propsb disconnect_cfg (dc_props d)
  | PAuth d => codeb auth_codes (dc_rc d) && propsb auth_cfg (dc_props d)
  end.

Ltac conjs := lazymatch goal with |- _ /\ _ => split; [|conjs] | |- _ => idtac end.
Lemma packetb_ok p : packetb p = true -> packet_ok p.
Proof.
  destruct p; cbn [packetb packet_ok]; rewrite ?andb_true_iff; auto using ackb_ok, subackb_ok.
  - intros [[[[[A B] C] D] E] F]. split; [lia|]. conjs; auto using propsb_ok, strb_ok.
    + eapply optb_ok; [apply willb_ok|assumption].
    + eapply optb_ok; [apply strb_ok|assumption].
    + eapply optb_ok; [apply strb_ok|assumption].
  - intros [A B]. auto using codeb_ok, propsb_ok.
  - intros [[[[A B] C] D] E]. conjs; auto using strb_ok, propsb_ok, bytesb_ok.
    + eapply optb_ok; [|exact B]. cbv beta. intros. lia.
    + apply eqb_prop in C. destruct (pb_pkid p), (pb_qos p); cbn in *; try discriminate C; (split; [intros ?|intros ?]; (reflexivity || discriminate)).
  - intros [[[A B] C] D]. split; [lia|]. conjs; auto using propsb_ok.
    + eapply forallb_Forall; [|exact C]. cbv beta. intros. now apply strb_ok.
    + intros E. rewrite E in D. discriminate.
  - intros [[[A B] C] D]. split; [lia|]. conjs; auto using propsb_ok.
    + eapply forallb_Forall; [|exact C]. apply strb_ok.
    + intros E. rewrite E in D. discriminate.
  - intros [A B]. auto using codeb_ok, propsb_ok.
  - intros [A B]. auto using codeb_ok, propsb_ok.
Qed.

Definition auth_methodb (p : props) : bool := negb (is_some (authentication_data p)) || is_some (authentication_method p).
Definition wfb (p : packet) : bool := packetb p && auth_methodb (packet_props p).
Lemma wfb_ok p : wfb p = true -> well_formed p.
Proof.
  unfold wfb, well_formed. rewrite andb_true_iff. intros [A B]. split; [now apply packetb_ok|].
  unfold auth_methodb in B. intros N. destruct (authentication_data (packet_props p)); [|congruence].
  destruct (authentication_method (packet_props p)); [discriminate|discriminate].
Qed.

(* a property struct from a list of items *)
Definition mkp (cfg : pcfg) (its : list item) : props := fold_left (fun p i => store cfg (fst i) (snd i) p) its no_props.

(* sample packets *)
Definition s_abc : bytes := [97; 98; 99].
Definition s_connect : packet :=
  PConnect (Connect true
    (Some (Will AtLeastOnce true (mkp will_cfg [(WillDelayInterval, V32 5); (ContentType, VStr s_abc)]) [119] [1; 2; 3]))
    (Some [117]) (Some [112]) 60
    (mkp connect_cfg [(ReceiveMaximum, V16 20); (UserProperty, VPair [107] [118]); (UserProperty, VPair [107] [119]);
                      (AuthenticationMethod, VStr [109]); (AuthenticationData, VBin [0; 255])]) s_abc).
Definition s_connack : packet :=
  PConnAck (ConnAck true RSuccess (mkp connack_cfg
    [(ReceiveMaximum, V16 10); (MaximumQos, VQos AtLeastOnce); (SharedSubscriptionAvailable, VBool false); (ReasonString, VStr s_abc)])).
Definition s_publish : packet :=
  PPublish (Publish false ExactlyOnce true [116; 47; 195; 169] (Some 513)
    (mkp publish_cfg [(SubscriptionIdentifier, VVar 300); (TopicAlias, V16 7); (SubscriptionIdentifier, VVar 1)]) [1; 2; 3]).
Definition s_pubrec : packet := PPubRec (Ack 7 RQuotaExceeded (mkp pubrec_cfg [(ReasonString, VStr s_abc)])).
Definition s_subscribe : packet :=
  PSubscribe (Subscribe 9 (mkp subscribe_cfg [(SubscriptionIdentifier, VVar 200)]) [([97], SOpts RhOne true false ExactlyOnce)]).
Definition s_subscribe2 : packet :=
  PSubscribe (Subscribe 9 no_props [([97], SOpts RhOne true false ExactlyOnce); ([98], SOpts RhZero false true AtMostOnce)]).
Definition s_disconnect : packet := PDisconnect (Disconnect RServerBusy (mkp disconnect_cfg [(SessionExpiryInterval, V32 100)])).
Definition s_auth : packet := PAuth (Disconnect RContinueAuthentication (mkp auth_cfg [(AuthenticationMethod, VStr [109])])).
