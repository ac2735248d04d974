(* Combined forms of the codec lemmas, samples that meet their hypotheses, and packets that show each
   exclusion necessary *)
From Verif Require Import Base VarInt Prims Props Codes Packets SpecCodec BaseFacts PacketFacts EncFacts CodecFacts CodecMore Check FrameFacts InjFacts.

Definition sync_rt (p : packet) : Prop := forall rest, read_packet (w_bytes (write_packet p) ++ rest) = RPacket p rest.
Definition async_rt (p : packet) : Prop := forall rest, aread_packet (w_bytes (awrite_packet p) ++ rest) = AOk p (body_len p) rest.
Definition to_async (p : packet) : Prop := forall rest, aread_packet (w_bytes (write_packet p) ++ rest) = AOk p (body_len p) rest.
Definition to_sync (p : packet) : Prop := forall rest, read_packet (w_bytes (awrite_packet p) ++ rest) = RPacket p rest.

Lemma sync_partial p : well_formed p -> no_empty_auth p -> not_short_ack p -> no_will_pfi p ->
  (w_err (write_packet p) = None -> sync_rt p) /\ ((exists b, encodes p b) -> w_err (write_packet p) = None).
Proof.
  intros. split.
  - intros E rest. now apply sync_roundtrip.
  - intros (b & E). now destruct (writers_accept p b).
Qed.
Lemma async_partial p : well_formed p -> no_empty_auth p -> not_short_ack p -> no_assigned_id p -> one_topic p ->
  (w_err (awrite_packet p) = None -> async_rt p) /\ ((exists b, encodes p b) -> w_err (awrite_packet p) = None).
Proof.
  intros. split.
  - intros E rest. now apply async_roundtrip.
  - intros (b & E). destruct (writers_accept p b); auto.
Qed.
Lemma cross_partial p : well_formed p -> no_empty_auth p -> not_short_ack p ->
  (one_topic p -> w_err (write_packet p) = None -> to_async p) /\
  (no_assigned_id p -> no_will_pfi p -> w_err (awrite_packet p) = None -> to_sync p).
Proof. intros. split; intros; intros rest; [now apply sync_to_async|now apply async_to_sync]. Qed.
Lemma announced_partial p : well_formed p -> no_empty_auth p ->
  (w_err (write_packet p) = None ->
     is_frame (w_bytes (write_packet p)) /\ packet_len p = len (w_bytes (write_packet p)) /\
     w_cnt (write_packet p) = len (w_bytes (write_packet p))) /\
  (no_assigned_id p -> w_err (awrite_packet p) = None ->
     is_frame (w_bytes (awrite_packet p)) /\ packet_len p = len (w_bytes (awrite_packet p)) /\
     (no_server_ref p -> w_cnt (awrite_packet p) = len (w_bytes (awrite_packet p)))).
Proof.
  intros. split; intros.
  - split; [apply (encodes_frame p); now apply sync_encodes|]. destruct (sync_announced p) as (? & _ & _ & ? & ?); auto.
  - split; [apply (encodes_frame p); now apply async_encodes|]. destruct (async_announced p) as (? & _ & _ & ? & ?); auto.
Qed.
Lemma reads_encodings p body rest : well_formed p ->
  spec_body p body -> len body <= 268435455 -> not_short_form p body ->
  let b := spec_first p :: spec_varint (len body) ++ body in
  (no_will_pfi p -> read_packet (b ++ rest) = RPacket p rest) /\
  (one_topic p -> aread_packet (b ++ rest) = AOk p (len body) rest).
Proof.
  intros (HO & HM) HS HL HF. cbv zeta. split; intros HX; [apply read_packet_ok|apply aread_packet_ok]; auto.
  - destruct p; cbn [sync_readable not_short_form no_will_pfi packet_props] in *; trivial.
    + split; [|assumption]. destruct (cn_will c); [|exact I]. now apply HX.
    + intros ->. now apply HF.
  - destruct p; cbn [async_readable not_short_form one_topic packet_props] in *; trivial. intros ->. now apply HF.
Qed.
Lemma writes_encodings p : well_formed p -> no_empty_auth p ->
  (w_err (write_packet p) = None -> encodes p (w_bytes (write_packet p))) /\
  (no_assigned_id p -> w_err (awrite_packet p) = None -> encodes p (w_bytes (awrite_packet p))).
Proof. intros. split; intros; [now apply sync_encodes|now apply async_encodes]. Qed.

(* ---- executable exclusions ---- *)
Definition no_ack_b (p : props) : bool := negb (is_some (reason_string p)) && (len (user_properties p) =? 0).
Definition exclb (p : packet) : bool :=
  (match authentication_data (packet_props p) with Some [] => false | _ => true end) &&
  (match p with PPubRec a | PPubComp a => rc_eqb (ak_rc a) RSuccess || is_some (reason_string (ak_props a)) | _ => true end) &&
  (match p with PConnect c => match cn_will c with Some w => negb (is_some (payload_format_indicator (wl_props w))) | None => true end | _ => true end).
Lemma exclb_ok p : exclb p = true -> no_empty_auth p /\ not_short_ack p /\ no_will_pfi p.
Proof.
  unfold exclb. rewrite !andb_true_iff. intros [[H1 H2] H3]. split; [|split].
  - unfold no_empty_auth. destruct (authentication_data (packet_props p)) as [[]|]; congruence.
  - assert (A : forall a, rc_eqb (ak_rc a) RSuccess || is_some (reason_string (ak_props a)) = true ->
      ak_rc a = RSuccess \/ ~ empty_props (ak_props a)).
    { intros a HA. apply orb_prop in HA as [HA|HA]; [left; now apply rc_eqb_eq|right]. intros E.
      specialize (E ReasonString). cbn in E. now destruct (reason_string (ak_props a)). }
    destruct p; cbn; auto.
  - destruct p; cbn; auto. intros w E. rewrite E in H3. now destruct (payload_format_indicator (wl_props w)).
Qed.
Definition aexclb (p : packet) : bool :=
  negb (is_some (assigned_client_identifier (packet_props p))) &&
  (match p with PSubscribe s => len (sb_topics s) =? 1 | _ => true end).
Lemma aexclb_ok p : aexclb p = true -> no_assigned_id p /\ one_topic p.
Proof.
  unfold aexclb. rewrite andb_true_iff. intros [H1 H2]. split.
  - unfold no_assigned_id. now destruct (assigned_client_identifier (packet_props p)).
  - destruct p; cbn; auto. lia.
Qed.
Definition okb (w : wr) : bool := negb (is_some (w_err w)).
Lemma okb_ok w : okb w = true -> w_err w = None.
Proof. unfold okb. now destruct (w_err w). Qed.

Definition samples1 := [s_connect; s_connack; s_publish; s_pubrec; s_subscribe; s_disconnect; s_auth].
Lemma in_samples (f : packet -> bool) l p : In p l -> forallb f l = true -> f p = true.
Proof. intros H HF. rewrite forallb_forall in HF. auto. Qed.

Lemma samples_sync p : In p [s_connect; s_connack; s_publish; s_pubrec; s_subscribe; s_subscribe2; s_disconnect; s_auth] ->
  well_formed p /\ no_empty_auth p /\ not_short_ack p /\ no_will_pfi p /\ w_err (write_packet p) = None.
Proof.
  intros H. pose proof (in_samples (fun p => wfb p && exclb p && okb (write_packet p)) _ p H) as S.
  specialize (S ltac:(vm_compute; reflexivity)).
  cbv beta in S. rewrite !andb_true_iff in S. destruct S as [[S1 S2] S3]. apply exclb_ok in S2. intuition auto using wfb_ok, okb_ok.
Qed.
Lemma samples_cross p : In p samples1 ->
  well_formed p /\ no_empty_auth p /\ not_short_ack p /\ one_topic p /\ no_assigned_id p /\ no_will_pfi p /\
  w_err (write_packet p) = None /\ w_err (awrite_packet p) = None.
Proof.
  intros H. pose proof (in_samples (fun p => wfb p && exclb p && aexclb p && okb (write_packet p) && okb (awrite_packet p)) _ p H) as S.
  specialize (S ltac:(vm_compute; reflexivity)).
  cbv beta in S. rewrite !andb_true_iff in S. destruct S as [[[[S1 S2] S3] S4] S5]. apply exclb_ok in S2. apply aexclb_ok in S3.
  intuition auto using wfb_ok, okb_ok.
Qed.
Lemma samples_async p : In p samples1 ->
  well_formed p /\ no_empty_auth p /\ not_short_ack p /\ no_assigned_id p /\ one_topic p /\ w_err (awrite_packet p) = None.
Proof. intros H. pose proof (samples_cross p H). intuition. Qed.
Lemma samples_announced : well_formed s_connect /\ no_empty_auth s_connect /\ w_err (write_packet s_connect) = None /\
  no_assigned_id s_connect /\ no_server_ref s_connect /\ w_err (awrite_packet s_connect) = None.
Proof. pose proof (samples_cross s_connect ltac:(left; reflexivity)) as H. intuition. Qed.
Lemma samples_writes : well_formed s_publish /\ no_empty_auth s_publish /\ no_assigned_id s_publish /\
  w_err (write_packet s_publish) = None /\ w_err (awrite_packet s_publish) = None.
Proof. pose proof (samples_cross s_publish ltac:(right; right; left; reflexivity)) as H. intuition. Qed.

Lemma no_props_empty : empty_props no_props.
Proof. intros []; reflexivity. Qed.
Lemma no_props_section : spec_section_of no_props [0].
Proof. exists []. split; [intros []; reflexivity|]. split; [discriminate|reflexivity]. Qed.
Lemma samples_encodes : let p := PPubAck (Ack 7 RSuccess no_props) in
  well_formed p /\ spec_body p [0; 7; 0; 0] /\ not_short_form p [0; 7; 0; 0] /\ no_will_pfi p /\ one_topic p /\
  w_bytes (write_packet p) <> [64; 4; 0; 7; 0; 0].
Proof.
  split; [apply wfb_ok; vm_compute; reflexivity|]. split; [right; right; exists [0]; split; [apply no_props_section|reflexivity]|].
  repeat split. discriminate.
Qed.

(* ---- packets that do not survive ---- *)
Definition w_will_pfi : packet :=
  PConnect (Connect true (Some (Will AtMostOnce false (mkp will_cfg [(PayloadFormatIndicator, V8 1)]) [119] [1])) None None 60 no_props s_abc).
Definition w_short : packet := PPubRec (Ack 7 RQuotaExceeded no_props).
Definition w_empty_auth : packet :=
  PAuth (Disconnect RContinueAuthentication (mkp auth_cfg [(AuthenticationMethod, VStr [109]); (AuthenticationData, VBin [])])).
Definition w_empty_auth_connack : packet :=
  PConnAck (ConnAck false RSuccess (mkp connack_cfg [(AuthenticationMethod, VStr [109]); (AuthenticationData, VBin [])])).
Definition w_assigned : packet := PConnAck (ConnAck false RSuccess (mkp connack_cfg [(AssignedClientIdentifier, VStr s_abc)])).
Definition w_server_ref : packet := PDisconnect (Disconnect RUseAnotherServer (mkp disconnect_cfg [(ServerReference, VStr s_abc)])).

Ltac ctriv := lazymatch goal with
  | |- well_formed _ => apply wfb_ok; vm_compute; reflexivity
  | |- no_empty_auth _ => unfold no_empty_auth; vm_compute; discriminate
  | |- w_err _ = None => vm_compute; reflexivity
  | |- ~ _ => let H := fresh in intros H; specialize (H []); vm_compute in H; discriminate H
  | |- no_assigned_id _ => vm_compute; reflexivity
  | |- one_topic _ => first [exact I | vm_compute; reflexivity]
  | |- _ => exact I
  end.
Ltac triv := conjs; ctriv.
Lemma w_will_pfi_sync : well_formed w_will_pfi /\ no_empty_auth w_will_pfi /\ not_short_ack w_will_pfi /\
  w_err (write_packet w_will_pfi) = None /\ ~ sync_rt w_will_pfi.
Proof. triv. Qed.
Lemma w_short_sync : well_formed w_short /\ no_empty_auth w_short /\ no_will_pfi w_short /\
  w_err (write_packet w_short) = None /\ ~ sync_rt w_short.
Proof. triv. Qed.
Lemma w_empty_auth_sync : well_formed w_empty_auth /\ not_short_ack w_empty_auth /\ no_will_pfi w_empty_auth /\
  w_err (write_packet w_empty_auth) = None /\ ~ sync_rt w_empty_auth.
Proof. triv. Qed.
Lemma w_empty_auth_async : well_formed w_empty_auth /\ not_short_ack w_empty_auth /\ no_assigned_id w_empty_auth /\
  one_topic w_empty_auth /\ w_err (awrite_packet w_empty_auth) = None /\ ~ async_rt w_empty_auth.
Proof. triv. Qed.
Lemma w_short_async : well_formed w_short /\ no_empty_auth w_short /\ no_assigned_id w_short /\ one_topic w_short /\
  w_err (awrite_packet w_short) = None /\ ~ async_rt w_short.
Proof. triv. Qed.
Lemma w_assigned_async : well_formed w_assigned /\ no_empty_auth w_assigned /\ not_short_ack w_assigned /\ one_topic w_assigned /\
  w_err (awrite_packet w_assigned) = None /\ ~ async_rt w_assigned.
Proof. triv. Qed.
Lemma w_topics_async : well_formed s_subscribe2 /\ no_empty_auth s_subscribe2 /\ not_short_ack s_subscribe2 /\ no_assigned_id s_subscribe2 /\
  w_err (awrite_packet s_subscribe2) = None /\ ~ async_rt s_subscribe2.
Proof. triv. Qed.
Lemma w_short_cross : well_formed w_short /\ w_err (write_packet w_short) = None /\ w_err (awrite_packet w_short) = None /\
  ~ to_async w_short /\ ~ to_sync w_short.
Proof. triv. Qed.

Lemma not_frame b n : all_bytes b -> read_packet b = RMore n b -> ~ is_frame b.
Proof.
  intros Hb E HF. pose proof (read_packet_det b Hb) as D. rewrite E in D. destruct D as (_ & _ & D & _).
  apply (D b []); [now rewrite app_nil_r|assumption].
Qed.
Lemma frame_whole b p rest : all_bytes b -> read_packet b = RPacket p rest -> is_frame b -> rest = [].
Proof.
  intros Hb E HF. pose proof (read_packet_det b Hb) as D. rewrite E in D. destruct D as (f & Eb & Ff & _).
  destruct (frame_prefix f b rest []) as [_ ->]; auto. now rewrite app_nil_r.
Qed.
Lemma frame_whole_bad b e rest : all_bytes b -> read_packet b = RBad e rest -> rest <> b -> is_frame b -> rest = [].
Proof.
  intros Hb E HN HF. pose proof (read_packet_det b Hb) as D. rewrite E in D. destruct D as [[C _]|(f & Eb & Ff & _)]; [contradiction|].
  destruct (frame_prefix f b rest []) as [_ ->]; auto. now rewrite app_nil_r.
Qed.
Lemma w_empty_auth_frame : well_formed w_empty_auth_connack /\ w_err (write_packet w_empty_auth_connack) = None /\
  ~ is_frame (w_bytes (write_packet w_empty_auth_connack)).
Proof.
  split; [ctriv|]. split; [ctriv|]. intros HF.
  assert (HB : all_bytes (w_bytes (write_packet w_empty_auth_connack))) by (apply bytesb_ok; vm_compute; reflexivity).
  destruct (read_packet (w_bytes (write_packet w_empty_auth_connack))) as [p rest|e rest|n rest|c] eqn:E.
  - pose proof (frame_whole _ _ _ HB E HF) as ->. vm_compute in E. discriminate E.
  - vm_compute in E. discriminate E.
  - vm_compute in E. discriminate E.
  - vm_compute in E. discriminate E.
Qed.
Lemma w_empty_auth_encodes : well_formed w_empty_auth_connack /\ w_err (write_packet w_empty_auth_connack) = None /\
  ~ encodes w_empty_auth_connack (w_bytes (write_packet w_empty_auth_connack)).
Proof.
  destruct w_empty_auth_frame as (A & B & C). split; [assumption|]. split; [assumption|]. intros H. apply C. eapply encodes_frame, H.
Qed.
Lemma w_assigned_frame : well_formed w_assigned /\ no_empty_auth w_assigned /\
  w_err (awrite_packet w_assigned) = None /\ ~ is_frame (w_bytes (awrite_packet w_assigned)).
Proof.
  split; [ctriv|]. split; [ctriv|]. split; [ctriv|].
  apply (not_frame _ 6); [apply bytesb_ok; vm_compute; reflexivity|vm_compute; reflexivity].
Qed.
Lemma w_server_ref_count : well_formed w_server_ref /\ no_empty_auth w_server_ref /\ no_assigned_id w_server_ref /\
  w_err (awrite_packet w_server_ref) = None /\ w_cnt (awrite_packet w_server_ref) <> len (w_bytes (awrite_packet w_server_ref)).
Proof. split; [ctriv|]. split; [ctriv|]. split; [ctriv|]. split; [ctriv|]. vm_compute. discriminate. Qed.

Lemma short_forms b : In b [[80; 3; 0; 7; 151]; [112; 3; 0; 7; 146]; [224; 1; 0]; [240; 0]] ->
  exists p, well_formed p /\ encodes p b /\ read_packet b <> RPacket p [] /\ aread_packet b <> AOk p (len b - 2) [].
Proof.
  intros [<-|[<-|[<-|[<-|[]]]]].
  - exists (PPubRec (Ack 7 RQuotaExceeded no_props)). split; [ctriv|]. split; [|split; vm_compute; discriminate].
    exists [0; 7; 151]. split; [right; left; split; [apply no_props_empty|reflexivity]|]. split; [vm_compute; discriminate|reflexivity].
  - exists (PPubComp (Ack 7 RPacketIdentifierNotFound no_props)). split; [ctriv|]. split; [|split; vm_compute; discriminate].
    exists [0; 7; 146]. split; [right; left; split; [apply no_props_empty|reflexivity]|]. split; [vm_compute; discriminate|reflexivity].
  - exists (PDisconnect (Disconnect RNormalDisconnection no_props)). split; [ctriv|]. split; [|split; vm_compute; discriminate].
    exists [0]. split; [right; left; split; [apply no_props_empty|reflexivity]|]. split; [vm_compute; discriminate|reflexivity].
  - exists (PAuth (Disconnect RSuccess no_props)). split; [ctriv|]. split; [|split; vm_compute; discriminate].
    exists []. split; [left; split; [reflexivity|split; [apply no_props_empty|reflexivity]]|]. split; [vm_compute; discriminate|reflexivity].
Qed.
