(* C07, C10, C12, C17, C18: exact forms *)
From Coq Require Import Permutation.
From Verif Require Import Base VarInt Prims Props Codes Packets SpecCodec Check Witness SpecLenient SpecPanic BaseFacts VarIntFacts PrimFacts PropsFacts PacketFacts EncFacts CodecFacts CodecMore InjFacts GoodFacts FrameFacts FrameMore LimitMore ExactFacts PanicFacts StrictMore.

(* ---- C10 ---- *)
Lemma feed_one b p : feed [] [b] = ([p], Waiting []) -> read_packet b = RPacket p [].
Proof.
  cbn [feed app]. intros H. destruct (drain b) as [ps o] eqn:E. destruct o as [r| |]; cbn [feed] in H; try discriminate.
  rewrite app_nil_r in H. injection H as -> ->. unfold drain in E. cbn [drain_n] in E.
  destruct (read_packet b) as [q r|e r|n r|c]; try discriminate. destruct (drain_n (length b) r) as [ps o] eqn:E2. injection E as -> -> ->.
  f_equal. destruct (length b); cbn [drain_n] in E2; [discriminate|]. destruct (read_packet r) as [q2 r2|e r2|n2 r2|c] eqn:ER; try discriminate.
  - destruct (drain_n n r2). discriminate.
  - injection E2 as ->. unfold read_packet in ER. destruct (read_fixed_header r) as [[h hl]|e|m]; [|discriminate|now injection ER as _ ->].
    destruct (len r <? fh_rem h + hl); [now injection ER as _ ->|]. cbv zeta in ER. destruct (read_body _ _) as [[? ?]|?|?]; discriminate.
Qed.
Lemma sync_exact_one p : well_formed p -> w_err (write_packet p) = None -> read_packet (w_bytes (write_packet p)) = RPacket p [] ->
  no_empty_auth p /\ not_short_ack p /\ no_will_pfi p.
Proof.
  intros HW HE R. assert (HN : no_empty_auth p).
  { destruct (empty_dec p) as [X|X]; [assumption|exfalso].
    destruct (auth_types p (proj1 HW) X) as [(c & ->)|[(c & ->)|(d & ->)]].
    1, 2: destruct (strict_body _ HW X ltac:(intros; discriminate) HE) as (body & B & L); rewrite B in R;
      apply read_whole in R; [lia|apply (write_ok_len _ HE)].
    pose proof (cleared_wf _ HW) as CW. destruct (cleared_no_auth _ (proj1 HW) X) as [CN CD].
    rewrite <- cleared_write_auth in R, HE by assumption.
    pose proof (sync_roundtrip (cleared (PAuth d)) [] CW HE CN I I) as S. rewrite app_nil_r in S. rewrite S in R.
    injection R as R. apply CD. exact (f_equal PAuth R) || (cbn [cleared]; congruence). }
  split; [assumption|]. split; [|now apply pfi_never in R].
  destruct (not_short_dec p (proj1 HW)) as [X|(a & HP & EB)]; [assumption|exfalso].
  destruct (write_ok p HW HN HE) as [_ B]. rewrite B in R.
  destruct (short_bytes c_order p a (proj1 HW) HP (EB c_order)) as (x & y & z & E). rewrite E in R.
  now apply (short_read p a x y z HP) in R.
Qed.
Lemma fragmentation_exact p : well_formed p -> w_err (write_packet p) = None ->
  ((forall chunks, concat chunks = w_bytes (write_packet p) -> feed [] chunks = ([p], Waiting [])) <-> no_empty_auth p /\ not_short_ack p /\ no_will_pfi p).
Proof.
  intros HW HE. split.
  - intros H. apply sync_exact_one; [assumption|assumption|]. apply feed_one, H. cbn. now rewrite app_nil_r.
  - intros (N & S & P) chunks EC.
    destruct (write_ok p HW N HE) as [_ B].
    assert (NE : w_bytes (write_packet p) <> []) by (rewrite B; discriminate).
    apply (fragmentation [p] p [] (w_bytes (write_packet p))).
    + assert (F : well_formed p /\ w_err (write_packet p) = None /\ no_empty_auth p /\ not_short_ack p /\ no_will_pfi p) by auto. repeat (apply Forall_cons; [exact F|]). apply Forall_nil.
    + reflexivity.
    + assumption.
    + cbn [map concat]. rewrite !app_nil_r. exact EC.
Qed.

(* ---- C12 ---- *)
(* The packet without authentication data if they are empty *)
Definition plain (p : packet) : packet := match authentication_data (packet_props p) with Some [] => cleared p | _ => p end.

Lemma plain_facts p : well_formed p -> well_formed (plain p) /\ no_empty_auth (plain p) /\ type_of (plain p) = type_of p /\ awrite_packet (plain p) = awrite_packet p /\
  (no_empty_auth p -> plain p = p) /\ (authentication_data (packet_props p) = Some [] -> plain p = cleared p) /\ (no_assigned_id p -> no_assigned_id (plain p)).
Proof.
  intros HW. unfold plain. destruct (authentication_data (packet_props p)) as [[|x d]|] eqn:E.
  - destruct (cleared_no_auth p (proj1 HW) E) as [CN _]. split; [now apply cleared_wf|]. split; [assumption|]. split; [now destruct p|]. split; [now apply cleared_awrite|].
    split; [intros N; now destruct (N E)|]. split; [reflexivity|]. unfold no_assigned_id. destruct p; auto.
  - split; [assumption|]. split; [unfold no_empty_auth; rewrite E; discriminate|]. repeat split; auto. discriminate.
  - split; [assumption|]. split; [unfold no_empty_auth; rewrite E; discriminate|]. repeat split; auto. discriminate.
Qed.
Lemma stream_same p q : well_formed p -> well_formed q -> accepted Stream p -> accepted Stream q ->
  (bytes_of Stream p = bytes_of Stream q <-> plain p = plain q).
Proof.
  intros HP HQ [EP IP] [EQ IQ]. destruct (plain_facts p HP) as (WP & NP & _ & AP & _ & _ & JP). destruct (plain_facts q HQ) as (WQ & NQ & _ & AQ & _ & _ & JQ).
  unfold bytes_of. rewrite <- AP, <- AQ. split; [|now intros ->]. intros E.
  destruct (injective_written Stream Stream (plain p) (plain q) [] WP NP) as [R _]; [|assumption|assumption| |now rewrite app_nil_r|assumption].
  - split; [rewrite AP; assumption|auto].
  - split; [rewrite AQ; assumption|auto].
Qed.

Lemma app_same {A} (a b c d : list A) : len a = len c -> a ++ b = c ++ d -> a = c /\ b = d.
Proof. intros L E. split; [apply (f_equal (take (len a))) in E; rewrite take_app in E by reflexivity; rewrite L in E; now rewrite take_app in E by reflexivity
  |apply (f_equal (drop (len a))) in E; rewrite drop_app in E by reflexivity; rewrite L in E; now rewrite drop_app in E by reflexivity]. Qed.
Lemma section_same i j b c : len (spec_items i) <= MAXVAR -> len (spec_items j) <= MAXVAR -> spec_section i ++ b = spec_section j ++ c -> spec_section i = spec_section j /\ b = c.
Proof.
  unfold spec_section. intros H1 H2 E. rewrite <- !app_assoc in E.
  destruct (spec_varint_is_varint _ H1) as [V1 G1]. destruct (spec_varint_is_varint _ H2) as [V2 G2].
  destruct (varint_prefix _ _ _ _ V1 V2 E) as [EV ER]. assert (L : len (spec_items i) = len (spec_items j)) by (rewrite <- G1, <- G2, EV; reflexivity).
  apply app_same in ER as [-> ->]; [|assumption]. auto.
Qed.

Lemma clear_auth_ok p : auth_ok (clear p).
Proof. intros d H. discriminate. Qed.
Lemma its_len cfg p : In cfg all_cfgs -> props_ok cfg p -> section_len cfg (clear p) <= MAXVAR -> len (spec_items (its_of (c_order cfg) (clear p))) <= MAXVAR.
Proof.
  intros HC HP H. rewrite section_len_order in H; [|now apply cfg_good_in|now apply clear_ok|apply clear_auth_ok].
  unfold spec_section in H. rewrite len_app in H. lia.
Qed.
Definition body_of (p : packet) : bytes := w_bytes (write_body p).
Definition connect_head (c : connect) : bytes :=
  w_bytes (write_str mqtt_name) ++ w_bytes write_protocol_version ++ w_bytes (write_cflags (connect_flags c)) ++ be16 (cn_keep_alive c).
Definition connect_tail (c : connect) : bytes :=
  w_bytes (write_str (cn_client_id c)) ++ w_bytes (write_opt write_will (cn_will c)) ++ w_bytes (write_opt write_str (cn_username c)) ++ w_bytes (write_opt write_str (cn_password c)).
Lemma nine_bytes a b c d e f g h i : w_err (a >>> b >>> c >>> d >>> e >>> f >>> g >>> h >>> i) = None ->
  w_bytes (a >>> b >>> c >>> d >>> e >>> f >>> g >>> h >>> i) =
  (w_bytes a ++ w_bytes b ++ w_bytes c ++ w_bytes d) ++ w_bytes e ++ w_bytes f ++ w_bytes g ++ w_bytes h ++ w_bytes i.
Proof.
  intros H.
  rewrite !w_seq_bytes by (repeat match goal with H : w_err (_ >>> _) = None |- _ => first [exact H | apply w_seq_err in H as [H _]] end).
  rewrite <- !app_assoc. reflexivity.
Qed.
Lemma connect_bytes c : w_err (write_connect c) = None ->
  w_bytes (write_connect c) = connect_head c ++ w_bytes (write_props connect_cfg (cn_props c)) ++ connect_tail c.
Proof. intros H. exact (nine_bytes _ _ _ _ _ _ _ _ _ H). Qed.
Lemma connack_bytes c : w_err (write_connack c) = None ->
  w_bytes (write_connack c) = [if ca_session_present c then 1 else 0; rc_to_u8 (ca_rc c)] ++ w_bytes (write_props connack_cfg (ca_props c)).
Proof. intros H. unfold write_connack in *. rewrite w_seq_bytes by assumption. apply w_seq_err in H as [H _]. now rewrite w_seq_bytes by assumption. Qed.
Lemma strict_connect p : authentication_data p = Some [] -> authentication_method p <> None ->
  write_props connect_cfg p = write_props connect_cfg (clear p) >>> w_put [22; 0; 0].
Proof.
  intros H M. apply (strict_props connect_cfg p [SessionExpiryInterval; ReceiveMaximum; MaximumPacketSize; TopicAliasMaximum;
    RequestResponseInformation; RequestProblemInformation; UserProperty; AuthenticationMethod]); (reflexivity || assumption || (cbn; intuition discriminate)).
Qed.
Lemma strict_connack p : authentication_data p = Some [] -> authentication_method p <> None ->
  write_props connack_cfg p = write_props connack_cfg (clear p) >>> w_put [22; 0; 0].
Proof.
  intros H M. apply (strict_props connack_cfg p [SessionExpiryInterval; ReceiveMaximum; MaximumQos; RetainAvailable; MaximumPacketSize;
    AssignedClientIdentifier; TopicAliasMaximum; ReasonString; UserProperty; WildcardSubscriptionAvailable; SubscriptionIdentifierAvailable;
    SharedSubscriptionAvailable; ServerKeepAlive; ResponseInformation; ServerReference; AuthenticationMethod]); (reflexivity || assumption || (cbn; intuition discriminate)).
Qed.
Lemma cleared_section cfg p : In cfg all_cfgs -> props_ok cfg p -> section_len cfg (clear p) <= MAXVAR ->
  write_props cfg (clear p) = w_put (spec_section (its_of (c_order cfg) (clear p))).
Proof.
  intros HC HP H. apply write_props_spec; [now apply cfg_good_in|now apply clear_ok|apply clear_auth_ok|unfold section_len in H; lia].
Qed.
Lemma strict_split p : well_formed p -> authentication_data (packet_props p) = Some [] -> type_of p <> TAuth -> w_err (write_packet p) = None ->
  exists a its r, body_of p = a ++ spec_section its ++ [22; 0; 0] ++ r /\ body_of (cleared p) = a ++ spec_section its ++ r /\
    len (spec_items its) <= MAXVAR /\ len a = match type_of p with TConnect => 10 | _ => 2 end.
Proof.
  intros HW H NA HE. pose proof (write_ok_len _ HE) as HL. pose proof HW as (HO & HM).
  assert (M : authentication_method (packet_props p) <> None) by (apply HM; rewrite H; discriminate).
  pose proof (cleared_wf p HW) as CW. destruct (cleared_no_auth p HO H) as [CN _].
  assert (CB : w_err (write_body (cleared p)) = None).
  { rewrite write_body_spec; [reflexivity|apply CW|now apply wf_auth|]. now rewrite cleared_len. }
  assert (EB : w_err (write_body p) = None).
  { destruct (auth_types p HO H) as [(c & ->)|[(c & ->)|(d & ->)]]; [| |now destruct NA];
      unfold write_packet in HE; now apply w_seq_err in HE as [_ HE]. }
  unfold body_of. clear CW CN HW HM HE.
  destruct (auth_types p HO H) as [(c & ->)|[(c & ->)|(d & ->)]]; [| |now destruct NA].
  - assert (PO : props_ok connect_cfg (cn_props c)) by apply HO. clear HO.
    assert (SL : section_len connect_cfg (clear (cn_props c)) <= MAXVAR).
    { rewrite clear_section by exact H. change (connect_len c <= MAXVAR) in HL. unfold connect_len in HL. lia. }
    pose proof (connect_bytes _ EB) as B1. pose proof (connect_bytes _ CB) as B2. cbn [cn_props] in B2.
    rewrite (strict_connect (cn_props c) H M) in B1. rewrite (cleared_section connect_cfg (cn_props c)) in B1, B2 by (try assumption; in_cfgs).
    rewrite w_seq_put in B1.
    exists (connect_head c), (its_of (c_order connect_cfg) (clear (cn_props c))), (connect_tail c).
    split; [|split; [|split]].
    + etransitivity; [exact B1|]. cbn [w_put w_bytes]. now rewrite <- app_assoc.
    + etransitivity; [exact B2|]. reflexivity.
    + apply (its_len connect_cfg); [in_cfgs|assumption|assumption].
    + reflexivity.
  - assert (PO : props_ok connack_cfg (ca_props c)) by apply HO. clear HO.
    assert (SL : section_len connack_cfg (clear (ca_props c)) <= MAXVAR).
    { rewrite clear_section by exact H. change (connack_len c <= MAXVAR) in HL. unfold connack_len in HL. lia. }
    pose proof (connack_bytes _ EB) as B1. pose proof (connack_bytes _ CB) as B2. cbn [ca_props] in B2.
    rewrite (strict_connack (ca_props c) H M) in B1. rewrite (cleared_section connack_cfg (ca_props c)) in B1, B2 by (try assumption; in_cfgs).
    rewrite w_seq_put in B1.
    exists [if ca_session_present c then 1 else 0; rc_to_u8 (ca_rc c)], (its_of (c_order connack_cfg) (clear (ca_props c))), [].
    split; [|split; [|split]].
    + etransitivity; [exact B1|]. cbn [w_put w_bytes]. now rewrite ?app_nil_r.
    + etransitivity; [exact B2|]. cbn [w_put w_bytes]. now rewrite ?app_nil_r.
    + apply (its_len connack_cfg); [in_cfgs|assumption|assumption].
    + reflexivity.
Qed.
Lemma strict_packet p : well_formed p -> authentication_data (packet_props p) = Some [] -> type_of p <> TAuth -> w_err (write_packet p) = None ->
  w_bytes (write_packet p) = spec_first p :: spec_varint (body_len p) ++ body_of p /\ w_err (write_packet (cleared p)) = None /\
  w_bytes (write_packet (cleared p)) = spec_first p :: spec_varint (body_len p) ++ body_of (cleared p).
Proof.
  intros HW H NA HE. pose proof (write_ok_len _ HE) as HL.
  pose proof (cleared_wf p HW) as CW. destruct (cleared_no_auth p (proj1 HW) H) as [CN _].
  assert (CB : write_body (cleared p) = w_put (enc_body c_order (cleared p))).
  { apply write_body_spec; [apply CW|now apply wf_auth|]. now rewrite cleared_len. }
  assert (P : write_packet p = w_put [first_byte p] >>> write_varint (body_len p) >>> write_body p)
    by (destruct (auth_types p (proj1 HW) H) as [(c & ->)|[(c & ->)|(d & ->)]]; reflexivity).
  assert (Q : write_packet (cleared p) = w_put [first_byte p] >>> write_varint (body_len p) >>> write_body (cleared p)).
  { rewrite <- (cleared_len p H). rewrite <- cleared_first. destruct (auth_types p (proj1 HW) H) as [(c & ->)|[(c & ->)|(d & ->)]]; reflexivity. }
  rewrite write_varint_spec, w_seq_put in P by exact HL. rewrite write_varint_spec, w_seq_put in Q by exact HL. rewrite CB, w_seq_put in Q.
  split; [|split].
  - rewrite P in HE |- *. rewrite w_seq_bytes by exact HE. cbn [w_put w_bytes]. rewrite first_byte_spec. reflexivity.
  - now rewrite Q.
  - rewrite Q. cbn [w_put w_bytes]. unfold body_of. rewrite CB, first_byte_spec. cbn [w_put w_bytes app]. now rewrite <- ?app_assoc.
Qed.
Lemma clear_eq p q : authentication_data p = authentication_data q -> clear p = clear q -> p = q.
Proof. destruct p, q. cbn. intros -> H. injection H as. subst. reflexivity. Qed.
Definition as_connect (p : packet) : connect := match p with PConnect c => c | _ => Connect false None None None 0 no_props [] end.
Definition as_connack (p : packet) : connack := match p with PConnAck c => c | _ => ConnAck false RSuccess no_props end.
Definition as_auth (p : packet) : disconnect := match p with PAuth d => d | _ => Disconnect RSuccess no_props end.
Lemma cleared_eq p q : packet_ok p -> packet_ok q -> authentication_data (packet_props p) = Some [] -> authentication_data (packet_props q) = Some [] -> cleared p = cleared q -> p = q.
Proof.
  intros OP OQ HP HQ E. destruct (auth_types p OP HP) as [(c & ->)|[(c & ->)|(d & ->)]]; destruct (auth_types q OQ HQ) as [(c' & ->)|[(c' & ->)|(d' & ->)]]; try discriminate E;
    cbn [cleared packet_props] in *; clear OP OQ; f_equal.
  - apply (f_equal as_connect) in E. cbn [as_connect] in E.
    pose proof (f_equal cn_clean_start E) as E1. pose proof (f_equal cn_will E) as E2. pose proof (f_equal cn_username E) as E3. pose proof (f_equal cn_password E) as E4.
    pose proof (f_equal cn_keep_alive E) as E5. pose proof (f_equal cn_props E) as E6. pose proof (f_equal cn_client_id E) as E7. clear E.
    destruct c as [c1 c2 c3 c4 c5 c6 c7], c' as [d1 d2 d3 d4 d5 d6 d7].
    cbn [cn_clean_start cn_will cn_username cn_password cn_keep_alive cn_props cn_client_id] in *. rewrite <- HQ in HP. apply clear_eq in E6; [|assumption]. now subst.
  - apply (f_equal as_connack) in E. cbn [as_connack] in E.
    pose proof (f_equal ca_session_present E) as E1. pose proof (f_equal ca_rc E) as E2. pose proof (f_equal ca_props E) as E6. clear E.
    destruct c as [c1 c2 c3], c' as [d1 d2 d3]. cbn [ca_session_present ca_rc ca_props] in *. rewrite <- HQ in HP. apply clear_eq in E6; [|assumption]. now subst.
  - apply (f_equal as_auth) in E. cbn [as_auth] in E.
    pose proof (f_equal dc_rc E) as E1. pose proof (f_equal dc_props E) as E6. clear E.
    destruct d as [c1 c2], d' as [d1 d2]. cbn [dc_rc dc_props] in *. rewrite <- HQ in HP. apply clear_eq in E6; [|assumption]. now subst.
Qed.
Lemma both_strict p q : well_formed p -> well_formed q -> authentication_data (packet_props p) = Some [] -> authentication_data (packet_props q) = Some [] ->
  type_of p <> TAuth -> type_of q <> TAuth -> w_err (write_packet p) = None -> w_err (write_packet q) = None ->
  w_bytes (write_packet p) = w_bytes (write_packet q) -> p = q.
Proof.
  intros HP HQ XP XQ TP TQ EP EQ E.
  destruct (strict_packet p HP XP TP EP) as (BP & ECP & BCP). destruct (strict_packet q HQ XQ TQ EQ) as (BQ & ECQ & BCQ).
  rewrite BP, BQ in E. injection E as EF E. pose proof (spec_first_type _ _ EF) as ET.
  destruct (spec_varint_is_varint _ (write_ok_len _ EP)) as [V1 G1]. destruct (spec_varint_is_varint _ (write_ok_len _ EQ)) as [V2 G2].
  apply varint_prefix in E as [EV EB]; [|assumption|assumption].
  destruct (strict_split p HP XP TP EP) as (a & its & r & S1 & S2 & L1 & L2). destruct (strict_split q HQ XQ TQ EQ) as (a' & its' & r' & S1' & S2' & L1' & L2').
  rewrite S1, S1' in EB. apply app_same in EB as [-> EB]; [|rewrite L2, L2'; now rewrite ET]. apply section_same in EB as [ES ER]; [|assumption|assumption].
  injection ER as ->. rewrite ES in S2. rewrite <- S2' in S2. rewrite S2, EF, EV, <- BCQ in BCP.
  pose proof (cleared_wf p HP) as CP. pose proof (cleared_wf q HQ) as CQ.
  apply cleared_eq; [apply HP|apply HQ|assumption|assumption|].
  destruct (cleared_no_auth p (proj1 HP) XP) as [NP _]. destruct (cleared_no_auth q (proj1 HQ) XQ) as [NQ _].
  destruct (injective_written Buffer Buffer (cleared p) (cleared q) [] CP NP ECP CQ NQ ECQ) as [R _]; [|assumption].
  rewrite app_nil_r. symmetry. exact BCP.
Qed.
Lemma pkt_type_eqb_dec t : t = TAuth \/ t <> TAuth.
Proof. destruct t; (now left) || (right; discriminate). Qed.
Lemma buffer_same p q : well_formed p -> well_formed q -> accepted Buffer p -> accepted Buffer q ->
  (bytes_of Buffer p = bytes_of Buffer q <-> p = q \/ type_of p = TAuth /\ plain p = plain q).
Proof.
  intros HP HQ EP EQ. cbn [accepted] in *. unfold bytes_of.
  destruct (plain_facts p HP) as (WP & NP & TP & _ & IP & JP & _). destruct (plain_facts q HQ) as (WQ & NQ & TQ & _ & IQ & JQ & _).
  assert (AUTH : forall x, well_formed x -> type_of x = TAuth -> write_packet (plain x) = write_packet x).
  { intros x HX TX. destruct (plain_facts x HX) as (_ & _ & _ & _ & A & B & _). destruct (empty_dec x) as [X|X]; [now rewrite A|]. rewrite B by assumption.
    destruct x; try discriminate TX. now apply cleared_write_auth. }
  split.
  - intros E.
    assert (TE : forall x y, well_formed x -> well_formed y -> w_err (write_packet x) = None -> w_err (write_packet y) = None ->
        w_bytes (write_packet x) = w_bytes (write_packet y) -> no_empty_auth x -> authentication_data (packet_props y) = Some [] -> type_of y = TAuth).
    { intros x y WX WY EX EY EE NX AY. pose proof (proj2 (write_frame x WX EX) (or_introl NX)) as FX. rewrite EE in FX.
      destruct (proj1 (write_frame y WY EY) FX) as [NY|TY]; [now destruct (NY AY)|assumption]. }
    destruct (empty_dec p) as [XP|XP]; destruct (empty_dec q) as [XQ|XQ].
    + left. destruct (injective_written Buffer Buffer p q [] HP XP EP HQ XQ EQ) as [R _]; [|assumption]. rewrite app_nil_r. now symmetry.
    + pose proof (TE p q HP HQ EP EQ E XP XQ) as TY. right. rewrite <- (AUTH q HQ TY) in E, EQ.
      destruct (injective_written Buffer Buffer p (plain q) [] HP XP EP WQ NQ EQ) as [R _]; [rewrite app_nil_r; now symmetry|].
      rewrite (IP XP). split; [rewrite R, TQ; assumption|assumption].
    + pose proof (TE q p HQ HP EQ EP (eq_sym E) XQ XP) as TY. right. rewrite <- (AUTH p HP TY) in E, EP.
      destruct (injective_written Buffer Buffer (plain p) q [] WP NP EP HQ XQ EQ) as [R _]; [rewrite app_nil_r; now symmetry|].
      rewrite (IQ XQ). split; assumption.
    + assert (TT : type_of p = type_of q).
      { destruct (auth_types p (proj1 HP) XP) as [(c & ->)|[(c & ->)|(d & ->)]]; destruct (auth_types q (proj1 HQ) XQ) as [(c' & ->)|[(c' & ->)|(d' & ->)]]; try reflexivity;
          exfalso; revert E EP EQ; unfold write_packet; intros E EP EQ; rewrite !w_seq_bytes in E by (repeat match goal with H : w_err (_ >>> _) = None |- _ => first [exact H | apply w_seq_err in H as [H _]] end);
          cbn in E; discriminate E. }
      destruct (pkt_type_eqb_dec (type_of p)) as [TA|TA].
      * right. split; [assumption|]. rewrite <- (AUTH p HP TA) in E, EP. rewrite TT in TA. rewrite <- (AUTH q HQ TA) in E, EQ.
        destruct (injective_written Buffer Buffer (plain p) (plain q) [] WP NP EP WQ NQ EQ) as [R _]; [rewrite app_nil_r; now symmetry|assumption].
      * left. apply both_strict; try assumption. now rewrite <- TT.
  - intros [->|[TA E]]; [reflexivity|]. rewrite <- (AUTH p HP TA), E. rewrite AUTH; [reflexivity|assumption|]. now rewrite <- TQ, <- E, TP.
Qed.

(* ---- C17, C18 ---- *)
Lemma request_len r body : rq_ok r -> spec_body (rq_packet r) body -> body_len (rq_packet r) = len body.
Proof.
  intros HR HS. destruct r; cbn [rq_ok rq_packet body_len spec_body] in *.
  - destruct HR as (HT & HI & HQ & HP & HB). destruct HS as (sec & H1 & ->). unfold publish_len.
    rewrite (section_len_any publish_cfg _ sec) by (auto; try (ua HP); apply cfg_good_in; in_cfgs).
    rewrite str_len_spec, !len_app.
    assert (E : opt_len (fun _ => 2) (pb_pkid p) = len (match pb_pkid p with Some i => spec_u16 i | None => [] end))
      by (destruct (pb_pkid p); [now rewrite spec_u16_len|reflexivity]).
    rewrite E. lia.
  - destruct HR as (HI & HP & _). destruct HS as (sec & H1 & ->). unfold subscribe_len.
    rewrite (section_len_any subscribe_cfg _ sec) by (auto; try (ua HP); apply cfg_good_in; in_cfgs).
    rewrite topics_len. rewrite !len_app, spec_u16_len. lia.
  - destruct HR as (HI & HP & _). destruct HS as (sec & H1 & ->). unfold unsubscribe_len.
    rewrite (section_len_any unsubscribe_cfg _ sec) by (auto; try (ua HP); apply cfg_good_in; in_cfgs).
    rewrite utopics_len. rewrite !len_app, spec_u16_len. lia.
Qed.
Lemma short_all {A} (f : A -> bytes) l : Forall (fun x => len (f x) <= 65535) l -> first_long f l = None.
Proof.
  intros H. unfold first_long. destruct (find _ l) eqn:E; [exfalso|reflexivity]. apply find_some in E as [HI E]. rewrite Forall_forall in H.
  specialize (H _ HI). cbv beta in E. unfold MAXIMUM_TOPIC_SIZE in E. lia.
Qed.
Lemma valid_exact max r body : rq_ok r -> spec_body (rq_packet r) body ->
  (rq_valid max r = None <-> Forall (fun t => len t <= 65535) (rq_topics r) /\ len body <= max).
Proof.
  intros HR HS. rewrite <- (request_len r body HR HS). split.
  - intros H. split; [now apply valid_topics in H|now apply valid_len].
  - intros [HT HL]. destruct r; cbn [rq_valid rq_topics rq_packet body_len] in *; unfold validate_publish, validate_subscribe, validate_unsubscribe.
    + replace (max <? publish_len p) with false by lia. inversion HT; subst. unfold MAXIMUM_TOPIC_SIZE. replace (65535 <? len (pb_topic p)) with false by lia. reflexivity.
    + replace (max <? subscribe_len s) with false by lia. rewrite short_all; [reflexivity|]. rewrite Forall_map in HT. exact HT.
    + replace (max <? unsubscribe_len u) with false by lia. rewrite short_all; [reflexivity|assumption].
Qed.
Lemma sub_topics_some : forall fuel b l r, read_sub_topics fuel b = Ok (l, r) -> l <> [].
Proof.
  intros [|fuel] b l r H; [discriminate|]. cbn [read_sub_topics] in H. destruct (read_str b) as [[t b1]| |]; [|discriminate..]. cbn [bind] in H.
  destruct (read_sopts b1) as [[o b2]| |]; [|discriminate..]. cbn [bind] in H. destruct (len b2 =? 0); [now injection H as <- _|].
  destruct (read_sub_topics fuel b2) as [[l' b3]| |]; [|discriminate..]. cbn [bind] in H. now injection H as <- _.
Qed.
Lemma unsub_topics_some : forall fuel b l r, read_unsub_topics fuel b = Ok (l, r) -> l <> [].
Proof.
  intros [|fuel] b l r H; [discriminate|]. cbn [read_unsub_topics] in H. destruct (read_str b) as [[t b1]| |]; [|discriminate..]. cbn [bind] in H.
  destruct (len b1 =? 0); [now injection H as <- _|].
  destruct (read_unsub_topics fuel b1) as [[l' b3]| |]; [|discriminate..]. cbn [bind] in H. now injection H as <- _.
Qed.
Lemma never_no_topics r b x : read_packet b = RPacket (rq_packet r) x -> rq_topics r <> [].
Proof.
  unfold read_packet. destruct (read_fixed_header b) as [[h hl]|e|n]; [|discriminate..]. destruct (_ <? _); [discriminate|]. cbv zeta.
  generalize (take (fh_rem h) (drop hl b)). generalize (drop (fh_rem h) (drop hl b)). intros y z H.
  destruct (read_body h z) as [[p k]| |] eqn:E; [|discriminate..]. injection H as -> _.
  unfold read_body in E. destruct r as [u|s|u]; cbn [rq_packet rq_topics] in *; [discriminate| |].
  - destruct (fh_type h); try (match type of E with context [rmap _ ?m] => destruct m as [[? ?]| |] eqn:EM; discriminate end); try discriminate.
    unfold read_subscribe in E. destruct (read_u16 z) as [[i b1]| |]; [|discriminate..]. cbn [bind] in E. destruct (read_props _ b1) as [[q b2]| |]; [|discriminate..]. cbn [bind] in E.
    destruct (read_sub_topics _ b2) as [[l b3]| |] eqn:EL; [|discriminate..]. cbn [bind rmap] in E. injection E as <- _. apply sub_topics_some in EL. cbn [sb_topics]. now destruct l.
  - destruct (fh_type h); try (match type of E with context [rmap _ ?m] => destruct m as [[? ?]| |] eqn:EM; discriminate end); try discriminate.
    unfold read_unsubscribe in E. destruct (read_u16 z) as [[i b1]| |]; [|discriminate..]. cbn [bind] in E. destruct (read_props _ b1) as [[q b2]| |]; [|discriminate..]. cbn [bind] in E.
    destruct (read_unsub_topics _ b2) as [[l b3]| |] eqn:EL; [|discriminate..]. cbn [bind rmap] in E. injection E as <- _. now apply unsub_topics_some in EL.
Qed.
Lemma transmit_exact max r : rq_ok r -> rq_valid max r = None -> max <= 268435455 ->
  let p := rq_packet r in
  ((forall rest, read_packet (w_bytes (write_packet p) ++ rest) = RPacket p rest) <-> rq_topics r <> []) /\
  ((forall rest, read_packet (w_bytes (awrite_packet p) ++ rest) = RPacket p rest) <-> rq_topics r <> []).
Proof.
  intros HR HV HM p. split; (split; [intros H; exact (never_no_topics r _ _ (H []))|]);
    intros HT rest; destruct (request_written max r HR HV HT HM) as (_ & _ & _ & _ & H & _); now apply H.
Qed.

(* ---- cases ---- *)
(* CONNECT; its one property, receive maximum, has one byte instead of two *)
Definition panic_bytes : bytes := [16; 13; 0; 4; 77; 81; 84; 84; 5; 0; 0; 0; 2; 33; 1].
Lemma panic_case : all_bytes panic_bytes /\ read_packet panic_bytes = RCrash Panicked /\ panics panic_bytes /\
  all_bytes [192; 0] /\ ~ panics [192; 0].
Proof.
  assert (A : all_bytes panic_bytes) by (apply bytesb_ok; reflexivity). assert (B : all_bytes [192; 0]) by (apply bytesb_ok; reflexivity).
  assert (R : read_packet panic_bytes = RCrash Panicked) by (vm_compute; reflexivity).
  split; [assumption|]. split; [assumption|]. split; [now apply (decode_panics _ Panicked A) in R|]. split; [assumption|].
  intros P. pose proof (proj2 (decode_panics _ Panicked B) (conj eq_refl P)) as X. vm_compute in X. discriminate.
Qed.
Lemma plain_case : well_formed w_empty_auth /\ well_formed (plain w_empty_auth) /\ plain w_empty_auth <> w_empty_auth /\
  (forall w, In w [Buffer; Stream] -> accepted w w_empty_auth /\ accepted w (plain w_empty_auth)) /\ type_of w_empty_auth = TAuth.
Proof.
  assert (W : well_formed w_empty_auth) by ctriv. split; [assumption|]. split; [now apply plain_facts|]. split; [vm_compute; discriminate|].
  split; [|reflexivity]. intros w [<-|[<-|[]]]; cbn [accepted]; repeat split; vm_compute; reflexivity.
Qed.
Lemma valid_case : rq_ok w_pub_max /\ exists body, spec_body (rq_packet w_pub_max) body /\ len body = 10.
Proof.
  destruct size_case as (A & _). split; [assumption|]. eexists. split; [exists [0]; split; [apply no_props_section|reflexivity]|vm_compute; reflexivity].
Qed.
Definition no_topics : request := RqSubscribe (Subscribe 1 no_props []).
Lemma transmit_case : rq_ok w_pub_max /\ rq_valid 10 w_pub_max = None /\ rq_topics w_pub_max <> [] /\
  rq_ok no_topics /\ rq_valid 10 no_topics = None /\ rq_topics no_topics = [].
Proof.
  destruct size_case as (A & B & C & _). repeat (split; [assumption|]). 
  split; [|split; reflexivity]. split; [cbn; lia|]. split; [apply no_props_ok|constructor].
Qed.
