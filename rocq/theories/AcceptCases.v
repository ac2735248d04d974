(* Cases for C74 *)
From Verif Require Import Base VarInt Prims Props Codes Packets SpecCodec SpecLenient SpecAccept BaseFacts VarIntFacts PrimFacts PropsFacts PacketFacts GoodFacts FrameFacts LenientFacts LenientMore LenientCases AcceptFacts AcceptMore AcceptAll StreamTake.

Lemma bytes_dec l : forallb (fun x => x <? 256) l = true -> all_bytes l.
Proof. intros H. apply Forall_forall. intros x Hx. rewrite forallb_forall in H. apply H in Hx. unfold is_byte. lia. Qed.
Lemma enc_one n : n < 128 -> int_enc n [n].
Proof. intros H. split; [now apply short_varint|]. cbn [groups_value]. rewrite N.mod_small by assumption. lia. Qed.
Lemma enc_zero2 : int_enc 0 [128; 0].
Proof. split; [|reflexivity]. exists [128], 0. split; [reflexivity|]. split; [repeat constructor; lia|]. split; [lia|]. vm_compute. discriminate. Qed.

Lemma accept_case : all_bytes [64; 6; 0; 7; 0; 128; 0; 9; 5] /\
  let p := PPubAck (Ack 7 RSuccess no_props) in
  [64; 6; 0; 7; 0; 128; 0; 9; 5] = spec_first p :: [6] ++ [0; 7; 0; 128; 0] ++ [9] ++ [5] /\ int_enc (len ([0; 7; 0; 128; 0] ++ [9])) [6] /\
  packet_ok p /\ lax_body FromBuffer p [0; 7; 0; 128; 0] /\ buffer_accepts p [0; 7; 0; 128; 0] [9].
Proof.
  split; [now apply bytes_dec|]. cbv zeta. split; [reflexivity|]. split; [now apply enc_one|]. split; [|split].
  - cbn [packet_ok]. split; [reflexivity|]. split; [cbn; auto|]. apply no_props_ok.
  - right. right. exists [128; 0]. split; [|reflexivity]. exists [], [128; 0], []. split; [constructor|]. split; [split; [intros t _; symmetry; apply prop_vals_no_props|reflexivity]|].
    split; [reflexivity|]. split; [apply enc_zero2|]. split; [vm_compute; discriminate|reflexivity].
  - right. exists [128; 0]. split; [apply enc_zero2|reflexivity].
Qed.

Lemma accept_acase : let body := [0; 1; 4; 11; 3; 11; 5; 0; 1; 97; 64] in
  let p := PSubscribe (Subscribe 1 (set_prop SubscriptionIdentifier (VVar 5) no_props) [([97], SOpts RhZero false false AtMostOnce)]) in
  all_bytes (130 :: [11] ++ body ++ [5]) /\ int_enc (len body) [11] /\
  130 = spec_first p /\ packet_ok p /\ lax_body FromStream p body /\ stream_accepts p.
Proof.
  cbv zeta. assert (B : all_bytes (130 :: [11] ++ [0; 1; 4; 11; 3; 11; 5; 0; 1; 97; 64] ++ [5])) by (now apply bytes_dec).
  assert (E : int_enc (len [0; 1; 4; 11; 3; 11; 5; 0; 1; 97; 64]) [11]) by (now apply enc_one).
  split; [exact B|]. split; [exact E|]. apply (proj1 (stream_exactly _ _ _ [5] _ B E)). vm_compute. reflexivity.
Qed.

Lemma suback_first p q : In (type_of p) [TSubAck; TUnsubAck] -> spec_first p = spec_first q -> type_of q = type_of p.
Proof.
  intros H E. destruct p; cbn in H; try (exfalso; intuition discriminate); destruct q as [| |x| | | | | | | | | | | |]; try discriminate E; try reflexivity;
    cbn in E; destruct (pb_dup x), (pb_qos x), (pb_retain x); discriminate E.
Qed.
Lemma refuses_long first enc body r p : all_bytes (first :: enc ++ body ++ r) -> int_enc (len body) enc ->
  aread_packet (first :: enc ++ body ++ r) = AOk p (len body) r -> In (type_of p) [TSubAck; TUnsubAck] -> ~ spec_body p body ->
  forall q rest, read_packet (first :: enc ++ body ++ r) <> RPacket q rest.
Proof.
  intros HB HE HA HT HN q rest HQ. destruct (proj1 (stream_exactly _ _ _ _ _ HB HE) HA) as (EF & _).
  destruct (proj1 (buffer_exactly _ _ _ HB) HQ) as (enc' & body' & extra & EB & [V' EL'] & HO & LB & BA).
  injection EB as EF' EB. destruct HE as [V EL]. apply varint_prefix in EB as [<- EB]; [|assumption|assumption].
  assert (ET : type_of q = type_of p) by (apply suback_first; [assumption|congruence]).
  assert (X : extra = [] /\ spec_body q body') by (destruct q; cbn in ET; rewrite <- ET in HT; cbn in HT; try (exfalso; intuition discriminate); exact BA).
  destruct X as [-> SB]. cbn [app] in EB. rewrite app_nil_r in EL'.
  assert (body = body').
  { apply (f_equal (take (len body))) in EB. rewrite take_app in EB by reflexivity. rewrite <- EL in EB. rewrite EL' in EB. now rewrite take_app in EB. }
  subst body'. apply HN. enough (p = q) by congruence.
  assert (HA' : aread_packet (first :: enc ++ body ++ r) = AOk q (len body) r).
  { unfold aread_packet, aread_fixed_header. cbn [aread_u8 abind]. rewrite EF', first_byte_read, (aread_enc _ _ _ (conj V EL)). cbn [abind].
    apply aread_body_ok; auto. destruct q; cbn in ET; rewrite <- ET in HT; cbn in HT; try (exfalso; intuition discriminate); exact I. }
  congruence.
Qed.
Lemma refuses_case : let body := [0; 1; 128; 0; 1] in let p := PSubAck (SubAck 1 no_props [RGrantedQoS1]) in
  all_bytes (144 :: [5] ++ body ++ [7]) /\ int_enc (len body) [5] /\
  aread_packet (144 :: [5] ++ body ++ [7]) = AOk p (len body) [7] /\ In (type_of p) [TSubAck; TUnsubAck] /\ ~ spec_body p body.
Proof.
  cbv zeta. split; [now apply bytes_dec|]. split; [now apply enc_one|]. split; [vm_compute; reflexivity|]. split; [cbn; auto|].
  intros (sec & (its & A & M & ->) & E). cbn [sa_id sa_codes map] in E. change (spec_u16 1) with [0; 1] in E. cbn [app] in E. injection E as E.
  apply (f_equal (@rev N)) in E. rewrite rev_app_distr in E. cbn in E. injection E as E. apply (f_equal (@rev N)) in E. rewrite rev_involutive in E. cbn in E.
  unfold spec_section in E. destruct (spec_varint_is_varint _ M) as [V G].
  change [128; 0] with ([128; 0] ++ []) in E. apply varint_prefix in E as [E E']; [|apply enc_zero2|exact V].
  rewrite <- E' in E. discriminate E.
Qed.

Lemma take_case : let s := [162; 8; 0; 1; 0; 0; 1; 97; 0; 1; 98; 5] in let p := PUnsubscribe (Unsubscribe 1 no_props [[97]; [98]]) in
  let body := [0; 1; 0; 0; 1; 97; 0; 1; 98] in
  all_bytes s /\ s = spec_first p :: [8] ++ body ++ [5] /\ int_enc 8 [8] /\ packet_ok p /\ lax_body FromStream p body /\ stream_takes p 8 body /\ 8 <> len body.
Proof.
  cbv zeta. assert (B : all_bytes [162; 8; 0; 1; 0; 0; 1; 97; 0; 1; 98; 5]) by (now apply bytes_dec). split; [exact B|]. split; [reflexivity|]. split; [now apply enc_one|].
  assert (R : aread_packet [162; 8; 0; 1; 0; 0; 1; 97; 0; 1; 98; 5] = AOk (PUnsubscribe (Unsubscribe 1 no_props [[97]; [98]])) 9 [5]) by (vm_compute; reflexivity).
  destruct (proj1 (stream_any _ _ _ _ B) R) as (rem & enc & body & E & [V G] & L & HO & LB & ST).
  assert (E8 : [8] ++ [0; 1; 0; 0; 1; 97; 0; 1; 98; 5] = enc ++ body ++ [5]) by (injection E as E; exact E).
  apply varint_prefix in E8 as [<- E8]; [|now apply short_varint|exact V].
  change [0; 1; 0; 0; 1; 97; 0; 1; 98; 5] with ([0; 1; 0; 0; 1; 97; 0; 1; 98] ++ [5]) in E8. apply app_inv_tail in E8 as <-.
  vm_compute in G. subst rem. split; [assumption|]. split; [assumption|]. split; [assumption|]. vm_compute. discriminate.
Qed.
