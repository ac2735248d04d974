(* Cases for C66 *)
From Verif Require Import Base VarInt Prims Props Codes Packets SpecCodec SpecLenient BaseFacts VarIntFacts PrimFacts PropsFacts FrameFacts Check Witness LenientMore.

Lemma enc_split q first enc body : is_varint enc -> len body = groups_value enc -> encodes q (first :: enc ++ body) ->
  first = spec_first q /\ enc = spec_varint (len body) /\ spec_body q body.
Proof.
  intros V L (b & SB & M & E). injection E as -> E. apply varint_prefix in E as [-> ->]; auto.
  now apply spec_varint_is_varint.
Qed.
Lemma short_varint n : n < 128 -> is_varint [n].
Proof. intros H. exists [], n. split; [reflexivity|]. split; [constructor|]. split; [exact H|]. vm_compute. discriminate. Qed.
Ltac split_enc H q f e b :=
  apply (enc_split q f e b) in H as (EF & EV & SB);
  [|first [apply short_varint; reflexivity | exists [130], 0; split; [reflexivity|]; split; [repeat constructor; vm_compute; discriminate|]; split; [vm_compute; reflexivity|vm_compute; discriminate] ]|reflexivity].

(* a reserved flag of CONNACK *)
Lemma no_flag q : ~ encodes q [32; 3; 2; 0; 0].
Proof.
  intros H. change [32; 3; 2; 0; 0] with (32 :: [3] ++ [2; 0; 0]) in H. split_enc H q 32 [3] [2; 0; 0].
  destruct q as [|c|p| | | | | | | | | | | |]; try discriminate EF.
  - destruct SB as (sec & _ & E). injection E as E _. destruct (ca_session_present c); discriminate E.
  - cbn in EF. destruct (pb_dup p), (pb_qos p), (pb_retain p); discriminate EF.
Qed.
(* bytes after the properties of CONNACK *)
Lemma no_rest q : ~ encodes q [32; 4; 0; 0; 0; 9].
Proof.
  intros H. change [32; 4; 0; 0; 0; 9] with (32 :: [4] ++ [0; 0; 0; 9]) in H. split_enc H q 32 [4] [0; 0; 0; 9].
  destruct q as [|c|p| | | | | | | | | | | |]; try discriminate EF.
  - destruct SB as (sec & (its & _ & M & ->) & E). injection E as _ _ E. unfold spec_section in E.
    change [0; 9] with ([0] ++ [9]) in E.
    apply varint_prefix in E as [E1 E2]; [|now apply short_varint|now apply spec_varint_is_varint]. rewrite <- E2 in E1. discriminate E1.
  - cbn in EF. destruct (pb_dup p), (pb_qos p), (pb_retain p); discriminate EF.
Qed.
(* a ping with a body *)
Lemma no_ping q : ~ encodes q [208; 1; 0].
Proof.
  intros H. change [208; 1; 0] with (208 :: [1] ++ [0]) in H. split_enc H q 208 [1] [0].
  destruct q as [| |p| | | | | | | | | | | |]; try discriminate EF; [|discriminate SB].
  cbn in EF. destruct (pb_dup p), (pb_qos p), (pb_retain p); discriminate EF.
Qed.
(* a length that is not in its shortest form *)
Lemma no_long q : ~ encodes q [64; 130; 0; 0; 7].
Proof.
  intros H. change [64; 130; 0; 0; 7] with (64 :: [130; 0] ++ [0; 7]) in H. split_enc H q 64 [130; 0] [0; 7]. discriminate EV.
Qed.
(* a property length that is not the length of the properties *)
Lemma no_plen q : ~ encodes q [64; 8; 0; 7; 0; 1; 31; 0; 1; 97].
Proof.
  intros H. change [64; 8; 0; 7; 0; 1; 31; 0; 1; 97] with (64 :: [8] ++ [0; 7; 0; 1; 31; 0; 1; 97]) in H.
  split_enc H q 64 [8] [0; 7; 0; 1; 31; 0; 1; 97].
  destruct q as [| |p|a| | | | | | | | | | |]; try discriminate EF.
  - cbn in EF. destruct (pb_dup p), (pb_qos p), (pb_retain p); discriminate EF.
  - destruct SB as [(_ & _ & E)|[(_ & E)|(sec & (its & _ & M & ->) & E)]]; try discriminate E. injection E as _ _ _ E.
    unfold spec_section in E. change [1; 31; 0; 1; 97] with ([1] ++ [31; 0; 1; 97]) in E.
    apply varint_prefix in E as [E1 E2]; [|now apply short_varint|now apply spec_varint_is_varint]. rewrite <- E2 in E1. discriminate E1.
Qed.
(* reserved bits of the options of SUBSCRIBE *)
Lemma no_opts q : ~ encodes q [130; 7; 0; 1; 0; 0; 1; 97; 64].
Proof.
  intros H. change [130; 7; 0; 1; 0; 0; 1; 97; 64] with (130 :: [7] ++ [0; 1; 0; 0; 1; 97; 64]) in H. split_enc H q 130 [7] [0; 1; 0; 0; 1; 97; 64].
  destruct q as [| |p| | | | |s| | | | | | |]; try discriminate EF.
  - cbn in EF. destruct (pb_dup p), (pb_qos p), (pb_retain p); discriminate EF.
  - destruct SB as (sec & (its & _ & M & ->) & E). injection E as _ _ E. unfold spec_section in E. rewrite <- app_assoc in E.
    change [0; 0; 1; 97; 64] with ([0] ++ [0; 1; 97; 64]) in E.
    apply varint_prefix in E as [E1 E2]; [|now apply short_varint|now apply spec_varint_is_varint].
    assert (Z : len (spec_items its) = 0).
    { destruct (N.ltb_spec (len (spec_items its)) 128) as [L|L].
      - unfold spec_varint in E1. replace (len (spec_items its) <? 128) with true in E1 by lia. congruence.
      - apply (f_equal (@len N)) in E1. rewrite spec_varint_len in E1. unfold variable_integer_len in E1. change (len [0]) with 1 in E1.
        repeat match goal with H : context [?x <=? ?y] |- _ => destruct (x <=? y) eqn:?; try lia end. }
    apply len_zero in Z. rewrite Z in E2. cbn [app] in E2. destruct (sb_topics s) as [|[t o] l]; [discriminate E2|].
    cbn [map concat fst snd] in E2. unfold spec_data, spec_u16 in E2. cbn [app] in E2.
    injection E2 as L1 L2 E2. assert (LT : len t = 1).
    { assert (len t <= 3) by (apply (f_equal (@len N)) in E2; rewrite !len_app in E2; change (len [97; 64]) with 2 in E2; lia). lia. }
    destruct t as [|x [|y t]]; [discriminate LT| |rewrite !(@len_cons N) in LT; lia]. cbn [app] in E2. injection E2 as _ E2 _.
    unfold spec_sopts in E2. destruct (so_rh o), (so_rap o), (so_nl o), (so_qos o); discriminate E2.
Qed.
Lemma liberties_taken : Forall (fun b => (exists p, read_packet b = RPacket p []) /\ forall q, ~ encodes q b)
  [[32; 3; 2; 0; 0]; [32; 4; 0; 0; 0; 9]; [208; 1; 0]; [64; 130; 0; 0; 7]; [64; 8; 0; 7; 0; 1; 31; 0; 1; 97]; [130; 7; 0; 1; 0; 0; 1; 97; 64]].
Proof.
  repeat constructor; try (eexists; vm_compute; reflexivity); [apply no_flag|apply no_rest|apply no_ping|apply no_long|apply no_plen|apply no_opts].
Qed.
Lemma liberties_atake : Forall (fun b => (exists p n r, aread_packet b = AOk p n r) /\ forall q, ~ encodes q b)
  [[32; 3; 2; 0; 0]; [32; 4; 0; 0; 0; 9]; [208; 1; 0]; [64; 130; 0; 0; 7]; [130; 7; 0; 1; 0; 0; 1; 97; 64]].
Proof.
  repeat constructor; try (do 3 eexists; vm_compute; reflexivity); [apply no_flag|apply no_rest|apply no_ping|apply no_long|apply no_opts].
Qed.
Lemma liberty_case : all_bytes [64; 8; 0; 7; 0; 1; 31; 0; 1; 97; 5] /\
  read_packet [64; 8; 0; 7; 0; 1; 31; 0; 1; 97; 5] = RPacket (PPubAck (Ack 7 RSuccess (set_prop ReasonString (VStr [97]) no_props))) [5].
Proof. split; [apply bytesb_ok; reflexivity|vm_compute; reflexivity]. Qed.
Lemma liberty_acase : all_bytes [64; 8; 0; 7; 0; 4; 31; 0; 1; 97; 5] /\
  aread_packet [64; 8; 0; 7; 0; 4; 31; 0; 1; 97; 5] = AOk (PPubAck (Ack 7 RSuccess (set_prop ReasonString (VStr [97]) no_props))) 8 [5].
Proof. split; [apply bytesb_ok; reflexivity|vm_compute; reflexivity]. Qed.
