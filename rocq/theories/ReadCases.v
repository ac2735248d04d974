(* Concrete cases for P_Read.v. *)
From Verif Require Import Base VarInt Prims Props Codes Packets SpecCodec SpecRead SmolStream TokioRead BaseFacts Check Witness ReadFacts ReadMore.

Definition rc_ack (i : N) : packet := PPubAck (Ack i RSuccess no_props).
Definition rc_connack : packet := PConnAck (ConnAck false RSuccess no_props).
(* a PUBLISH whose payload is 64 2 0 7, the encoding of a PUBACK *)
Definition rc_pub : packet := PPublish (Publish false AtMostOnce false [116] None no_props [64; 2; 0; 7]).
Lemma no_props_section : spec_section_of no_props [0].
Proof. exists []. split; [intros t; destruct t; reflexivity|]. split; [vm_compute; discriminate|reflexivity]. Qed.
Lemma ack_sent : sent (rc_ack 7) [64; 2; 0; 7] /\ sent (rc_ack 8) [64; 2; 0; 8].
Proof.
  split; (split; [ctriv|]; split; [exact I|]; split; [exact I|]; eexists; split; [left; split; [reflexivity|]; split; [intros t; destruct t; reflexivity|reflexivity]|];
  split; [vm_compute; discriminate|]; split; [exact I|reflexivity]).
Qed.
Lemma connack_sent : sent rc_connack [32; 3; 0; 0; 0].
Proof.
  split; [ctriv|]. split; [exact I|]. split; [exact I|]. eexists. split; [exists [0]; split; [exact no_props_section|reflexivity]|].
  split; [vm_compute; discriminate|]. split; [exact I|reflexivity].
Qed.
Lemma pub_sent : sent rc_pub [48; 8; 0; 1; 116; 0; 64; 2; 0; 7].
Proof.
  split; [ctriv|]. split; [exact I|]. split; [exact I|]. eexists. split; [exists [0]; split; [exact no_props_section|reflexivity]|].
  split; [vm_compute; discriminate|]. split; [exact I|reflexivity].
Qed.
Lemma order_case : Forall2 sent [rc_ack 7; rc_pub; rc_ack 8] [[64; 2; 0; 7]; [48; 8; 0; 1; 116; 0; 64; 2; 0; 7]; [64; 2; 0; 8]] /\
  chunks_ok [[64; 2; 0; 7; 48]; [8; 0; 1; 116; 0]; [64; 2; 0; 7; 64]] /\
  smol_reads true [] [[64; 2; 0; 7; 48]; [8; 0; 1; 116; 0]; [64; 2; 0; 7; 64]] = ([rc_ack 7; rc_pub], Reading [64]).
Proof.
  split; [repeat (apply Forall2_cons; [first [exact pub_sent|exact (proj1 ack_sent)|exact (proj2 ack_sent)]|]); apply Forall2_nil|]. split; [repeat constructor; discriminate|]. vm_compute. reflexivity.
Qed.
(* two acknowledgements together *)
Lemma stall_case : Forall2 sent [rc_ack 7; rc_ack 8] [[64; 2; 0; 7]; [64; 2; 0; 8]] /\ chunks_ok [[64; 2; 0; 7; 64; 2; 0; 8]] /\
  complete [[64; 2; 0; 7]; [64; 2; 0; 8]] 8 = 2%nat /\ (forall chk, smol_reads chk [] [[64; 2; 0; 7; 64; 2; 0; 8]] = ([rc_ack 7], Reading [64; 2; 0; 8])).
Proof.
  split; [repeat (apply Forall2_cons; [first [exact (proj1 ack_sent)|exact (proj2 ack_sent)]|]); apply Forall2_nil|]. split; [repeat constructor; discriminate|]. split; [reflexivity|]. intros chk. destruct chk; vm_compute; reflexivity.
Qed.
Lemma prompt_case : let bs := [[64; 2; 0; 7]; [64; 2; 0; 8]] in let chunks := [[64; 2]; [0; 7; 64]; [2; 0; 8]] in
  Forall2 sent [rc_ack 7; rc_ack 8] bs /\ chunks_ok chunks /\ concat chunks = concat bs /\
  (forall c1 ch c2, chunks = c1 ++ ch :: c2 -> (complete bs (len (concat (c1 ++ [ch]))) <= S (complete bs (len (concat c1))))%nat) /\
  complete bs (len (concat chunks)) = 2%nat.
Proof.
  cbv zeta. split; [repeat (apply Forall2_cons; [first [exact (proj1 ack_sent)|exact (proj2 ack_sent)]|]); apply Forall2_nil|]. split; [repeat constructor; discriminate|]. split; [reflexivity|]. split; [|reflexivity].
  intros [|x1 [|x2 [|x3 [|x4 c1]]]] ch c2 E; cbn in E; try discriminate E; injection E; intros; subst; vm_compute; repeat constructor.
Qed.
Lemma answer_case : sent rc_connack [32; 3; 0; 0; 0] /\ chunks_ok [[32]; [3; 0; 0; 0; 64]] /\ is_varint [3] /\
  forall chk, read_answer chk [[32]; [3; 0; 0; 0; 64]; [2]] = GotPacket rc_connack [64] [[2]].
Proof.
  split; [exact connack_sent|]. split; [repeat constructor; discriminate|]. split.
  - exists [], 3. split; [reflexivity|]. split; [constructor|]. split; [reflexivity|vm_compute; discriminate].
  - intros chk. destruct chk; vm_compute; reflexivity.
Qed.
Lemma gentle_case : let xs := [TArrive [64; 2]; TPoll; TArrive [0; 7; 64; 2]; TPoll; TDrop; TPoll; TArrive [0; 8]; TPoll] in
  gentle (TReader [] []) xs /\ tokio_reads (TReader [] []) xs = ([rc_ack 7; rc_ack 8], Some (TReader [] [])).
Proof. cbv zeta. split; [cbn; repeat (split; [intros X; first [discriminate X|reflexivity]|]); exact I|vm_compute; reflexivity]. Qed.
(* the PUBLISH is interrupted before its payload: it is not delivered, and an acknowledgement that was never sent is *)
Lemma invented : sent rc_pub ([48; 8; 0; 1; 116; 0] ++ [64; 2; 0; 7]) /\
  tokio_reads (TReader [] []) [TArrive [48; 8; 0; 1; 116; 0]; TPoll; TDrop; TArrive [64; 2; 0; 7]; TPoll] = ([rc_ack 7], Some (TReader [] [])).
Proof. split; [exact pub_sent|vm_compute; reflexivity]. Qed.
(* the PUBACK is interrupted: run ends with an error *)
Lemma torn : sent (rc_ack 7) ([64; 2] ++ [0; 7]) /\
  tokio_reads (TReader [] []) [TArrive [64; 2]; TPoll; TDrop; TArrive [0; 7]; TPoll] = ([], None).
Proof. split; [apply ack_sent|vm_compute; reflexivity]. Qed.
Lemma stall_witness : exists ps bs chunks, Forall2 sent ps bs /\ chunks_ok chunks /\ concat chunks = concat bs /\ complete bs (len (concat chunks)) = 2%nat /\
  forall chk, length (fst (smol_reads chk [] chunks)) = 1%nat.
Proof.
  destruct stall_case as (H1 & H2 & H3 & H4). eexists _, _, _. split; [exact H1|]. split; [exact H2|]. split; [reflexivity|]. split; [exact H3|]. intros chk. now rewrite H4.
Qed.
Lemma panic_case : sent (rc_ack 7) [64; 2; 0; 7] /\ 2 < len [64; 2; 0; 7].
Proof. split; [apply ack_sent|vm_compute; reflexivity]. Qed.
Lemma invented_witness : exists p q pre t, sent p (pre ++ t) /\ p <> q /\
  tokio_reads (TReader [] []) [TArrive pre; TPoll; TDrop; TArrive t; TPoll] = ([q], Some (TReader [] [])).
Proof. destruct invented as [H1 H2]. exists rc_pub, (rc_ack 7), [48; 8; 0; 1; 116; 0], [64; 2; 0; 7]. split; [exact H1|]. split; [discriminate|exact H2]. Qed.
Lemma connack_panics chk a b : sent (PConnAck a) b -> exists c1 c2 c3, b = c1 ++ c2 ++ c3 /\ c1 <> [] /\ c2 <> [] /\ c3 <> [] /\
  read_answer chk [c1; c2; c3] = Broken Panic.
Proof.
  intros HS. apply (answer_panics chk _ b HS). destruct HS as (_ & _ & _ & body & HB & _ & _ & ->). destruct HB as (sec & (its & _ & _ & ->) & ->).
  unfold spec_section. set (n := len (spec_items its)). repeat first [rewrite len_app | rewrite (@len_cons N)].
  assert (forall n, 1 <= len (spec_varint n)) as HV.
  { intros m. unfold spec_varint. repeat match goal with |- context [if ?x then _ else _] => destruct x end; rewrite (@len_cons N); lia. }
  rewrite (@len_nil N). pose proof (HV n). match goal with |- context [len (spec_varint ?x)] => pose proof (HV x) end. lia.
Qed.
Lemma hangs : exists a b c1 c2, sent (PConnAck a) b /\ b = c1 ++ c2 /\ c1 <> [] /\ c2 <> [] /\ read_answer false [c1; c2] = Pending.
Proof.
  exists (ConnAck false RSuccess no_props), [32; 3; 0; 0; 0], [32; 3; 0; 0], [0]. split; [exact connack_sent|]. split; [reflexivity|]. do 2 (split; [discriminate|]). vm_compute. reflexivity.
Qed.
