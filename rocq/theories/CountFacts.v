(* The number the stream readers return is the number of bytes they have consumed *)
From Verif Require Import Base VarInt Prims Props Codes Packets SpecCodec BaseFacts VarIntFacts FrameFacts GoodFacts Check.

Lemma abind_ok {A B} (m : ares A) (k : A -> N -> bytes -> ares B) b n r :
  abind m k = AOk b n r -> exists a n' r', m = AOk a n' r' /\ k a n' r' = AOk b n r.
Proof. destruct m; cbn; intros H; try discriminate. eauto. Qed.
Ltac ainv H := let a := fresh "a" in let n := fresh "n" in let s := fresh "s" in let E := fresh "E" in
  apply abind_ok in H as (a & n & s & E & H).
Ltac ok H := injection H as <- <- <-.

Lemma count_u8 s a n r : aread_u8 s = AOk a n r -> n = 1 /\ len s = n + len r.
Proof. destruct s as [|x s]; intros H; [discriminate|]. cbn in H. injection H as <- <- <-. rewrite (@len_cons N). lia. Qed.
Lemma count_u16 s a n r : aread_u16 s = AOk a n r -> n = 2 /\ len s = n + len r.
Proof. destruct s as [|x [|y s]]; intros H; try discriminate. cbn in H. injection H as <- <- <-. rewrite !(@len_cons N). lia. Qed.
Lemma count_u32 s a n r : aread_u32 s = AOk a n r -> n = 4 /\ len s = n + len r.
Proof.
  destruct s as [|x [|y [|z [|u s]]]]; intros H; try discriminate. cbn in H. injection H as <- <- <-. rewrite !(@len_cons N). lia.
Qed.
Lemma count_exact k s a n r : aread_exact k s = AOk a n r -> n = k /\ len s = n + len r.
Proof.
  unfold aread_exact. destruct (len s <? k) eqn:E; [discriminate|]. intros H. injection H as <- <- <-.
  rewrite len_drop. lia.
Qed.
Ltac cnt1 := match goal with
  | H : aread_u8 _ = AOk _ _ _ |- _ => apply count_u8 in H as []
  | H : aread_u16 _ = AOk _ _ _ |- _ => apply count_u16 in H as []
  | H : aread_u32 _ = AOk _ _ _ |- _ => apply count_u32 in H as []
  | H : aread_exact _ _ = AOk _ _ _ |- _ => apply count_exact in H as []
  end.
Lemma count_bin s a n r : aread_bin s = AOk a n r -> len s = n + len r.
Proof. unfold aread_bin. intros H. ainv H. ainv H. ok H. repeat cnt1. subst. lia. Qed.
Lemma count_str s a n r : aread_str s = AOk a n r -> len s = n + len r.
Proof. unfold aread_str. intros H. ainv H. apply count_bin in E. destruct (utf8_valid a0); [|discriminate]. ok H. lia. Qed.
Lemma count_bool s a n r : aread_bool s = AOk a n r -> len s = n + len r.
Proof. unfold aread_bool. intros H. ainv H. cnt1. destruct (a0 =? 0); [|destruct (a0 =? 1); [|discriminate]]; ok H; lia. Qed.
Lemma count_qos s a n r : aread_qos s = AOk a n r -> len s = n + len r.
Proof. unfold aread_qos. intros H. ainv H. cnt1. destruct (qos_from_u8 a0); try discriminate. ok H. lia. Qed.
Lemma count_rc tbl s a n r : aread_rc tbl s = AOk a n r -> n = 1 /\ len s = n + len r.
Proof. unfold aread_rc. intros H. ainv H. cnt1. destruct (rc_from_u8 tbl a0); try discriminate. ok H. lia. Qed.
Lemma count_ptype s a n r : aread_ptype s = AOk a n r -> len s = n + len r.
Proof. unfold aread_ptype. intros H. ainv H. cnt1. destruct (ptype_from_u8 a0); try discriminate. ok H. lia. Qed.
Lemma count_varint_loop : forall k i v l s v' n r, read_varint_loop k i v l s = ViOk v' n r -> l + len s = n + len r.
Proof.
  induction k as [|k IH]; intros i v l s v' n r H; [discriminate|]. destruct s as [|x s]; [discriminate|]. cbn [read_varint_loop] in H.
  cbv zeta in H. destruct (N.land x 128 =? 0).
  - injection H as <- <- <-. rewrite (@len_cons N). lia.
  - apply IH in H. rewrite (@len_cons N). lia.
Qed.
Lemma count_varint s a n r : aread_varint s = AOk a n r -> len s = n + len r.
Proof.
  unfold aread_varint. destruct (read_varint_loop 4 0 0 0 s) eqn:E; intros H; try discriminate. apply count_varint_loop in E.
  ok H. lia.
Qed.
Ltac cnt2 := match goal with
  | _ => cnt1
  | H : aread_bin _ = AOk _ _ _ |- _ => apply count_bin in H
  | H : aread_str _ = AOk _ _ _ |- _ => apply count_str in H
  | H : aread_bool _ = AOk _ _ _ |- _ => apply count_bool in H
  | H : aread_qos _ = AOk _ _ _ |- _ => apply count_qos in H
  | H : aread_rc _ _ = AOk _ _ _ |- _ => apply count_rc in H as []
  | H : aread_ptype _ = AOk _ _ _ |- _ => apply count_ptype in H
  | H : aread_varint _ = AOk _ _ _ |- _ => apply count_varint in H
  end.
Lemma count_val k s a n r : aread_val k s = AOk a n r -> len s = n + len r.
Proof. unfold aread_val. intros H. destruct k; repeat ainv H; ok H; repeat cnt2; lia. Qed.
Lemma count_loop cfg : forall fuel p total m s a n r, aread_props_loop fuel cfg p total m s = AOk a n r -> total + len s = n + len r /\ n = m.
Proof.
  induction fuel as [|f IH]; intros p total m s a n r H; [discriminate|]. cbn [aread_props_loop] in H. ainv H.
  destruct (negb (declares cfg a0)); [discriminate|]. destruct (adup a0 p); [discriminate|]. ainv H. cbv zeta in H.
  apply count_val in E0. repeat cnt2. destruct (total + n0 + n1 =? m) eqn:T.
  - ok H. lia.
  - apply IH in H as []. lia.
Qed.
Lemma count_props cfg s a n r : aread_props cfg s = AOk a n r -> len s = n + len r.
Proof.
  unfold aread_props. intros H. ainv H. repeat cnt2. destruct (a0 =? 0).
  - ok H. lia.
  - ainv H. apply count_loop in E0 as []. ok H. lia.
Qed.
Ltac cnt := repeat match goal with
  | _ => cnt2
  | H : aread_props _ _ = AOk _ _ _ |- _ => apply count_props in H
  end.

Lemma count_version s a n r : aread_protocol_version s = AOk a n r -> n = 1 /\ len s = n + len r.
Proof. unfold aread_protocol_version. intros H. ainv H. cnt. destruct (a0 =? 5); [ok H; lia|]. destruct (a0 =? 4), (a0 =? 3); discriminate. Qed.
Lemma count_cflags s a n r : aread_cflags s = AOk a n r -> n = 1 /\ len s = n + len r.
Proof. unfold aread_cflags. intros H. ainv H. cnt. destruct (cflags_from_u8 a0); try discriminate. ok H. lia. Qed.
Lemma count_sopts s a n r : aread_sopts s = AOk a n r -> n = 1 /\ len s = n + len r.
Proof. unfold aread_sopts. intros H. ainv H. cnt. destruct (sopts_from_u8 a0); try discriminate. ok H. lia. Qed.
Lemma count_will q b s a n r : aread_will q b s = AOk a n r -> len s = n + len r.
Proof. unfold aread_will. intros H. repeat ainv H. ok H. cnt. lia. Qed.
Lemma count_opt_str b s a n r : aread_opt_str b s = AOk a n r -> len s = n + len r.
Proof. unfold aread_opt_str. intros H. destruct b; [ainv H|]; ok H; cnt; lia. Qed.
Lemma count_connect s a n r : aread_connect s = AOk a n r -> len s = n + len r.
Proof.
  unfold aread_connect. intros H. ainv H. destruct (negb _) in H; [discriminate|]. do 8 ainv H. ok H.
  apply count_version in E0 as []. apply count_cflags in E1 as []. apply count_opt_str in E6, E7.
  assert (len s5 = n6 + len s6).
  { destruct (cf_will a2).
    - apply abind_ok in E5 as (w & k & s' & EW & E5). apply count_will in EW. ok E5. lia.
    - ok E5. lia. }
  cnt. subst. lia.
Qed.
Lemma count_connack s a n r : aread_connack s = AOk a n r -> len s = n + len r.
Proof.
  unfold aread_connack, aread_caflags. intros H. do 3 ainv H. ok H. ainv E. ok E. cnt. lia.
Qed.
Lemma count_publish f rem s a n r : aread_publish f rem s = AOk a n r -> len s = n + len r /\ n = rem.
Proof.
  unfold aread_publish. destruct (qos_from_u8 _); intros H; try discriminate. do 3 ainv H. cbv zeta in H.
  destruct (rem <? n0 + n1 + n2) eqn:L; [discriminate|]. ainv H. ok H.
  assert (len s0 = n1 + len s1).
  { destruct (qos_eqb a0 AtMostOnce).
    - ok E0. lia.
    - ainv E0. cnt. ok E0. lia. }
  cnt. lia.
Qed.
Lemma count_puback rem s a n r : aread_puback rem s = AOk a n r -> len s = n + len r.
Proof.
  unfold aread_puback. intros H. destruct (rem <? 2); [discriminate|]. ainv H. destruct (rem =? 2).
  - ok H. cnt. lia.
  - do 2 ainv H. ok H. destruct (rem =? 3).
    + ok E1. cnt. lia.
    + cnt. lia.
Qed.
Lemma count_pubrec rem s a n r : aread_pubrec rem s = AOk a n r -> len s = n + len r.
Proof. unfold aread_pubrec. intros H. ainv H. destruct (rem =? 2); [|do 2 ainv H]; ok H; cnt; lia. Qed.
Lemma count_pubrel rem s a n r : aread_pubrel rem s = AOk a n r -> len s = n + len r.
Proof. unfold aread_pubrel. intros H. ainv H. destruct (rem =? 2); [|ainv H; destruct (rem =? 3); [|ainv H]]; ok H; cnt; lia. Qed.
Lemma count_pubcomp rem s a n r : aread_pubcomp rem s = AOk a n r -> len s = n + len r /\ n = rem.
Proof.
  unfold aread_pubcomp. intros H. ainv H. destruct (rem =? 2) eqn:R2.
  - ok H. cnt. lia.
  - destruct (rem <? 4); [discriminate|]. do 2 ainv H. cbv zeta in H. destruct (2 + n1 + n2 =? rem) eqn:L; [|discriminate].
    cbn in H. ok H. cnt. lia.
Qed.
Lemma count_sub_topics : forall fuel rem total s a n r, aread_sub_topics fuel rem total s = AOk a n r -> total + len s = n + len r.
Proof.
  induction fuel as [|f IH]; intros rem total s a n r H; [discriminate|]. cbn [aread_sub_topics] in H. do 2 ainv H. cbv zeta in H.
  apply count_sopts in E0 as []. destruct (total + (n0 + n1) <=? rem).
  - ok H. cnt. lia.
  - apply abind_ok in H as (w & k & s' & EW & H). apply IH in EW. ok H. cnt. lia.
Qed.
Lemma count_subscribe rem s a n r : aread_subscribe rem s = AOk a n r -> len s = n + len r.
Proof. unfold aread_subscribe. intros H. do 3 ainv H. ok H. apply count_sub_topics in E1. cnt. lia. Qed.
Lemma count_unsub_topics : forall fuel rem total s a n r, aread_unsub_topics fuel rem total s = AOk a n r -> total + len s = n + len r.
Proof.
  induction fuel as [|f IH]; intros rem total s a n r H; [discriminate|]. cbn [aread_unsub_topics] in H. ainv H. cbv zeta in H.
  destruct (rem <=? total + n0).
  - ok H. cnt. lia.
  - apply abind_ok in H as (w & k & s' & EW & H). apply IH in EW. ok H. cnt. lia.
Qed.
Lemma count_unsubscribe rem s a n r : aread_unsubscribe rem s = AOk a n r -> len s = n + len r.
Proof. unfold aread_unsubscribe. intros H. do 3 ainv H. ok H. apply count_unsub_topics in E1. cnt. lia. Qed.
Lemma count_codes_eq tbl : forall fuel rem total s a n r, aread_codes_eq fuel tbl rem total s = AOk a n r -> total + len s = n + len r /\ n = rem.
Proof.
  induction fuel as [|f IH]; intros rem total s a n r H; [discriminate|]. cbn [aread_codes_eq] in H.
  destruct (rem =? total) eqn:R.
  - ok H. lia.
  - do 2 ainv H. apply IH in E0 as []. ok H. cnt. lia.
Qed.
Lemma count_codes_ge tbl : forall fuel rem total s a n r, aread_codes_ge fuel tbl rem total s = AOk a n r -> total + len s = n + len r.
Proof.
  induction fuel as [|f IH]; intros rem total s a n r H; [discriminate|]. cbn [aread_codes_ge] in H.
  destruct (rem <=? total) eqn:R.
  - ok H. lia.
  - do 2 ainv H. apply IH in E0. ok H. cnt. lia.
Qed.
Lemma count_suback rem s a n r : aread_suback rem s = AOk a n r -> len s = n + len r /\ n = rem.
Proof. unfold aread_suback. intros H. do 3 ainv H. ok H. apply count_codes_eq in E1 as []. cnt. lia. Qed.
Lemma count_unsuback rem s a n r : aread_unsuback rem s = AOk a n r -> len s = n + len r.
Proof. unfold aread_unsuback. intros H. do 3 ainv H. ok H. apply count_codes_ge in E1. cnt. lia. Qed.
Lemma count_disconnect rem s a n r : aread_disconnect rem s = AOk a n r -> len s = n + len r.
Proof. unfold aread_disconnect. intros H. destruct (rem =? 0); [|do 2 ainv H]; ok H; cnt; lia. Qed.
Lemma count_auth s a n r : aread_auth s = AOk a n r -> len s = n + len r.
Proof. unfold aread_auth. intros H. do 2 ainv H. ok H. cnt. lia. Qed.

Lemma amap_ok {A B} (f : A -> B) m b n r : amap f m = AOk b n r -> exists a, m = AOk a n r /\ b = f a.
Proof. destruct m; cbn; intros H; try discriminate. ok H. eauto. Qed.
Lemma count_body h s p n r : aread_body h s = AOk p n r -> len s = n + len r /\
  (In (type_of p) [TPublish; TPubComp; TSubAck] -> n = fh_rem h).
Proof.
  intros H. unfold aread_body in H.
  destruct (fh_type h); try (ok H; split; [lia|cbn; intuition discriminate]); apply amap_ok in H as (a & H & ->).
  - split; [now apply count_connect in H|cbn; intuition discriminate].
  - split; [now apply count_connack in H|cbn; intuition discriminate].
  - apply count_publish in H as [? ?]. now split.
  - split; [now apply count_puback in H|cbn; intuition discriminate].
  - split; [now apply count_pubrec in H|cbn; intuition discriminate].
  - split; [now apply count_pubrel in H|cbn; intuition discriminate].
  - apply count_pubcomp in H as [? ?]. now split.
  - split; [now apply count_subscribe in H|cbn; intuition discriminate].
  - apply count_suback in H as [? ?]. now split.
  - split; [now apply count_unsubscribe in H|cbn; intuition discriminate].
  - split; [now apply count_unsuback in H|cbn; intuition discriminate].
  - split; [now apply count_disconnect in H|cbn; intuition discriminate].
  - split; [now apply count_auth in H|cbn; intuition discriminate].
Qed.

Lemma read_counts s p n r : all_bytes s -> aread_packet s = AOk p n r ->
  exists first enc body, s = first :: enc ++ body ++ r /\ is_varint enc /\ len body = n /\
    (In (type_of p) [TPublish; TPubComp; TSubAck] -> n = groups_value enc).
Proof.
  intros Hs H. pose proof H as H0. unfold aread_packet in H. apply abind_ok in H as (h & m & s1 & EH & HB).
  unfold aread_fixed_header in EH. destruct s as [|first s]; [discriminate|]. cbn [aread_u8 abind] in EH.
  inversion Hs as [|? ? Hf Hr]; subst.
  destruct (from_first_byte first) as [[t fl]|e|c]; try discriminate.
  apply abind_ok in EH as (rem & l & s2 & EV & EH). ok EH.
  unfold aread_varint in EV. pose proof (read_varint_loop_classify s Hr) as C.
  destruct (read_varint_loop 4 0 0 0 s) as [v k rest| |]; try discriminate. ok EV.
  destruct C as (enc & HV & -> & _ & -> & _).
  apply all_bytes_app in Hr as [_ Hr].
  pose proof (good_body (FH t fl (groups_value enc)) rest Hr) as G. unfold good_at in G. rewrite HB in G.
  destruct G as ((c & -> & _) & _). apply count_body in HB as [HL HE]. rewrite len_app in HL.
  exists first, enc, c. split; [reflexivity|]. split; [assumption|]. split; [lia|]. exact HE.
Qed.

(* Frames whose announced length differs from what their type's reader takes *)
Definition odd_frame (t : pkt_type) : bytes :=
  match t with
  | TConnect => [16; 14; 0; 4; 77; 81; 84; 84; 5; 0; 0; 0; 0; 0; 0; 9]
  | TConnAck => [32; 4; 0; 0; 0; 9]
  | TPubAck => [64; 5; 0; 7; 0; 0; 9]
  | TPubRec => [80; 5; 0; 7; 0; 0; 9]
  | TPubRel => [98; 5; 0; 7; 0; 0; 9]
  | TSubscribe => [130; 8; 0; 1; 0; 0; 1; 97; 0; 9]
  | TUnsubscribe => [162; 3; 0; 1; 0; 0; 1; 97]
  | TUnsubAck => [176; 1; 0; 1; 0]
  | TPingReq => [192; 1; 9]
  | TPingResp => [208; 1; 9]
  | TDisconnect => [224; 3; 0; 0; 9]
  | TAuth => [240; 3; 0; 0; 9]
  | _ => []
  end.
Lemma odd_frames ty : ~ In ty [TPublish; TPubComp; TSubAck] -> exists first rem t p n r,
  all_bytes (first :: rem :: t) /\ rem < 128 /\ len t = N.max n rem /\ aread_packet (first :: rem :: t) = AOk p n r /\ type_of p = ty /\ n <> rem.
Proof.
  intros H. remember (odd_frame ty) as f eqn:E. destruct ty; vm_compute in E;
    lazymatch type of E with
    | _ = ?a :: ?b :: ?t => exists a, b, t; do 3 eexists; split; [apply bytesb_ok; reflexivity|];
        split; [reflexivity|]; split; [|split; [vm_compute; reflexivity|split; [reflexivity|discriminate]]]; reflexivity
    | _ = [] => exfalso; apply H; cbn; auto
    end.
Qed.
Lemma stream_count s p n r : all_bytes s -> aread_packet s = AOk p n r ->
  exists first enc body, s = first :: enc ++ body ++ r /\ is_varint enc /\ len body = n /\
    (In (type_of p) [TPublish; TPubComp; TSubAck] -> is_frame (first :: enc ++ body)).
Proof.
  intros HS R. destruct (read_counts _ _ _ _ HS R) as (f & enc & body & E & V & L & C).
  exists f, enc, body. repeat (split; [assumption|]). intros T. exists f, enc, body. split; [reflexivity|].
  split; [assumption|]. rewrite L. now apply C.
Qed.
