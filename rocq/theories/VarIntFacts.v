(* Facts about variable byte integers *)
From Verif Require Import Base VarInt BaseFacts Prims Props Codes Packets SpecCodec.

Lemma lor128 x : x < 128 -> N.lor x 128 = 128 + x.
Proof.
  intros H. apply N.eqb_eq. revert x H.
  apply (sweep (fun x => N.lor x 128 =? 128 + x) 128). vm_compute. reflexivity.
Qed.
Lemma land127 x : N.land x 127 = x mod 128.
Proof. change 127 with (N.ones 7). now rewrite N.land_ones. Qed.
Lemma land128_low x : x < 128 -> N.land x 128 = 0.
Proof.
  intros H. apply N.eqb_eq. revert x H.
  apply (sweep (fun x => N.land x 128 =? 0) 128). vm_compute. reflexivity.
Qed.
Lemma land128_high x : 128 <= x -> x < 256 -> (N.land x 128 =? 0) = false.
Proof.
  intros H1 H2.
  assert (H : implb (128 <=? x) (negb (N.land x 128 =? 0)) = true).
  { revert x H2 H1. intros x H2 _. revert x H2.
    apply (sweep (fun x => implb (128 <=? x) (negb (N.land x 128 =? 0))) 256). vm_compute. reflexivity. }
  destruct (N.land x 128 =? 0); [|reflexivity].
  assert (E : (128 <=? x) = true) by lia. rewrite E in H. discriminate.
Qed.

Lemma write_varint_spec n : n <= MAXVAR -> write_varint n = w_put (spec_varint n).
Proof.
  unfold MAXVAR. intros H. unfold write_varint, spec_varint.
  replace (268435455 <? n) with false by lia.
  cbn [write_varint_loop].
  assert (M : forall x, x mod 128 < 128) by (intros; apply N.mod_lt; lia).
  rewrite !(lor128 _ (M _)).
  destruct (n <? 128) eqn:E1.
  { replace (n / 128 =? 0) with true by lia. replace (0 <? n / 128) with false by lia.
    now replace (n mod 128) with n by lia. }
  replace (n / 128 =? 0) with false by lia. replace (0 <? n / 128) with true by lia.
  destruct (n <? 128 * 128) eqn:E2.
  { replace (n / 128 / 128 =? 0) with true by lia. replace (0 <? n / 128 / 128) with false by lia.
    rewrite w_seq_put. cbn [app]. now replace ((n / 128) mod 128) with (n / 128) by lia. }
  replace (n / 128 / 128 =? 0) with false by lia. replace (0 <? n / 128 / 128) with true by lia.
  destruct (n <? 128 * 128 * 128) eqn:E3.
  { replace (n / 128 / 128 / 128 =? 0) with true by lia.
    replace (0 <? n / 128 / 128 / 128) with false by lia.
    rewrite !w_seq_put. cbn [app].
    now replace ((n / 128 / 128) mod 128) with (n / 128 / 128) by lia. }
  replace (n / 128 / 128 / 128 =? 0) with false by lia.
  replace (0 <? n / 128 / 128 / 128) with true by lia.
  replace (n / 128 / 128 / 128 / 128 =? 0) with true by lia.
  replace (0 <? n / 128 / 128 / 128 / 128) with false by lia.
  rewrite !w_seq_put. cbn [app].
  now replace ((n / 128 / 128 / 128) mod 128) with (n / 128 / 128 / 128) by lia.
Qed.

Lemma write_varint_over n : MAXVAR < n -> write_varint n = w_fail (VariableIntegerOverflow n).
Proof. unfold MAXVAR, write_varint. intros H. now replace (268435455 <? n) with true by lia. Qed.

Lemma awrite_varint_spec n : n <= MAXVAR -> awrite_varint n = w_put (spec_varint n).
Proof.
  unfold MAXVAR. intros H. unfold awrite_varint, spec_varint.
  replace (268435455 <? n) with false by lia.
  cbn [awrite_varint_loop].
  assert (M : forall x, x mod 128 < 128) by (intros; apply N.mod_lt; lia).
  rewrite !(lor128 _ (M _)).
  destruct (n <? 128) eqn:E1.
  { replace (n / 128 =? 0) with true by lia. replace (0 <? n / 128) with false by lia.
    now replace (n mod 128) with n by lia. }
  replace (n / 128 =? 0) with false by lia. replace (0 <? n / 128) with true by lia.
  destruct (n <? 128 * 128) eqn:E2.
  { replace (n / 128 / 128 =? 0) with true by lia. replace (0 <? n / 128 / 128) with false by lia.
    now replace ((n / 128) mod 128) with (n / 128) by lia. }
  replace (n / 128 / 128 =? 0) with false by lia. replace (0 <? n / 128 / 128) with true by lia.
  destruct (n <? 128 * 128 * 128) eqn:E3.
  { replace (n / 128 / 128 / 128 =? 0) with true by lia.
    replace (0 <? n / 128 / 128 / 128) with false by lia.
    now replace ((n / 128 / 128) mod 128) with (n / 128 / 128) by lia. }
  replace (n / 128 / 128 / 128 =? 0) with false by lia.
  replace (0 <? n / 128 / 128 / 128) with true by lia.
  replace (n / 128 / 128 / 128 / 128 =? 0) with true by lia.
  replace (0 <? n / 128 / 128 / 128 / 128) with false by lia.
  now replace ((n / 128 / 128 / 128) mod 128) with (n / 128 / 128 / 128) by lia.
Qed.

Lemma awrite_varint_over n : MAXVAR < n -> awrite_varint n = w_fail (VariableIntegerOverflow n).
Proof. unfold MAXVAR, awrite_varint. intros H. now replace (268435455 <? n) with true by lia. Qed.

Lemma spec_varint_len n : len (spec_varint n) = variable_integer_len n.
Proof.
  unfold spec_varint, variable_integer_len.
  destruct (n <? 128) eqn:E1; [|destruct (n <? 128 * 128) eqn:E2; [|destruct (n <? 128 * 128 * 128) eqn:E3]];
    destruct (2097152 <=? n) eqn:F1; try lia; try reflexivity;
    destruct (16384 <=? n) eqn:F2; try lia; try reflexivity;
    destruct (128 <=? n) eqn:F3; try lia; reflexivity.
Qed.

Lemma spec_varint_shape n : n <= MAXVAR ->
  exists init last, spec_varint n = init ++ [last] /\ Forall (fun b => 128 <= b < 256) init /\
    last < 128 /\ (length init < 4)%nat /\ groups_value (init ++ [last]) = n.
Proof.
  unfold MAXVAR, spec_varint. intros H.
  destruct (n <? 128) eqn:E1; [|destruct (n <? 128 * 128) eqn:E2; [|destruct (n <? 128 * 128 * 128) eqn:E3]].
  - exists [], n. cbn. repeat split; try constructor; lia.
  - exists [128 + n mod 128], (n / 128). cbn. repeat split; try lia.
    repeat constructor; lia.
  - exists [128 + n mod 128; 128 + n / 128 mod 128], (n / 128 / 128). cbn. repeat split; try lia.
    repeat constructor; lia.
  - exists [128 + n mod 128; 128 + n / 128 mod 128; 128 + n / 128 / 128 mod 128], (n / 128 / 128 / 128).
    cbn. repeat split; try lia. repeat constructor; lia.
Qed.

Lemma read_varint_loop_spec init : forall k last i integer length rest,
  Forall (fun b => 128 <= b < 256) init -> last < 128 -> (List.length init < k)%nat ->
  read_varint_loop k i integer length (init ++ last :: rest) =
  ViOk (integer + groups_value (init ++ [last]) * 2 ^ (7 * i)) (length + len init + 1) rest.
Proof.
  induction init as [|b init IH]; intros k last i integer length rest HF Hl Hk.
  - destruct k; [cbn in Hk; lia|]. cbn [app read_varint_loop].
    rewrite (land128_low _ Hl), N.eqb_refl, land127, N.shiftl_mul_pow2. cbn [app groups_value].
    rewrite (@len_nil N). f_equal; [|lia]. f_equal. f_equal. lia.
  - destruct k; [cbn in Hk; lia|]. inversion HF as [|? ? Hb HF']; subst.
    cbn [app read_varint_loop]. rewrite land128_high by lia.
    rewrite IH; [|assumption..|cbn in Hk; lia].
    rewrite land127, N.shiftl_mul_pow2. cbn [groups_value app]. rewrite len_cons.
    f_equal; [|lia].
    replace (7 * (i + 1)) with (7 * i + 7) by lia. rewrite N.pow_add_r.
    change (2 ^ 7) with 128. lia.
Qed.

Lemma read_varint_loop_ok n rest : n <= MAXVAR ->
  read_varint_loop 4 0 0 0 (spec_varint n ++ rest) = ViOk n (len (spec_varint n)) rest.
Proof.
  intros H. destruct (spec_varint_shape n H) as (init & last & E & HF & Hl & Hk & Hv).
  rewrite E, <- app_assoc. cbn [app].
  rewrite (read_varint_loop_spec init 4 last 0 0 0 rest HF Hl Hk).
  rewrite Hv, len_app, (@len_cons N), (@len_nil N). change (2 ^ (7 * 0)) with 1. f_equal; lia.
Qed.

Lemma read_varint_ok n rest : n <= MAXVAR ->
  read_varint (spec_varint n ++ rest) = Ok (n, len (spec_varint n), rest).
Proof. intros H. unfold read_varint. now rewrite read_varint_loop_ok. Qed.
Lemma aread_varint_ok n rest : n <= MAXVAR ->
  aread_varint (spec_varint n ++ rest) = AOk n (len (spec_varint n)) rest.
Proof. intros H. unfold aread_varint. now rewrite read_varint_loop_ok. Qed.
Lemma read_rem_len_ok n rest : n <= MAXVAR ->
  read_rem_len (spec_varint n ++ rest) = RbOk (n, len (spec_varint n)).
Proof. intros H. unfold read_rem_len. now rewrite read_varint_loop_ok. Qed.

Lemma spec_varint_bytes n : n <= MAXVAR -> all_bytes (spec_varint n).
Proof.
  intros H. destruct (spec_varint_shape n H) as (init & last & E & HF & Hl & _).
  rewrite E. apply all_bytes_app. split.
  - eapply Forall_impl; [|exact HF]. unfold is_byte. cbn. lia.
  - constructor; [unfold is_byte; lia|constructor].
Qed.

Lemma variable_integer_len_bounds n : 1 <= variable_integer_len n <= 4.
Proof.
  unfold variable_integer_len.
  destruct (2097152 <=? n); [lia|]. destruct (16384 <=? n); [lia|]. destruct (128 <=? n); lia.
Qed.

(* every input is one of three kinds *)
Lemma varint_cases k : forall buf, all_bytes buf -> (0 < k)%nat ->
  (exists init last rest, buf = init ++ last :: rest /\ Forall (fun b => 128 <= b < 256) init /\
     last < 128 /\ (length init < k)%nat) \/
  (Forall (fun b => 128 <= b < 256) buf /\ (length buf < k)%nat) \/
  (exists init rest, buf = init ++ rest /\ Forall (fun b => 128 <= b < 256) init /\ length init = k).
Proof.
  induction k as [|k IH]; intros buf HB Hk; [lia|].
  destruct buf as [|b buf].
  - right; left. split; [constructor|cbn; lia].
  - inversion HB as [|? ? Hb HB']; subst. unfold is_byte in Hb.
    destruct (b <? 128) eqn:E.
    + left. exists [], b, buf. cbn. repeat split; [constructor|lia|lia].
    + destruct k as [|k].
      * right; right. exists [b], buf. cbn. repeat split. constructor; [lia|constructor].
      * destruct (IH buf HB' ltac:(lia)) as [(i & l & r & -> & HF & Hl & Hn)|[[HF Hn]|(i & r & -> & HF & Hn)]].
        -- left. exists (b :: i), l, r. cbn. repeat split; [constructor; [lia|assumption]|lia|lia].
        -- right; left. split; [constructor; [lia|assumption]|cbn; lia].
        -- right; right. exists (b :: i), r. cbn. repeat split; [constructor; [lia|assumption]|lia].
Qed.

Lemma read_varint_loop_short : forall k buf i integer length,
  Forall (fun b => 128 <= b < 256) buf -> (List.length buf < k)%nat ->
  read_varint_loop k i integer length buf = ViShort.
Proof.
  induction k as [|k IH]; intros buf i integer length HF Hk; [lia|].
  destruct buf as [|b buf]; [reflexivity|]. inversion HF as [|? ? Hb HF']; subst.
  cbn [read_varint_loop]. rewrite land128_high by lia. apply IH; [assumption|cbn in Hk; lia].
Qed.

Lemma read_varint_loop_long : forall k init i integer length rest,
  Forall (fun b => 128 <= b < 256) init -> List.length init = k ->
  read_varint_loop k i integer length (init ++ rest) = ViMalformed.
Proof.
  induction k as [|k IH]; intros init i integer length rest HF Hk; [reflexivity|].
  destruct init as [|b init]; [discriminate|]. inversion HF as [|? ? Hb HF']; subst.
  cbn [app read_varint_loop]. rewrite land128_high by lia. apply IH; [assumption|cbn in Hk; lia].
Qed.

Lemma groups_value_bound l : groups_value l < 128 ^ len l.
Proof.
  induction l as [|b l IH]; cbn [groups_value]; [rewrite (@len_nil N); reflexivity|].
  rewrite len_cons, N.pow_add_r, N.pow_1_r.
  assert (b mod 128 < 128) by (apply N.mod_lt; lia). nia.
Qed.

(* What the common loop answers on an arbitrary byte string *)
Lemma read_varint_loop_classify buf : all_bytes buf ->
  match read_varint_loop 4 0 0 0 buf with
  | ViOk v n rest => exists enc, is_varint enc /\ buf = enc ++ rest /\ n = len enc /\
                                 v = groups_value enc /\ v <= MAXVAR
  | ViShort => Forall (fun b => 128 <= b) buf /\ len buf < 4
  | ViMalformed => exists init rest, buf = init ++ rest /\ len init = 4 /\ Forall (fun b => 128 <= b) init
  end.
Proof.
  intros HB. destruct (varint_cases 4 buf HB ltac:(lia))
    as [(i & l & r & -> & HF & Hl & Hn)|[[HF Hn]|(i & r & -> & HF & Hn)]].
  - rewrite (read_varint_loop_spec i 4 l 0 0 0 r HF Hl Hn).
    assert (L : len (i ++ [l]) = len i + 1) by (rewrite len_app; reflexivity).
    assert (L4 : len (i ++ [l]) <= 4) by (rewrite L; unfold len; lia).
    exists (i ++ [l]). repeat split.
    + exists i, l. auto.
    + now rewrite <- app_assoc.
    + lia.
    + change (2 ^ (7 * 0)) with 1. lia.
    + change (2 ^ (7 * 0)) with 1. rewrite N.mul_1_r, N.add_0_l.
      pose proof (groups_value_bound (i ++ [l])) as HG.
      assert (128 ^ len (i ++ [l]) <= 128 ^ 4) by (apply N.pow_le_mono_r; lia).
      change (128 ^ 4) with 268435456 in *. unfold MAXVAR. lia.
  - rewrite (read_varint_loop_short 4 buf 0 0 0 HF Hn). split; [|unfold len; lia].
    eapply Forall_impl; [|exact HF]. cbn; lia.
  - rewrite (read_varint_loop_long 4 i 0 0 0 r HF Hn). exists i, r. split; [reflexivity|].
    split; [unfold len; lia|]. eapply Forall_impl; [|exact HF]. cbn; lia.
Qed.

(* the shortest variable byte integer with a given value *)
Lemma spec_varint_minimal n enc : n <= MAXVAR -> is_varint enc -> groups_value enc = n ->
  len (spec_varint n) <= len enc.
Proof.
  intros Hn (init & last & -> & HF & Hl & H4) Hv.
  pose proof (groups_value_bound (init ++ [last])) as HG. rewrite Hv in HG.
  rewrite spec_varint_len. unfold variable_integer_len.
  assert (L : len (init ++ [last]) = len init + 1) by (rewrite len_app; reflexivity).
  set (k := len (init ++ [last])) in *.
  assert (C : k = 1 \/ k = 2 \/ k = 3 \/ k = 4) by lia.
  destruct C as [C|[C|[C|C]]]; rewrite C in *;
    [change (128 ^ 1) with 128 in HG|change (128 ^ 2) with 16384 in HG|change (128 ^ 3) with 2097152 in HG|];
    destruct (2097152 <=? n) eqn:F1; try lia; destruct (16384 <=? n) eqn:F2; try lia;
    destruct (128 <=? n) eqn:F3; lia.
Qed.

Lemma spec_varint_is_varint n : n <= MAXVAR -> is_varint (spec_varint n) /\ groups_value (spec_varint n) = n.
Proof.
  intros H. destruct (spec_varint_shape n H) as (init & last & E & HF & Hl & Hk & Hv).
  rewrite E. split; [|assumption]. exists init, last. repeat split; auto.
  rewrite len_app. unfold len. cbn [length]. lia.
Qed.
