(* Readers and writers of the primitive types against their MQTT 5 encoding *)
From Verif Require Import Base VarInt Prims Props Codes Packets SpecCodec BaseFacts Utf8Facts VarIntFacts.

Ltac lens := repeat (rewrite len_app || rewrite (@len_cons N) || rewrite (@len_nil N)).
Ltac lens_in H := repeat (rewrite len_app in H || rewrite (@len_cons N) in H || rewrite (@len_nil N) in H).

Lemma be16_spec n : n < 65536 -> be16 n = spec_u16 n.
Proof. intros H. unfold be16, spec_u16. replace (n / 256 mod 256) with (n / 256) by lia. reflexivity. Qed.
Lemma be32_spec n : n < 4294967296 -> be32 n = spec_u32 n.
Proof. intros H. unfold be32, spec_u32. replace (n / 16777216 mod 256) with (n / 16777216) by lia. reflexivity. Qed.
Lemma be8_spec n : n < 256 -> be8 n = [n].
Proof. intros H. unfold be8. replace (n mod 256) with n by lia. reflexivity. Qed.

Lemma spec_u16_len n : len (spec_u16 n) = 2.
Proof. reflexivity. Qed.
Lemma spec_u32_len n : len (spec_u32 n) = 4.
Proof. reflexivity. Qed.
Lemma spec_data_len s : len (spec_data s) = 2 + len s.
Proof. unfold spec_data. now rewrite len_app. Qed.
Lemma spec_u16_bytes n : n < 65536 -> all_bytes (spec_u16 n).
Proof. intros H. repeat constructor; unfold is_byte; lia. Qed.

Lemma get_u16_ok n r : n < 65536 -> get_u16 (spec_u16 n ++ r) = Ok (n, r).
Proof. intros H. unfold spec_u16. cbn [app get_u16]. replace (n / 256 * 256 + n mod 256) with n by lia. reflexivity. Qed.
Lemma get_u32_ok n r : n < 4294967296 -> get_u32 (spec_u32 n ++ r) = Ok (n, r).
Proof. intros H. unfold spec_u32. cbn [app get_u32].
  replace (((n / 16777216 * 256 + n / 65536 mod 256) * 256 + n / 256 mod 256) * 256 + n mod 256) with n by lia. reflexivity. Qed.
Lemma read_u8_ok n r : read_u8 (n :: r) = Ok (n, r).
Proof. unfold read_u8. rewrite len_cons. now replace (1 + len r <? 1) with false by lia. Qed.
Lemma read_u16_ok n r : n < 65536 -> read_u16 (spec_u16 n ++ r) = Ok (n, r).
Proof.
  intros H. unfold read_u16. rewrite len_app, spec_u16_len.
  replace (2 + len r <? 2) with false by lia. now apply get_u16_ok.
Qed.
Lemma read_u32_ok n r : n < 4294967296 -> read_u32 (spec_u32 n ++ r) = Ok (n, r).
Proof.
  intros H. unfold read_u32. rewrite len_app, spec_u32_len.
  replace (4 + len r <? 4) with false by lia. now apply get_u32_ok.
Qed.
Lemma aread_u8_ok n r : aread_u8 (n :: r) = AOk n 1 r.
Proof. reflexivity. Qed.
Lemma aread_u16_ok n r : n < 65536 -> aread_u16 (spec_u16 n ++ r) = AOk n 2 r.
Proof. intros H. unfold spec_u16. cbn [app aread_u16]. replace (n / 256 * 256 + n mod 256) with n by lia. reflexivity. Qed.
Lemma aread_u32_ok n r : n < 4294967296 -> aread_u32 (spec_u32 n ++ r) = AOk n 4 r.
Proof. intros H. unfold spec_u32. cbn [app aread_u32].
  replace (((n / 16777216 * 256 + n / 65536 mod 256) * 256 + n / 256 mod 256) * 256 + n mod 256) with n by lia. reflexivity. Qed.
Lemma aread_exact_ok a n r : n = len a -> aread_exact n (a ++ r) = AOk a n r.
Proof.
  intros H. unfold aread_exact. rewrite len_app.
  replace (len a + len r <? n) with false by lia. now rewrite take_app, drop_app.
Qed.

Lemma read_bin_ok d r : len d <= 65535 -> read_bin (spec_data d ++ r) = Ok (d, r).
Proof.
  intros H. unfold read_bin. rewrite len_app, spec_data_len.
  replace (2 + len d + len r <? 2) with false by lia.
  unfold spec_data. rewrite <- app_assoc, get_u16_ok by lia. cbn [bind].
  rewrite len_app. replace (len d + len r <? len d) with false by lia.
  now rewrite take_app, drop_app.
Qed.
Lemma aread_bin_ok d r : len d <= 65535 -> aread_bin (spec_data d ++ r) = AOk d (len (spec_data d)) r.
Proof.
  intros H. unfold aread_bin. rewrite spec_data_len. unfold spec_data.
  rewrite <- app_assoc, aread_u16_ok by lia. cbn [abind].
  rewrite aread_exact_ok by reflexivity. reflexivity.
Qed.
Lemma read_str_ok d r : str_ok d -> read_str (spec_data d ++ r) = Ok (d, r).
Proof. intros H. unfold read_str. rewrite read_bin_ok by apply H. cbn [bind]. now rewrite str_ok_valid. Qed.
Lemma aread_str_ok d r : str_ok d -> aread_str (spec_data d ++ r) = AOk d (len (spec_data d)) r.
Proof. intros H. unfold aread_str. rewrite aread_bin_ok by apply H. cbn [abind]. now rewrite str_ok_valid. Qed.

Lemma write_bin_spec d : len d <= 65535 -> write_bin d = w_put (spec_data d).
Proof.
  intros H. unfold write_bin, spec_data. replace (len d mod 65536) with (len d) by lia.
  now rewrite be16_spec by lia.
Qed.
Lemma write_str_spec d : len d <= 65535 -> write_str d = w_put (spec_data d).
Proof. exact (write_bin_spec d). Qed.
Lemma write_qos_spec q : write_qos q = w_put [spec_qos q].
Proof. destruct q; reflexivity. Qed.
Lemma write_bool_spec b : write_bool b = w_put [spec_bit b].
Proof. destruct b; reflexivity. Qed.

Lemma read_bool_ok b r : read_bool (spec_bit b :: r) = Ok (b, r).
Proof.
  unfold read_bool. rewrite len_cons. replace (1 + len r <? 1) with false by lia.
  now destruct b.
Qed.
Lemma aread_bool_ok b r : aread_bool (spec_bit b :: r) = AOk b 1 r.
Proof. now destruct b. Qed.
Lemma read_qos_ok q r : read_qos (spec_qos q :: r) = Ok (q, r).
Proof.
  unfold read_qos. rewrite len_cons. replace (1 + len r <? 1) with false by lia.
  now destruct q.
Qed.
Lemma aread_qos_ok q r : aread_qos (spec_qos q :: r) = AOk q 1 r.
Proof. now destruct q. Qed.

Lemma read_ptype_ok t r : read_ptype (spec_id t :: r) = Ok (t, r).
Proof.
  unfold read_ptype. rewrite len_cons. replace (1 + len r <? 1) with false by lia.
  now destruct t.
Qed.
Lemma aread_ptype_ok t r : aread_ptype (spec_id t :: r) = AOk t 1 r.
Proof. now destruct t. Qed.
Lemma write_ptype_spec t : write_ptype t = w_put [spec_id t].
Proof. now destruct t. Qed.

Lemma rc_spec c : rc_to_u8 c = spec_rc c.
Proof. now destruct c. Qed.
Lemma rc_from_u8_ok tbl c : NoDup (map spec_rc tbl) -> In c tbl -> rc_from_u8 tbl (spec_rc c) = Ok c.
Proof.
  induction tbl as [|x tbl IH]; [easy|]. cbn [map rc_from_u8]. rewrite (rc_spec x). intros ND [->|Hin].
  - now rewrite N.eqb_refl.
  - inversion ND; subst. destruct (spec_rc c =? spec_rc x) eqn:E; [|auto].
    apply N.eqb_eq in E. exfalso. apply H1. rewrite <- E. now apply in_map.
Qed.
Lemma read_rc_ok tbl c r : NoDup (map spec_rc tbl) -> In c tbl -> read_rc tbl (spec_rc c :: r) = Ok (c, r).
Proof.
  intros ND Hin. unfold read_rc. rewrite len_cons. replace (1 + len r <? 1) with false by lia.
  cbn [get_u8 bind]. now rewrite rc_from_u8_ok.
Qed.
Lemma aread_rc_ok tbl c r : NoDup (map spec_rc tbl) -> In c tbl -> aread_rc tbl (spec_rc c :: r) = AOk c 1 r.
Proof. intros ND Hin. unfold aread_rc. cbn [aread_u8 abind]. now rewrite rc_from_u8_ok. Qed.

(* values by kind *)
Definition has_kind (v : pval) (k : vkind) : Prop :=
  match v, k with
  | V8 _, K8 | V16 _, K16 | V32 _, K32 | VVar _, KVar | VStr _, KStr | VBin _, KBin
  | VQos _, KQos | VBool _, KBool | VPair _ _, KPair => True
  | _, _ => False
  end.

Lemma read_val_ok u k v r : has_kind v k -> val_ok v -> read_val u k (spec_val v ++ r) = Ok (v, r).
Proof.
  destruct v, k; cbn [has_kind val_ok]; try tauto; intros _ H; cbn [read_val spec_val].
  - destruct u; [reflexivity|]. cbn [app]. now rewrite read_u8_ok.
  - destruct u; [rewrite get_u16_ok|rewrite read_u16_ok]; auto.
  - destruct u; [rewrite get_u32_ok|rewrite read_u32_ok]; auto.
  - now rewrite read_varint_ok.
  - now rewrite read_str_ok.
  - destruct H. now rewrite read_bin_ok.
  - cbn [app]. now rewrite read_qos_ok.
  - cbn [app]. now rewrite read_bool_ok.
  - destruct H. rewrite <- app_assoc, read_str_ok by assumption. cbn [bind]. now rewrite read_str_ok.
Qed.
Lemma aread_val_ok k v r : has_kind v k -> val_ok v -> aread_val k (spec_val v ++ r) = AOk v (len (spec_val v)) r.
Proof.
  destruct v, k; cbn [has_kind val_ok]; try tauto; intros _ H; cbn [aread_val spec_val].
  - now rewrite aread_u16_ok.
  - now rewrite aread_u32_ok.
  - now rewrite aread_varint_ok.
  - now rewrite aread_str_ok.
  - destruct H. now rewrite aread_bin_ok.
  - cbn [app]. now rewrite aread_qos_ok.
  - cbn [app]. now rewrite aread_bool_ok.
  - destruct H. rewrite <- app_assoc, aread_str_ok by assumption. cbn [abind].
    rewrite aread_str_ok by assumption. cbn [abind]. now rewrite len_app.
Qed.
Lemma write_val_spec v : val_ok v -> write_val v = w_put (spec_val v).
Proof.
  destruct v; cbn [val_ok write_val spec_val]; intros H.
  - now rewrite be8_spec.
  - now rewrite be16_spec.
  - now rewrite be32_spec.
  - now apply write_varint_spec.
  - destruct H as [_ H]. now apply write_str_spec.
  - destruct H. now apply write_bin_spec.
  - apply write_qos_spec.
  - apply write_bool_spec.
  - destruct H as [[_ H1] [_ H2]]. now rewrite !write_str_spec, w_seq_put.
Qed.
Lemma awrite_val_spec v : val_ok v -> awrite_val v = w_put (spec_val v).
Proof.
  intros H. destruct v; cbn [awrite_val]; try exact (write_val_spec _ H).
  now apply awrite_varint_spec.
Qed.
Lemma val_len_spec v : val_ok v -> val_len v = len (spec_val v).
Proof.
  destruct v; cbn [val_ok val_len spec_val]; intros H; try reflexivity.
  - now rewrite spec_varint_len.
  - rewrite spec_data_len. unfold str_len. lia.
  - rewrite spec_data_len. unfold bin_len. lia.
  - rewrite len_app, !spec_data_len. unfold str_len. lia.
Qed.
