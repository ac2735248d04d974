(* The string check of the model accepts exactly UTF-8 *)
From Verif Require Import Base Prims SpecCodec BaseFacts.

Ltac caseb := match goal with |- context [if ?x then _ else _] => let E := fresh "E" in destruct x eqn:E; [try lia|try lia] end.

Lemma div4096 c : c / 64 / 64 = c / 4096.
Proof. now rewrite N.div_div by discriminate. Qed.
Lemma div262144 c : c / 4096 / 64 = c / 262144.
Proof. now rewrite N.div_div by discriminate. Qed.

Lemma utf8_step c t : scalar c -> utf8_valid (utf8_encode c ++ t) = utf8_valid t.
Proof.
  unfold scalar, utf8_encode. intros H.
  destruct (N.ltb_spec c 0x80) as [H1|H1].
  { cbn [app utf8_valid]. now replace (c <=? 127) with true by lia. }
  destruct (N.ltb_spec c 0x800) as [H2|H2].
  { cbn [app utf8_valid]. unfold in_range. replace (0xC0 + c / 64 <=? 127) with false by lia.
    replace ((194 <=? 0xC0 + c / 64) && (0xC0 + c / 64 <=? 223)) with true by lia.
    now replace ((128 <=? 0x80 + c mod 64) && (0x80 + c mod 64 <=? 191)) with true by lia. }
  destruct (N.ltb_spec c 0x10000) as [H3|H3].
  { cbn [app utf8_valid]. unfold in_range.
    assert (R1 : c mod 64 < 64) by (apply N.mod_lt; discriminate). assert (R2 : c / 64 mod 64 < 64) by (apply N.mod_lt; discriminate).
    assert (Q1 : c = 64 * (c / 64) + c mod 64) by (apply N.div_mod; discriminate).
    assert (Q2 : c / 64 = 64 * (c / 4096) + c / 64 mod 64).
    { replace (c / 4096) with (c / 64 / 64) by apply div4096. apply N.div_mod; discriminate. }
    revert Q1 Q2 R1 R2. generalize (c mod 64). intros r1. generalize (c / 64 mod 64). intros r2.
    generalize (c / 64). intros q1. generalize (c / 4096). intros q2 Q1 Q2 R1 R2.
    replace (0xE0 + q2 <=? 127) with false by lia.
    replace ((194 <=? 0xE0 + q2) && (0xE0 + q2 <=? 223)) with false by lia.
    replace ((128 <=? 0x80 + r1) && (0x80 + r1 <=? 191)) with true by lia.
    destruct (N.eqb_spec (0xE0 + q2) 224).
    { now replace ((160 <=? 0x80 + r2) && (0x80 + r2 <=? 191)) with true by lia. }
    destruct (N.eqb_spec (0xE0 + q2) 237).
    { now replace ((128 <=? 0x80 + r2) && (0x80 + r2 <=? 159)) with true by lia. }
    replace ((225 <=? 0xE0 + q2) && (0xE0 + q2 <=? 239)) with true by lia.
    now replace ((128 <=? 0x80 + r2) && (0x80 + r2 <=? 191)) with true by lia. }
  cbn [app utf8_valid]. unfold in_range.
  assert (R1 : c mod 64 < 64) by (apply N.mod_lt; discriminate). assert (R2 : c / 64 mod 64 < 64) by (apply N.mod_lt; discriminate).
  assert (R3 : c / 4096 mod 64 < 64) by (apply N.mod_lt; discriminate).
  assert (Q1 : c = 64 * (c / 64) + c mod 64) by (apply N.div_mod; discriminate).
  assert (Q2 : c / 64 = 64 * (c / 4096) + c / 64 mod 64).
  { replace (c / 4096) with (c / 64 / 64) by apply div4096. apply N.div_mod; discriminate. }
  assert (Q3 : c / 4096 = 64 * (c / 262144) + c / 4096 mod 64).
  { replace (c / 262144) with (c / 4096 / 64) by apply div262144. apply N.div_mod; discriminate. }
  revert Q1 Q2 Q3 R1 R2 R3. generalize (c mod 64). intros r1. generalize (c / 64 mod 64). intros r2.
  generalize (c / 4096 mod 64). intros r3. generalize (c / 64). intros q1. generalize (c / 4096). intros q2.
  generalize (c / 262144). intros q3 Q1 Q2 Q3 R1 R2 R3.
  replace (0xF0 + q3 <=? 127) with false by lia.
  replace ((194 <=? 0xF0 + q3) && (0xF0 + q3 <=? 223)) with false by lia.
  replace (0xF0 + q3 =? 224) with false by lia. replace (0xF0 + q3 =? 237) with false by lia.
  replace ((225 <=? 0xF0 + q3) && (0xF0 + q3 <=? 239)) with false by lia.
  replace ((128 <=? 0x80 + r1) && (0x80 + r1 <=? 191)) with true by lia.
  replace ((128 <=? 0x80 + r2) && (0x80 + r2 <=? 191)) with true by lia.
  destruct (N.eqb_spec (0xF0 + q3) 240).
  { now replace ((144 <=? 0x80 + r3) && (0x80 + r3 <=? 191)) with true by lia. }
  destruct (N.ltb_spec q3 4).
  { replace ((241 <=? 0xF0 + q3) && (0xF0 + q3 <=? 243)) with true by lia.
    now replace ((128 <=? 0x80 + r3) && (0x80 + r3 <=? 191)) with true by lia. }
  replace ((241 <=? 0xF0 + q3) && (0xF0 + q3 <=? 243)) with false by lia.
  replace (0xF0 + q3 =? 244) with true by lia.
  now replace ((128 <=? 0x80 + r3) && (0x80 + r3 <=? 143)) with true by lia.
Qed.

Lemma utf8_nil : utf8 [].
Proof. exists []. split; [constructor|reflexivity]. Qed.
Lemma utf8_cons c s t : scalar c -> s = utf8_encode c -> utf8 t -> utf8 (s ++ t).
Proof. intros H -> (cs & HF & ->). exists (c :: cs). split; [now constructor|reflexivity]. Qed.

Lemma divmod_eq q r : r < 64 -> (64 * q + r) / 64 = q /\ (64 * q + r) mod 64 = r.
Proof. intros H. split; lia. Qed.

Lemma enc2 a b : 194 <= a <= 223 -> 128 <= b <= 191 -> exists c, scalar c /\ [a; b] = utf8_encode c.
Proof.
  intros Ha Hb. exists (64 * (a - 192) + (b - 128)). split; [unfold scalar; lia|].
  destruct (divmod_eq (a - 192) (b - 128)) as [D M]; [lia|].
  unfold utf8_encode. rewrite D, M. replace (_ <? 128) with false by lia. replace (_ <? 2048) with true by lia.
  f_equal; [lia|]. f_equal. lia.
Qed.
Lemma enc3 a b c : 224 <= a <= 239 -> 128 <= b <= 191 -> 128 <= c <= 191 ->
  (a = 224 -> 160 <= b) -> (a = 237 -> b <= 159) -> exists x, scalar x /\ [a; b; c] = utf8_encode x.
Proof.
  intros Ha Hb Hc H1 H2. exists (64 * (64 * (a - 224) + (b - 128)) + (c - 128)). split; [unfold scalar; lia|].
  destruct (divmod_eq (64 * (a - 224) + (b - 128)) (c - 128)) as [D M]; [lia|].
  destruct (divmod_eq (a - 224) (b - 128)) as [D' M']; [lia|].
  unfold utf8_encode. replace 4096 with (64 * 64) by reflexivity. rewrite <- N.div_div by discriminate. rewrite D, M, D', M'.
  replace (_ <? 128) with false by lia. replace (_ <? 2048) with false by lia. replace (_ <? 65536) with true by lia.
  f_equal; [lia|]. f_equal; [lia|]. f_equal. lia.
Qed.
Lemma enc4 a b c d : 240 <= a <= 244 -> 128 <= b <= 191 -> 128 <= c <= 191 -> 128 <= d <= 191 ->
  (a = 240 -> 144 <= b) -> (a = 244 -> b <= 143) -> exists x, scalar x /\ [a; b; c; d] = utf8_encode x.
Proof.
  intros Ha Hb Hc Hd H1 H2. exists (64 * (64 * (64 * (a - 240) + (b - 128)) + (c - 128)) + (d - 128)).
  split; [unfold scalar; lia|].
  destruct (divmod_eq (64 * (64 * (a - 240) + (b - 128)) + (c - 128)) (d - 128)) as [D M]; [lia|].
  destruct (divmod_eq (64 * (a - 240) + (b - 128)) (c - 128)) as [D' M']; [lia|].
  destruct (divmod_eq (a - 240) (b - 128)) as [D'' M'']; [lia|].
  unfold utf8_encode. replace 262144 with (64 * (64 * 64)) by reflexivity. replace 4096 with (64 * 64) by reflexivity.
  rewrite <- !N.div_div by discriminate. rewrite D, M, D', M', D'', M''.
  replace (_ <? 128) with false by lia. replace (_ <? 2048) with false by lia. replace (_ <? 65536) with false by lia.
  f_equal; [lia|]. f_equal; [lia|]. f_equal; [lia|]. f_equal. lia.
Qed.

Lemma range_ok lo hi b : in_range lo hi b = true -> lo <= b <= hi.
Proof. unfold in_range. lia. Qed.
Ltac ranges H := repeat match type of H with _ && _ = true => let H' := fresh "R" in apply andb_prop in H as [H H'] end;
  repeat match goal with R : in_range _ _ _ = true |- _ => apply range_ok in R end.

Lemma utf8_valid_utf8 : forall n s, (length s <= n)%nat -> utf8_valid s = true -> utf8 s.
Proof.
  induction n as [|n IH]; intros s L H.
  { destruct s; [apply utf8_nil|cbn in L; lia]. }
  destruct s as [|a t1]; [apply utf8_nil|]. cbn [utf8_valid] in H. cbn [length] in L.
  destruct (N.leb_spec a 127) as [E1|E1].
  { apply (utf8_cons a [a]); [unfold scalar; lia| |apply IH; [lia|assumption]].
    unfold utf8_encode. now replace (a <? 128) with true by lia. }
  destruct t1 as [|b t2]; [discriminate|]. cbn [length] in L.
  destruct (in_range 194 223 a) eqn:E2.
  { apply range_ok in E2. ranges H. destruct (enc2 a b) as (c & HC & E); [lia|lia|].
    apply (utf8_cons c [a; b]); auto. apply IH; [lia|assumption]. }
  destruct t2 as [|c t3]; [discriminate|]. cbn [length] in L.
  destruct (a =? 224) eqn:E3.
  { ranges H. destruct (enc3 a b c) as (x & HC & E); try lia. apply (utf8_cons x [a; b; c]); auto. apply IH; [lia|assumption]. }
  destruct (a =? 237) eqn:E4.
  { ranges H. destruct (enc3 a b c) as (x & HC & E); try lia. apply (utf8_cons x [a; b; c]); auto. apply IH; [lia|assumption]. }
  destruct (in_range 225 239 a) eqn:E5.
  { apply range_ok in E5. ranges H. destruct (enc3 a b c) as (x & HC & E); try lia. apply (utf8_cons x [a; b; c]); auto. apply IH; [lia|assumption]. }
  destruct t3 as [|d t4]; [discriminate|]. cbn [length] in L.
  destruct (a =? 240) eqn:E6.
  { ranges H. destruct (enc4 a b c d) as (x & HC & E); try lia. apply (utf8_cons x [a; b; c; d]); auto. apply IH; [lia|assumption]. }
  destruct (in_range 241 243 a) eqn:E7.
  { apply range_ok in E7. ranges H. destruct (enc4 a b c d) as (x & HC & E); try lia. apply (utf8_cons x [a; b; c; d]); auto. apply IH; [lia|assumption]. }
  destruct (a =? 244) eqn:E8; [|discriminate].
  ranges H. destruct (enc4 a b c d) as (x & HC & E); try lia. apply (utf8_cons x [a; b; c; d]); auto. apply IH; [lia|assumption].
Qed.

Lemma utf8_spec s : utf8_valid s = true <-> utf8 s.
Proof.
  split; [now apply (utf8_valid_utf8 (length s))|]. intros (cs & HF & ->). induction cs as [|c cs IH]; [reflexivity|].
  inversion HF; subst. cbn [map concat]. rewrite utf8_step by assumption. auto.
Qed.

Lemma utf8_encode_bytes c : scalar c -> all_bytes (utf8_encode c).
Proof.
  unfold scalar, utf8_encode. intros H.
  destruct (N.ltb_spec c 0x80); [repeat constructor; unfold is_byte; lia|].
  destruct (N.ltb_spec c 0x800); [repeat constructor; unfold is_byte; lia|].
  destruct (N.ltb_spec c 0x10000); repeat constructor; unfold is_byte; lia.
Qed.
Lemma utf8_bytes s : utf8 s -> all_bytes s.
Proof.
  intros (cs & HF & ->). induction HF; [constructor|]. cbn [map concat]. apply all_bytes_app. split; [|assumption].
  now apply utf8_encode_bytes.
Qed.
Lemma str_ok_intro s : utf8_valid s = true -> len s <= 65535 -> str_ok s.
Proof. intros H L. split; [now apply utf8_spec|assumption]. Qed.
Lemma str_ok_valid s : str_ok s -> utf8_valid s = true.
Proof. intros [H _]. now apply utf8_spec. Qed.
