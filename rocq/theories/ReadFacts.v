(* Facts about the byte readers. *)
From Verif Require Import Base BaseFacts VarInt VarIntFacts Prims Props Codes Packets PacketFacts SpecCodec SpecRead SmolStream TokioRead CodecFacts CodecMore InjFacts GoodFacts FrameFacts FrameMore CodeFacts Witness.

Lemma sent_readable p b : sent p b -> readable p b.
Proof.
  intros (HW & H1 & H2 & body & HS & HL & HF & ->). split; [apply HW|]. split; [exists body; auto|].
  intros rest. now apply (reads_encodings p body rest).
Qed.
Lemma sent_areads p b rest : sent p b -> exists n, aread_packet (b ++ rest) = AOk p n rest.
Proof.
  intros (HW & H1 & H2 & body & HS & HL & HF & ->). exists (len body). now apply (reads_encodings p body rest).
Qed.
Lemma sent_all ps bs : Forall2 sent ps bs -> Forall2 readable ps bs.
Proof. intros H. induction H; constructor; auto using sent_readable. Qed.
Lemma sent_bytes p b : sent p b -> all_bytes b.
Proof. intros H. destruct (sent_readable _ _ H) as (A & B & _). eauto using encodes_bytes. Qed.

(* the shape of an encoding *)
Lemma sent_shape p b : sent p b -> exists hd body h, b = hd ++ body /\ 2 <= len hd <= 5 /\ fh_rem h = len body /\
  variable_integer_len (len body) = len hd - 1 /\
  (forall rest, read_fixed_header (hd ++ rest) = RbOk (h, len hd)) /\
  (forall pre t, pre ++ t = hd -> t <> [] -> exists n, read_fixed_header pre = RbMore n /\ 1 <= n <= len t) /\
  (forall rest, finish h (len hd) (b ++ rest) = MPacket p rest).
Proof.
  intros HS. pose proof (sent_readable _ _ HS) as (_ & _ & HR). destruct HS as (_ & _ & _ & body & HS & HL & _ & ->).
  exists (spec_first p :: spec_varint (len body)), body, (FH (type_of p) (spec_flags p) (len body)).
  pose proof (variable_integer_len_bounds (len body)) as HB. pose proof (spec_varint_len (len body)) as HE.
  assert (forall rest, read_fixed_header ((spec_first p :: spec_varint (len body)) ++ rest) = RbOk (FH (type_of p) (spec_flags p) (len body), len (spec_first p :: spec_varint (len body)))) as HH.
  { intros rest. cbn [app]. rewrite (@len_cons N). now apply read_fixed_header_ok. }
  split; [reflexivity|]. split; [rewrite (@len_cons N); lia|]. split; [reflexivity|]. split; [rewrite (@len_cons N); lia|]. split; [exact HH|]. split.
  - intros pre t E HT. destruct pre as [|x pre].
    { exists 2. split; [reflexivity|]. cbn [app] in E. rewrite E, (@len_cons N). lia. }
    injection E as -> E. destruct pre as [|y pre].
    { exists 1. split; [reflexivity|]. cbn [app] in E. rewrite E. lia. }
    exists 1. split; [|destruct t; [congruence|rewrite (@len_cons N); lia]].
    destruct (spec_varint_is_varint (len body) HL) as [(init & last & EI & HF & HB2 & HL4) _].
    assert (exists t', init = (y :: pre) ++ t' /\ t = t' ++ [last]) as (t' & Ei & Et).
    { rewrite EI in E. destruct (exists_last HT) as (t' & z & ->). rewrite app_assoc in E. apply app_inj_tail in E as [E ->]. eauto. }
    unfold read_fixed_header. rewrite !(@len_cons N). match goal with |- context [?a <? 2] => replace (a <? 2) with false by lia end.
    rewrite first_byte_read. unfold read_rem_len.
    rewrite (read_varint_loop_short 4 (y :: pre)); [reflexivity| |].
    + rewrite Ei in HF. now apply Forall_app in HF.
    + rewrite EI, Ei, !len_app, (@len_cons N) in HL4. unfold len in *. cbn [length] in *. lia.
  - intros rest. specialize (HR rest). unfold read_packet in HR. cbn [app] in *. rewrite <- app_assoc in *.
    specialize (HH (body ++ rest)). cbn [app] in HH. rewrite HH in HR. rewrite !(@len_cons N), !len_app in *.
    cbn [fh_rem] in *. match type of HR with context [?a <? ?c] => replace (a <? c) with false in HR by lia end.
    unfold finish. cbn [fh_rem]. set (bb := spec_first p :: spec_varint (len body) ++ body ++ rest) in *.
    assert (len (drop (1 + len (spec_varint (len body))) bb) = len body + len rest) as HD.
    { rewrite len_drop. unfold bb. rewrite (@len_cons N), !len_app. lia. }
    rewrite HD. match goal with |- context [?a <? ?c] => replace (a <? c) with false by lia end.
    destruct (read_body _ _) as [[q r]|e|c]; try discriminate HR. now injection HR as -> ->.
Qed.

Lemma parse_whole chk p b rest : sent p b -> parse_message chk (b ++ rest) = MPacket p rest.
Proof.
  intros HS. destruct (sent_shape _ _ HS) as (hd & body & h & -> & HL & HR & _ & HH & _ & HF). unfold parse_message.
  specialize (HF rest). rewrite <- app_assoc in *. rewrite HH. rewrite !len_app. match goal with |- context [?a <? ?c] => replace (a <? c) with false by lia end. exact HF.
Qed.
Lemma parse_part chk p pre t : sent p (pre ++ t) -> t <> [] ->
  parse_message chk pre = MMore pre \/ (chk = true /\ parse_message chk pre = MPanic).
Proof.
  intros HS HT. destruct (sent_shape _ _ HS) as (hd & body & h & E & HL & HR & _ & HH & HM & _). unfold parse_message.
  assert (1 <= len t) as HT1 by (destruct t; [congruence|rewrite (@len_cons N); lia]).
  apply app_eq_app in E as (l & [[-> ->]|[-> ->]]).
  - rewrite HH. rewrite !len_app in *. match goal with |- context [?a <? ?c] => replace (a <? c) with true by lia end.
    unfold usize_sub. destruct (fh_rem h <? _); [|now left]. destruct chk; auto.
  - destruct l as [|x l].
    + rewrite app_nil_r in *. specialize (HH []). rewrite app_nil_r in HH. rewrite HH. cbn [app] in *.
      match goal with |- context [?a <? ?c] => replace (a <? c) with true by lia end.
      unfold usize_sub. destruct (fh_rem h <? _); [|now left]. destruct chk; auto.
    + destruct (HM pre (x :: l) eq_refl ltac:(discriminate)) as (n & -> & _). now left.
Qed.
Lemma part_release p pre t : sent p (pre ++ t) -> t <> [] -> parse_message false pre = MMore pre.
Proof. intros H1 H2. destruct (parse_part false p pre t H1 H2) as [H|[H _]]; [exact H|discriminate H]. Qed.
Lemma sent_long p b : sent p b -> 2 <= len b.
Proof. intros HS. destruct (sent_shape _ _ HS) as (hd & body & h & -> & HL & _). rewrite len_app. lia. Qed.

(* a buffer that is a prefix of a sequence of encodings either begins with the first or is a part of it *)
Lemma buffer_cases ps bs (B fut : bytes) : Forall2 sent ps bs -> B ++ fut = concat bs -> B <> [] ->
  exists p ps' b bs', ps = p :: ps' /\ bs = b :: bs' /\ sent p b /\ Forall2 sent ps' bs' /\
  ((exists B', B = b ++ B' /\ B' ++ fut = concat bs') \/ (exists t, b = B ++ t /\ t <> [])).
Proof.
  intros HF E HB. destruct HF as [|p b ps' bs' HS HF].
  - cbn in E. apply app_eq_nil in E as [-> _]. congruence.
  - exists p, ps', b, bs'. do 4 (split; [auto|]). cbn [concat] in E. apply app_eq_app in E as (l & [[-> E]|[-> E]]).
    + left. exists l. auto.
    + destruct l as [|x l]; [left; exists []; rewrite !app_nil_r in *; auto|]. right. exists (x :: l). split; [auto|discriminate].
Qed.

Lemma complete_app bs1 bs2 n : complete (bs1 ++ bs2) (len (concat bs1) + n) = (length bs1 + complete bs2 n)%nat.
Proof.
  induction bs1 as [|b bs1 IH]; [reflexivity|]. cbn [app complete concat length]. rewrite len_app.
  match goal with |- context [?a <? ?c] => replace (a <? c) with false by lia end.
  replace (len b + len (concat bs1) + n - len b) with (len (concat bs1) + n) by lia. now rewrite IH.
Qed.
Lemma complete_part b bs n : n < len b -> complete (b :: bs) n = O.
Proof. intros H. cbn [complete]. now replace (n <? len b) with true by lia. Qed.

Lemma smol_reads_app chk c2 : forall c1 buf, smol_reads chk buf (c1 ++ c2) =
  let (ps, r) := smol_reads chk buf c1 in
  match r with Reading b => let (qs, r') := smol_reads chk b c2 in (ps ++ qs, r') | _ => (ps, r) end.
Proof.
  induction c1 as [|ch c1 IH]; intros buf; [cbn [app smol_reads]; now destruct (smol_reads chk buf c2)|].
  cbn [app smol_reads]. destruct ch as [|x ch]; [reflexivity|]. destruct (parse_message chk (buf ++ x :: ch)) as [p b|b|e|]; try reflexivity.
  - rewrite IH. destruct (smol_reads chk b c1) as [ps r]. destruct r; try reflexivity. now destruct (smol_reads chk buf0 c2).
  - apply IH.
Qed.

Lemma smol_order chk : forall chunks ps bs buf fut, Forall2 sent ps bs -> chunks_ok chunks -> buf ++ concat chunks ++ fut = concat bs ->
  exists ps1 ps2 bs1 bs2, ps = ps1 ++ ps2 /\ bs = bs1 ++ bs2 /\ length bs1 = length ps1 /\ Forall2 sent ps2 bs2 /\
  ((exists buf', smol_reads chk buf chunks = (ps1, Reading buf') /\ buf ++ concat chunks = concat bs1 ++ buf') \/
   (chk = true /\ smol_reads chk buf chunks = (ps1, Panic))).
Proof.
  induction chunks as [|ch chunks IH]; intros ps bs buf fut HF HC E.
  - exists [], ps, [], bs. do 4 (split; [auto|]). left. exists buf. split; [reflexivity|]. cbn. apply app_nil_r.
  - inversion HC as [|? ? HN HC']; subst. cbn [concat] in E. rewrite <- app_assoc, app_assoc in E.
    assert (buf ++ ch <> []) as HB by (intros X; apply app_eq_nil in X as [_ X]; congruence).
    cbn [smol_reads concat]. destruct ch as [|x ch]; [congruence|]. set (c := x :: ch) in *.
    destruct (buffer_cases ps bs (buf ++ c) _ HF E HB) as (p & ps' & b & bs' & -> & -> & HS & HF' & [(B' & EB & E')|(t & EB & HT)]).
    + rewrite EB, (parse_whole chk p b B' HS). destruct (IH ps' bs' B' fut HF' HC' E') as (ps1 & ps2 & bs1 & bs2 & -> & -> & HLn & HF2 & H).
      exists (p :: ps1), ps2, (b :: bs1), bs2. do 2 (split; [reflexivity|]). split; [cbn; congruence|]. split; [exact HF2|].
      destruct H as [(buf' & -> & HE)|(HK & ->)].
      * left. exists buf'. split; [reflexivity|]. cbn [concat]. rewrite app_assoc, EB, <- !app_assoc. now rewrite HE.
      * right. auto.
    + rewrite EB in HS. destruct (parse_part chk p (buf ++ c) t HS HT) as [->|[HK ->]].
      * destruct (IH (p :: ps') (b :: bs') (buf ++ c) fut HF HC' E) as (ps1 & ps2 & bs1 & bs2 & E1 & E2 & HLn & HF2 & H).
        exists ps1, ps2, bs1, bs2. do 4 (split; [auto|]). rewrite <- app_assoc in H. exact H.
      * exists [], (p :: ps'), [], (b :: bs'). do 4 (split; [auto|]). right. auto.
Qed.

(* one more chunk hands over one more packet, if there is one *)
Lemma smol_count chunks ch ps bs fut : Forall2 sent ps bs -> chunks_ok (chunks ++ [ch]) -> concat (chunks ++ [ch]) ++ fut = concat bs ->
  length (fst (smol_reads false [] (chunks ++ [ch]))) =
  Nat.min (S (length (fst (smol_reads false [] chunks)))) (complete bs (len (concat (chunks ++ [ch])))).
Proof.
  intros HF HC E. apply Forall_app in HC as [HC HC2]. inversion HC2 as [|? ? HN _]; subst.
  rewrite concat_app in *. cbn [concat] in *. rewrite app_nil_r in *. rewrite <- app_assoc in E.
  destruct (smol_order false chunks ps bs [] (ch ++ fut) HF HC E) as (ps1 & ps2 & bs1 & bs2 & -> & -> & HLn & HF2 & [(buf & ER & EB)|[X _]]); [|discriminate X].
  rewrite smol_reads_app, ER. cbn [app] in EB. cbn [fst smol_reads]. destruct ch as [|x ch]; [congruence|]. set (c := x :: ch) in *.
  rewrite EB, <- app_assoc. rewrite len_app, complete_app.
  rewrite EB, concat_app, <- app_assoc in E. apply app_inv_head in E. rewrite app_assoc in E.
  assert (buf ++ c <> []) as HB by (intros X; apply app_eq_nil in X as [_ X]; discriminate X).
  destruct (buffer_cases ps2 bs2 (buf ++ c) _ HF2 E HB) as (p & ps' & b & bs' & -> & -> & HS & HF' & [(B' & EB' & E')|(t & EB' & HT)]).
  - rewrite EB', (parse_whole false p b B' HS). cbn [fst]. rewrite app_length. cbn [length complete]. rewrite len_app.
    match goal with |- context [?a <? ?c] => replace (a <? c) with false by lia end. rewrite <- HLn. lia.
  - rewrite EB' in HS. rewrite (part_release p (buf ++ c) t HS HT). cbn [fst]. rewrite app_nil_r.
    rewrite complete_part; [rewrite <- HLn; lia|]. rewrite EB', (len_app (buf ++ c) t). destruct t; [congruence|rewrite (@len_cons N); lia].
Qed.
Lemma smol_prompt chunks : forall ps bs fut, Forall2 sent ps bs -> chunks_ok chunks -> concat chunks ++ fut = concat bs ->
  (forall c1 ch c2, chunks = c1 ++ ch :: c2 -> (complete bs (len (concat (c1 ++ [ch]))) <= S (complete bs (len (concat c1))))%nat) ->
  length (fst (smol_reads false [] chunks)) = complete bs (len (concat chunks)).
Proof.
  induction chunks as [|ch chunks IH] using rev_ind; intros ps bs fut HF HC E HS.
  - cbn [concat smol_reads fst length]. destruct HF as [|p b ? ? HX _]; [reflexivity|]. pose proof (sent_long _ _ HX). rewrite complete_part; [reflexivity|]. rewrite (@len_nil N). lia.
  - rewrite (smol_count chunks ch ps bs fut HF HC E). specialize (IH ps bs (ch ++ fut) HF).
    rewrite IH.
    + specialize (HS chunks ch [] eq_refl). lia.
    + now apply Forall_app in HC.
    + rewrite concat_app in E. cbn [concat] in E. now rewrite app_nil_r, <- app_assoc in E.
    + intros c1 c c2 ->. apply (HS c1 c (c2 ++ [ch])). now rewrite <- app_assoc.
Qed.
(* the second of two packets that arrive together stays *)
Lemma smol_stall chk p q b b' : sent p b -> sent q b' -> smol_reads chk [] [b ++ b'] = ([p], Reading b').
Proof.
  intros H1 H2. cbn [smol_reads app]. rewrite (parse_whole chk p b b' H1). pose proof (sent_long _ _ H1).
  destruct (b ++ b') eqn:E; [apply app_eq_nil in E as [-> _]; exfalso; revert H; vm_compute; congruence|reflexivity].
Qed.
(* the last byte arrives alone *)
Lemma smol_panic p b : sent p b -> 2 < len b -> exists pre x, b = pre ++ [x] /\ pre <> [] /\ smol_reads true [] [pre; [x]] = ([], Panic).
Proof.
  intros HS HL. destruct (sent_shape _ _ HS) as (hd & body & h & E & HH & HR & HV & HO & _).
  assert (body <> []) as HB.
  { intros ->. rewrite E, len_app in HL. rewrite (@len_nil N) in *. assert (variable_integer_len 0 = 1) as X by reflexivity. lia. }
  destruct (exists_last HB) as (bd & x & ->). exists (hd ++ bd), x. split; [rewrite E; apply app_assoc|].
  assert (hd ++ bd <> []) as HN by (intros X; apply app_eq_nil in X as [-> _]; rewrite (@len_nil N) in HH; lia).
  split; [exact HN|]. cbn [smol_reads app]. destruct (hd ++ bd) eqn:EH; [congruence|]. rewrite <- EH. unfold parse_message. rewrite HO.
  rewrite len_app in *. rewrite (@len_cons N), (@len_nil N) in *. match goal with |- context [?a <? ?c] => replace (a <? c) with true by lia end.
  unfold usize_sub. match goal with |- context [?a <? ?c] => replace (a <? c) with true by lia end. reflexivity.
Qed.
