(* The answer to CONNECT (smol) and the reading future (tokio). *)
From Verif Require Import Base BaseFacts VarInt VarIntFacts Prims Props Codes Packets PacketFacts SpecCodec SpecRead SmolStream TokioRead CodecMore InjFacts GoodFacts FrameFacts ReadFacts.

Lemma finish_cases p hd body h (B t tail : bytes) : fh_rem h = len body ->
  (forall rest, finish h (len hd) ((hd ++ body) ++ rest) = MPacket p rest) ->
  B ++ t = (hd ++ body) ++ tail -> len hd <= len B ->
  (exists r, finish h (len hd) B = MPacket p r /\ r ++ t = tail) \/ finish h (len hd) B = MPanic.
Proof.
  intros HR HF E HL. apply app_eq_app in E as (l & [[-> ->]|[EB ->]]).
  - left. exists l. split; [apply HF|reflexivity].
  - destruct l as [|x l].
    + left. rewrite app_nil_r in EB. subst B. exists []. split; [|reflexivity]. specialize (HF []). now rewrite app_nil_r in HF.
    + right. unfold finish. match goal with |- context [?a <? ?c] => replace (a <? c) with true; [reflexivity|] end.
      symmetry. apply N.ltb_lt. rewrite HR, len_drop. assert (len (hd ++ body) = len (B ++ x :: l)) as X by now rewrite EB.
      rewrite !len_app, (@len_cons N) in X. lia.
Qed.
(* whatever the chunks: the packet itself, or a panic, or waiting *)
Lemma answer_sound chk p b tail : sent p b -> forall chunks w buf, chunks_ok chunks -> buf ++ concat chunks = b ++ tail ->
  (forall h hl, wt_head w = Some (h, hl) -> forall rest, read_fixed_header (b ++ rest) = RbOk (h, hl) /\ hl <= len buf) ->
  (exists buf' rest, smol_read chk w buf chunks = GotPacket p buf' rest /\ buf' ++ concat rest = tail) \/
  smol_read chk w buf chunks = Broken Panic \/ smol_read chk w buf chunks = Pending.
Proof.
  intros HS. destruct (sent_shape _ _ HS) as (hd & body & h & -> & HL & HR & _ & HH & HM & HF).
  assert (forall rest, read_fixed_header ((hd ++ body) ++ rest) = RbOk (h, len hd)) as HH2 by (intros rest; rewrite <- app_assoc; apply HH).
  induction chunks as [|ch chunks IH]; intros w buf HC E HW; [right; right; reflexivity|].
  inversion HC as [|? ? HN HC']; subst. cbn [smol_read]. destruct ch as [|x ch]; [congruence|]. set (c := x :: ch) in *. cbn [concat] in E. rewrite app_assoc in E.
  unfold read_more. destruct (wt_total w + len c <? wt_need w).
  - apply IH; [exact HC'|exact E|]. cbn [wt_head]. intros h0 hl0 X rest. destruct (HW h0 hl0 X rest) as [Y1 Y2]. split; [exact Y1|]. rewrite len_app. lia.
  - assert (forall B, B ++ concat chunks = (hd ++ body) ++ tail -> len hd <= len B ->
      (exists buf' rest, match finish h (len hd) B with MPacket p b => GotPacket p b chunks | MMore _ => Pending | MBad e => Broken (Malformed e) | MPanic => Broken Panic end = GotPacket p buf' rest /\ buf' ++ concat rest = tail) \/
      match finish h (len hd) B with MPacket p b => GotPacket p b chunks | MMore _ => Pending | MBad e => Broken (Malformed e) | MPanic => Broken Panic end = Broken Panic) as HFin.
    { intros B EB HB. destruct (finish_cases p hd body h B _ tail HR HF EB HB) as [(r & -> & ER)| ->]; [left|right; reflexivity]. exists r, chunks. auto. }
    destruct (wt_head w) as [[h0 hl0]|] eqn:EW.
    + destruct (HW h0 hl0 eq_refl []) as [Y1 Y2]. rewrite HH2 in Y1. injection Y1 as <- <-.
      destruct (HFin (buf ++ c) E ltac:(rewrite len_app; lia)) as [X|X]; [left; exact X|right; left; exact X].
    + unfold read_round. assert ((exists n, read_fixed_header (buf ++ c) = RbMore n) \/ (read_fixed_header (buf ++ c) = RbOk (h, len hd) /\ len hd <= len (buf ++ c))) as [(n & ->)|[-> HB]].
      { rewrite <- app_assoc in E. rewrite (app_assoc buf), <- (app_assoc hd) in E. apply app_eq_app in E as (l & [[EB _]|[EB _]]).
        - right. rewrite EB. split; [apply HH|]. rewrite len_app. lia.
        - destruct l as [|y l]; [right; rewrite app_nil_r in EB; rewrite <- EB; split; [specialize (HH []); now rewrite app_nil_r in HH|lia]|].
          left. destruct (HM (buf ++ c) (y :: l) (eq_sym EB) ltac:(discriminate)) as (n & X & _). eauto. }
      * apply IH; [exact HC'|exact E|]. intros h0 hl0 X. discriminate X.
      * destruct (len (buf ++ c) <? len hd + fh_rem h).
        -- destruct (usize_sub chk (fh_rem h) (len (buf ++ c))); [|right; left; reflexivity].
           apply IH; [exact HC'|exact E|]. intros h0 hl0 X. injection X as <- <-. intros rest. auto.
        -- destruct (HFin (buf ++ c) E HB) as [X|X]; [left; exact X|right; left; exact X].
Qed.
Lemma answer_only chk p b tail chunks : sent p b -> chunks_ok chunks -> concat chunks = b ++ tail ->
  (exists buf rest, read_answer chk chunks = GotPacket p buf rest /\ buf ++ concat rest = tail) \/
  read_answer chk chunks = Broken Panic \/ read_answer chk chunks = Pending.
Proof. intros HS HC E. apply (answer_sound chk p b tail HS chunks (Need 2 0 None) [] HC E). intros h hl X. discriminate X. Qed.

(* the chunk that completes the header completes the packet *)
Lemma answer_whole chk p b tail ch rest : sent p b -> forall c1 w buf, chunks_ok (c1 ++ [ch]) -> buf ++ concat c1 ++ ch = b ++ tail ->
  wt_head w = None ->
  (forall n, len (buf ++ concat c1) < n -> (exists h, forall rest, read_fixed_header (b ++ rest) = RbOk (h, n)) ->
    wt_need w + len buf <= n + wt_total w) ->
  (forall h n, read_fixed_header b = RbOk (h, n) -> len (buf ++ concat c1) < n) ->
  smol_read chk w buf (c1 ++ ch :: rest) = GotPacket p tail rest.
Proof.
  intros HS. destruct (sent_shape _ _ HS) as (hd & body & h & -> & HL & HR & _ & HH & HM & HF).
  assert (forall rest, read_fixed_header ((hd ++ body) ++ rest) = RbOk (h, len hd)) as HH2 by (intros r; rewrite <- app_assoc; apply HH).
  induction c1 as [|c c1 IH]; intros w buf HC E HW HN HS1.
  - cbn [app concat] in *. rewrite app_nil_r in *. specialize (HS1 h (len hd)). specialize (HH2 []) as HH3. rewrite app_nil_r in HH3. specialize (HS1 HH3).
    specialize (HN (len hd) HS1 (ex_intro _ h HH2)). inversion HC as [|? ? HX _]; subst. cbn [smol_read]. destruct ch as [|x ch]; [congruence|]. set (cc := x :: ch) in *.
    assert (len (buf ++ cc) = len hd + len body + len tail) as HE by (rewrite E, !len_app; lia). rewrite len_app in HE.
    unfold read_more. match goal with |- context [?a <? ?c] => replace (a <? c) with false by lia end. rewrite HW. unfold read_round. rewrite E, HH2.
    match goal with |- context [?a <? ?c] => replace (a <? c) with false by (rewrite !len_app; lia) end. now rewrite HF.
  - inversion HC as [|? ? HX HC']; subst. cbn [app smol_read concat] in *. destruct c as [|x c]; [congruence|]. set (cc := x :: c) in *.
    specialize (HH2 []) as HH3. rewrite app_nil_r in HH3. pose proof (HS1 h (len hd) HH3) as HS2.
    specialize (HN (len hd) HS2 (ex_intro _ h HH2)). rewrite !len_app in HS2.
    assert ((buf ++ cc) ++ concat c1 ++ ch = (hd ++ body) ++ tail) as E2 by (rewrite <- E, <- !app_assoc; reflexivity).
    assert (forall h0 n, read_fixed_header (hd ++ body) = RbOk (h0, n) -> len ((buf ++ cc) ++ concat c1) < n) as HS3.
    { intros h0 n X. rewrite <- app_assoc. now apply HS1 in X. }
    unfold read_more. destruct (N.ltb_spec (wt_total w + len cc) (wt_need w)).
    + apply IH; [exact HC'|exact E2|exact HW| |exact HS3]. cbn [wt_need wt_total]. intros n _ (h0 & X). specialize (X []). rewrite app_nil_r, HH3 in X. injection X as _ <-.
      rewrite len_app. lia.
    + rewrite HW. unfold read_round.
      assert (exists l, hd = (buf ++ cc) ++ l /\ l <> []) as (l & EL & HLn).
      { pose proof E2 as E3. rewrite <- (app_assoc hd) in E3. apply app_eq_app in E3 as (l & [[EB _]|[EB _]]).
        - exfalso. assert (len (buf ++ cc) = len (hd ++ l)) as X by now rewrite EB. rewrite !len_app in X. lia.
        - exists l. split; [exact EB|]. intros ->. rewrite app_nil_r in EB. rewrite EB, len_app in HS2. lia. }
      destruct (HM (buf ++ cc) l (eq_sym EL) HLn) as (n & -> & Hn).
      apply IH; [exact HC'|exact E2|reflexivity| |exact HS3]. cbn [wt_need wt_total]. intros n0 _ (h0 & X). specialize (X []). rewrite app_nil_r, HH3 in X. injection X as _ <-.
      assert (len hd = len (buf ++ cc) + len l) as Y by (rewrite EL, !len_app; lia). lia.
Qed.
Lemma answer_got chk p b tail c1 ch rest f v body : sent p b -> b = f :: v ++ body -> is_varint v ->
  chunks_ok (c1 ++ [ch]) -> concat c1 ++ ch = b ++ tail -> len (concat c1) <= len v ->
  read_answer chk (c1 ++ ch :: rest) = GotPacket p tail rest.
Proof.
  intros HS EB HV HC E HL. assert (exists h, forall r, read_fixed_header (b ++ r) = RbOk (h, 1 + len v)) as (h & HH).
  { pose proof HS as (_ & _ & _ & body' & _ & HB & _ & E'). rewrite E' in EB. injection EB as <- EB.
    destruct (spec_varint_is_varint (len body') HB) as [HV' _]. apply varint_prefix in EB as [<- <-]; auto.
    exists (FH (type_of p) (spec_flags p) (len body')). intros r. rewrite E'. cbn [app]. rewrite <- app_assoc. now apply read_fixed_header_ok. }
  apply (answer_whole chk p b tail ch rest HS c1 (Need 2 0 None) [] HC E eq_refl).
  - cbn [wt_need wt_total app]. rewrite (@len_nil N). intros n _ (h0 & X). specialize (X []). rewrite HH in X. injection X as _ <-. apply is_varint_len in HV. lia.
  - cbn [app]. intros h0 n X. specialize (HH []). rewrite app_nil_r, X in HH. injection HH as _ ->. lia.
Qed.

(* every answer longer than its header can be cut so that the client panics *)
Lemma answer_panics chk p b : sent p b -> 4 < len b -> exists c1 c2 c3, b = c1 ++ c2 ++ c3 /\ c1 <> [] /\ c2 <> [] /\ c3 <> [] /\
  read_answer chk [c1; c2; c3] = Broken Panic.
Proof.
  intros HS HB. destruct (sent_shape _ _ HS) as (hd & body & h & -> & HL & HR & HV & HH & HM & HF). rewrite len_app in HB.
  assert (len hd < len body) as HLt.
  { unfold variable_integer_len in HV. repeat match type of HV with context [?a <? ?c] => destruct (N.ltb_spec a c) | context [?a <=? ?c] => destruct (N.leb_spec a c) end; lia. }
  set (n := len body - len hd). exists hd, (take n body), (drop n body). rewrite take_drop.
  assert (len (take n body) = n) as HT by (rewrite len_take; lia). assert (len (drop n body) = len hd) as HD by (rewrite len_drop; lia).
  split; [reflexivity|]. split; [intros ->; rewrite (@len_nil N) in HL; lia|]. split; [intros X; rewrite X, (@len_nil N) in HT; lia|].
  split; [intros X; rewrite X, (@len_nil N) in HD; lia|].
  unfold read_answer. change (read_round chk []) with (@inl waiting message (Need 2 0 None)). cbv iota. cbn [smol_read app].
  destruct hd as [|x hd]; [rewrite (@len_nil N) in HL; lia|]. set (hh := x :: hd) in *.
  unfold read_more at 1. cbn [wt_total wt_need wt_head]. match goal with |- context [?a <? ?c] => replace (a <? c) with false by lia end.
  unfold read_round. specialize (HH []) as HH0. rewrite app_nil_r in HH0. rewrite HH0. match goal with |- context [?a <? ?c] => replace (a <? c) with true by lia end.
  unfold usize_sub. match goal with |- context [?a <? ?c] => replace (a <? c) with false by lia end.
  destruct (take n body) as [|y cc] eqn:ET; [rewrite (@len_nil N) in HT; lia|]. rewrite <- ET in *.
  unfold read_more. cbn [wt_total wt_need wt_head]. match goal with |- context [?a <? ?c] => replace (a <? c) with false by lia end.
  unfold finish. match goal with |- context [?a <? ?c] => replace (a <? c) with true; [reflexivity|] end.
  symmetry. apply N.ltb_lt. rewrite len_drop, len_app. lia.
Qed.

(* --- tokio --- *)
Lemma aread_part p pre t : sent p (pre ++ t) -> t <> [] -> aread_packet pre = AShort.
Proof.
  intros HS HT. pose proof (sent_bytes _ _ HS) as HB. apply all_bytes_app in HB as [HB1 HB2]. destruct (sent_areads p (pre ++ t) [] HS) as (n & HR). rewrite app_nil_r in HR.
  pose proof (good_packet pre HB1) as G. unfold good_at in G. destruct (aread_packet pre) as [q m r|e| |c].
  - destruct G as (_ & _ & G). rewrite G in HR by exact HB2. injection HR as _ _ HR. apply app_eq_nil in HR as [_ ->]. congruence.
  - rewrite G in HR by exact HB2. discriminate HR.
  - reflexivity.
  - destruct G.
Qed.
Lemma tokio_order : forall xs ps bs r fut, Forall2 sent ps bs -> gentle r xs ->
  tr_got r ++ tr_in r ++ arrived xs ++ fut = concat bs -> part_of (tr_got r) bs ->
  exists ps1 ps2 bs1 bs2 r', ps = ps1 ++ ps2 /\ bs = bs1 ++ bs2 /\ length bs1 = length ps1 /\ Forall2 sent ps2 bs2 /\
    tokio_reads r xs = (ps1, Some r') /\ tr_got r ++ tr_in r ++ arrived xs = concat bs1 ++ tr_got r' ++ tr_in r' /\ part_of (tr_got r') bs2.
Proof.
  induction xs as [|x xs IH]; intros ps bs r fut HF HG E HP.
  - exists [], ps, [], bs, r. do 4 (split; [auto|]). split; [reflexivity|]. split; [|exact HP]. unfold arrived. cbn. now rewrite app_nil_r.
  - destruct HG as [HD HG]. destruct r as [got inn]. cbn [tr_got tr_in] in *. cbn [tokio_reads]. destruct x as [b| |].
    + cbn [tstep] in *. assert (got ++ (inn ++ b) ++ arrived xs ++ fut = concat bs) as E2 by (rewrite <- E; unfold arrived; cbn [map concat]; rewrite <- !app_assoc; reflexivity).
      destruct (IH ps bs _ fut HF HG E2 HP) as (ps1 & ps2 & bs1 & bs2 & r' & H1 & H2 & H3 & H4 & H5 & H6 & H7). cbn [tr_got tr_in] in *.
      exists ps1, ps2, bs1, bs2, r'. do 4 (split; [auto|]). rewrite H5. split; [reflexivity|]. split; [|exact H7]. rewrite <- H6. unfold arrived. cbn [map concat]. rewrite <- !app_assoc. reflexivity.
    + assert (arrived (TPoll :: xs) = arrived xs) as EA by reflexivity. rewrite EA in *. cbn [tstep tr_got tr_in] in *.
      destruct (list_eq_dec N.eq_dec (got ++ inn) []) as [EN|EN].
      * apply app_eq_nil in EN as [-> ->]. change (aread_packet ([] ++ [])) with (@AShort packet) in *. cbn [app] in *.
        destruct (IH ps bs (TReader [] []) fut HF HG E HP) as (ps1 & ps2 & bs1 & bs2 & r' & H1 & H2 & H3 & H4 & H5 & H6 & H7). rewrite H5.
        exists ps1, ps2, bs1, bs2, r'. do 6 (split; [auto|]). exact H7.
      * rewrite app_assoc in E. destruct (buffer_cases ps bs (got ++ inn) _ HF E EN) as (p & ps' & b & bs' & -> & -> & HS & HF' & [(B' & EB & E')|(t & EB & HT)]).
        -- rewrite EB in *. destruct (sent_areads p b B' HS) as (n & ER). rewrite ER in *.
           destruct (IH ps' bs' (TReader [] B') fut HF' HG E' ltac:(intros X; now elim X)) as (ps1 & ps2 & bs1 & bs2 & r' & -> & -> & H3 & H4 & H5 & H6 & H7). rewrite H5. cbn [tr_got tr_in app] in *.
           exists (p :: ps1), ps2, (b :: bs1), bs2, r'. do 2 (split; [reflexivity|]). split; [cbn; congruence|]. split; [exact H4|]. split; [reflexivity|]. split; [|exact H7].
           rewrite app_assoc, EB, <- app_assoc. cbn [concat]. rewrite <- app_assoc. now rewrite H6.
        -- rewrite EB in HS. rewrite (aread_part p _ t HS HT) in *.
           assert ((got ++ inn) ++ [] ++ arrived xs ++ fut = concat (b :: bs')) as E2 by exact E.
           destruct (IH (p :: ps') (b :: bs') (TReader (got ++ inn) []) fut HF HG E2) as (ps1 & ps2 & bs1 & bs2 & r' & H1 & H2 & H3 & H4 & H5 & H6 & H7).
           { intros _. exists b, bs', t. auto. }
           rewrite H5. cbn [tr_got tr_in app] in *. exists ps1, ps2, bs1, bs2, r'. do 5 (split; [auto|]). split; [|exact H7]. now rewrite app_assoc.
    + assert (arrived (TDrop :: xs) = arrived xs) as EA by reflexivity. rewrite EA in *. cbn [tstep tr_got tr_in] in *. specialize (HD eq_refl). subst got. cbn [app] in *.
      destruct (IH ps bs (TReader [] inn) fut HF HG E HP) as (ps1 & ps2 & bs1 & bs2 & r' & H1 & H2 & H3 & H4 & H5 & H6 & H7). rewrite H5.
      exists ps1, ps2, bs1, bs2, r'. do 6 (split; [auto|]). exact H7.
Qed.
Lemma tokio_gentle xs ps bs fut : Forall2 sent ps bs -> gentle (TReader [] []) xs -> arrived xs ++ fut = concat bs ->
  exists ps1 ps2 bs1 bs2 r, ps = ps1 ++ ps2 /\ bs = bs1 ++ bs2 /\ length bs1 = length ps1 /\
    tokio_reads (TReader [] []) xs = (ps1, Some r) /\ arrived xs = concat bs1 ++ tr_got r ++ tr_in r /\ part_of (tr_got r) bs2.
Proof.
  intros HF HG E. destruct (tokio_order xs ps bs (TReader [] []) fut HF HG E) as (ps1 & ps2 & bs1 & bs2 & r & H1 & H2 & H3 & _ & H5 & H6 & H7); [intros X; now elim X|].
  exists ps1, ps2, bs1, bs2, r. auto 10.
Qed.
Lemma tokio_loses p pre t xs : sent p (pre ++ t) -> t <> [] ->
  tokio_reads (TReader [] []) (TArrive pre :: TPoll :: TDrop :: xs) = tokio_reads (TReader [] []) xs.
Proof.
  intros HS HT. cbn [tokio_reads tstep tr_got tr_in app]. rewrite (aread_part p pre t HS HT). cbn [app tr_got tr_in]. now destruct (tokio_reads _ xs).
Qed.
