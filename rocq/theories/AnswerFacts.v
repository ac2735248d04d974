(* C41 - C43: exactly what the readers make of chunks of any size *)
From Verif Require Import Base BaseFacts VarInt VarIntFacts Prims Props Codes Packets PacketFacts SpecCodec SpecRead SmolStream TokioRead SpecAnswer CodecMore InjFacts GoodFacts FrameFacts ReadFacts ReadMore ReadCases.

Definition fate_says (chk : bool) (p : packet) (all : bytes) (b : bytes) (r : connecting) (f : fate) : Prop :=
  match f with
  | Received rest => exists buf, r = GotPacket p buf rest /\ b ++ buf ++ concat rest = all
  | Panics => r = Broken Panic
  | Waits => r = Pending
  end.

Lemma finish_exact p hd body h (B t tail : bytes) : fh_rem h = len body ->
  (forall rest, finish h (len hd) ((hd ++ body) ++ rest) = MPacket p rest) ->
  B ++ t = (hd ++ body) ++ tail -> len hd <= len B ->
  if len hd + len body <=? len B then exists r, finish h (len hd) B = MPacket p r /\ (hd ++ body) ++ r = B else finish h (len hd) B = MPanic.
Proof.
  intros HR HF E HL. apply app_eq_app in E as (l & [[EB _]|[EB ET]]).
  - replace (len hd + len body <=? len B) with true by (subst B; rewrite !len_app; lia). exists l. subst B. split; [apply HF|reflexivity].
  - assert (L : len hd + len body = len B + len l) by (rewrite <- len_app, EB, len_app; reflexivity). destruct l as [|x l].
    + rewrite (@len_nil N) in L. replace (len hd + len body <=? len B) with true by lia. rewrite app_nil_r in EB. subst B. exists []. split; [|now rewrite app_nil_r].
      specialize (HF []). now rewrite app_nil_r in HF.
    + rewrite (@len_cons N) in L. replace (len hd + len body <=? len B) with false by lia. unfold finish.
      match goal with |- context [?a <? ?c] => replace (a <? c) with true; [reflexivity|] end. rewrite len_drop, HR. lia.
Qed.

(* the header is known; the client waits for [len body] bytes in all *)
Lemma body_phase chk p hd body h fut tail : fh_rem h = len body ->
  (forall rest, finish h (len hd) ((hd ++ body) ++ rest) = MPacket p rest) ->
  forall chunks w buf, chunks_ok chunks -> (buf ++ concat chunks) ++ fut = (hd ++ body) ++ tail -> len hd <= len buf ->
  wt_head w = Some (h, len hd) -> wt_need w + len buf = len body + wt_total w ->
  fate_says chk p (buf ++ concat chunks) (hd ++ body) (smol_read chk w buf chunks)
    (match take_until (len body) (len buf) chunks with None => Waits | Some (m, rest) => if len hd + len body <=? m then Received rest else Panics end).
Proof.
  intros HR HF. induction chunks as [|ch chunks IH]; intros w buf HC E HL HW HN; [reflexivity|].
  inversion HC as [|? ? HX HC']; subst. cbn [smol_read concat take_until] in *. destruct ch as [|x ch]; [congruence|]. set (c := x :: ch) in *.
  rewrite app_assoc in E. rewrite app_assoc. unfold read_more. destruct (N.ltb_spec (wt_total w + len c) (wt_need w)) as [Hlt|Hge].
  - replace (len body <=? len buf + len c) with false by lia. rewrite <- (len_app buf c). apply IH; [exact HC'|exact E|rewrite len_app; lia|exact HW|]. cbn [wt_need wt_total]. rewrite len_app. lia.
  - replace (len body <=? len buf + len c) with true by lia. rewrite HW. rewrite <- app_assoc in E.
    pose proof (finish_exact p hd body h (buf ++ c) _ tail HR HF E ltac:(rewrite len_app; lia)) as X. rewrite len_app in X.
    destruct (len hd + len body <=? len buf + len c).
    + destruct X as (r & -> & EB). exists r. split; [reflexivity|]. now rewrite app_assoc, EB.
    + now rewrite X.
Qed.
(* more than 2^64 - 1 bytes never arrive *)
Lemma wrap_phase chk p hd (body : bytes) h : forall chunks w buf all, chunks_ok chunks -> wt_head w = Some (h, hd) -> 2 ^ 64 + wt_total w <= wt_need w + len buf ->
  len (buf ++ concat chunks) < 2 ^ 64 -> fate_says chk p all body (smol_read chk w buf chunks) Waits.
Proof.
  induction chunks as [|ch chunks IH]; intros w buf all HC HW HN HB; [reflexivity|].
  inversion HC as [|? ? HX HC']; subst. cbn [smol_read concat] in *. destruct ch as [|x ch]; [congruence|]. set (c := x :: ch) in *.
  unfold read_more. rewrite !len_app in HB. replace (wt_total w + len c <? wt_need w) with true by lia.
  apply IH; [exact HC'|exact HW| |rewrite !len_app; lia]. cbn [wt_need wt_total]. rewrite len_app. lia.
Qed.
Lemma head_phase chk p hd body h fut tail : fh_rem h = len body ->
  (forall rest, read_fixed_header (hd ++ rest) = RbOk (h, len hd)) ->
  (forall pre t, pre ++ t = hd -> t <> [] -> exists n, read_fixed_header pre = RbMore n /\ 1 <= n <= len t) ->
  (forall rest, finish h (len hd) ((hd ++ body) ++ rest) = MPacket p rest) ->
  forall chunks w buf, chunks_ok chunks -> (buf ++ concat chunks) ++ fut = (hd ++ body) ++ tail -> len buf < len hd ->
  len (buf ++ concat chunks) < 2 ^ 64 ->
  wt_head w = None -> wt_need w + len buf <= len hd + wt_total w ->
  fate_says chk p (buf ++ concat chunks) (hd ++ body) (smol_read chk w buf chunks)
    (match take_until (len hd) (len buf) chunks with
     | None => Waits
     | Some (k, rest) =>
         if len hd + len body <=? k then Received rest
         else if len body <? k then if chk then Panics else Waits
         else match take_until (len body) k rest with
              | None => Waits
              | Some (m, rest) => if len hd + len body <=? m then Received rest else Panics
              end
     end).
Proof.
  intros HR HH HM HF. induction chunks as [|ch chunks IH]; intros w buf HC E HL HB HW HN; [reflexivity|].
  inversion HC as [|? ? HX HC']; subst. cbn [smol_read concat take_until] in *. destruct ch as [|x ch]; [congruence|]. set (c := x :: ch) in *.
  rewrite app_assoc in E, HB. rewrite app_assoc. unfold read_more. pose proof E as E0. rewrite <- app_assoc in E0.
  destruct (N.leb_spec (len hd) (len buf + len c)) as [Hge|Hlt].
  - replace (wt_total w + len c <? wt_need w) with false by lia. rewrite HW. unfold read_round.
    assert (EH : read_fixed_header (buf ++ c) = RbOk (h, len hd)).
    { rewrite <- (app_assoc hd) in E0. apply app_eq_app in E0 as (l & [[EB _]|[EB _]]); [rewrite EB; apply HH|].
      destruct l as [|y l]; [rewrite app_nil_r in EB; rewrite <- EB; specialize (HH []); now rewrite app_nil_r in HH|].
      exfalso. apply (f_equal (@len N)) in EB. rewrite !len_app, (@len_cons N) in EB. lia. }
    rewrite EH, HR, len_app. destruct (N.ltb_spec (len buf + len c) (len hd + len body)) as [Hs|Hs].
    + replace (len hd + len body <=? len buf + len c) with false by lia. unfold usize_sub. destruct (N.ltb_spec (len body) (len buf + len c)).
      * destruct chk; [reflexivity|]. apply (wrap_phase false p (len hd) (hd ++ body) h); auto. cbn [wt_need wt_total]. rewrite len_app. lia.
      * rewrite <- (len_app buf c). apply (body_phase chk p hd body h fut tail HR HF); auto; [rewrite len_app; lia|]. cbn [wt_need wt_total]. rewrite len_app. lia.
    + replace (len hd + len body <=? len buf + len c) with true by lia.
      pose proof (finish_exact p hd body h (buf ++ c) _ tail HR HF E0 ltac:(rewrite len_app; lia)) as X. rewrite len_app in X. replace (len hd + len body <=? len buf + len c) with true in X by lia.
      destruct X as (r & -> & EB). exists r. split; [reflexivity|]. now rewrite app_assoc, EB.
  - rewrite <- (len_app buf c). destruct (N.ltb_spec (wt_total w + len c) (wt_need w)) as [H1|H1].
    + apply IH; auto; [rewrite len_app; lia|]. cbn [wt_need wt_total]. rewrite len_app. lia.
    + rewrite HW. unfold read_round.
      assert (exists l, hd = (buf ++ c) ++ l /\ l <> []) as (l & EL & HLn).
      { rewrite <- (app_assoc hd) in E0. apply app_eq_app in E0 as (l & [[EB _]|[EB _]]).
        - exfalso. apply (f_equal (@len N)) in EB. rewrite !len_app in EB. lia.
        - exists l. split; [exact EB|]. intros ->. apply (f_equal (@len N)) in EB. rewrite app_nil_r, !len_app in EB. lia. }
      destruct (HM (buf ++ c) l (eq_sym EL) HLn) as (n & -> & Hn).
      apply IH; auto; [rewrite len_app; lia|]. cbn [wt_need wt_total]. apply (f_equal (@len N)) in EL. rewrite !len_app in *. lia.
Qed.
Lemma answer_exact chk p b f v body chunks fut tail : sent p b -> b = f :: v ++ body -> is_varint v -> chunks_ok chunks -> concat chunks ++ fut = b ++ tail ->
  len (concat chunks) < 2 ^ 64 ->
  match fate_of chk (1 + len v) (len body) chunks with
  | Received rest => exists buf, read_answer chk chunks = GotPacket p buf rest /\ b ++ buf ++ concat rest = concat chunks
  | Panics => read_answer chk chunks = Broken Panic
  | Waits => read_answer chk chunks = Pending
  end.
Proof.
  intros HS EB HV HC E HB. assert (exists h, forall r, read_fixed_header (b ++ r) = RbOk (h, 1 + len v)) as (h' & HH').
  { pose proof HS as (_ & _ & _ & body' & _ & HB' & _ & E'). rewrite E' in EB. injection EB as <- EB.
    destruct (spec_varint_is_varint (len body') HB') as [HV' _]. apply varint_prefix in EB as [<- <-]; auto.
    exists (FH (type_of p) (spec_flags p) (len body')). intros r. rewrite E'. cbn [app]. rewrite <- app_assoc. now apply read_fixed_header_ok. }
  destruct (sent_shape _ _ HS) as (hd & body0 & h & E0 & HL & HR & _ & HH & HM & HF).
  assert (EL : len hd = 1 + len v).
  { specialize (HH' []). rewrite app_nil_r, E0, HH in HH'. now injection HH' as _ ->. }
  assert (EY : len body0 = len body).
  { pose proof EB as X. rewrite E0 in X. apply (f_equal (@len N)) in X. rewrite (@len_cons N), !len_app in X. lia. }
  assert (HF' : forall rest, finish h (len hd) ((hd ++ body0) ++ rest) = MPacket p rest) by (rewrite <- E0; exact HF).
  rewrite E0 in E. pose proof (head_phase chk p hd body0 h fut tail HR HH HM HF' chunks (Need 2 0 None) [] HC E) as X.
  unfold fate_of. rewrite <- EL, <- EY. unfold read_answer. change (read_round chk []) with (@inl waiting message (Need 2 0 None)). cbv iota.
  cbn [app] in X. rewrite (@len_nil N) in X. cbn [wt_head wt_need wt_total] in X. rewrite E0. apply X; [lia|assumption|reflexivity|lia].
Qed.

(* ---- C41 ---- *)
Lemma sized_shape p b s : sent p b -> frame_sizes b s -> exists hd body h, b = hd ++ body /\ fst s = len hd /\ snd s = len body /\ 2 <= len hd /\ fh_rem h = len body /\
  (forall rest, read_fixed_header (hd ++ rest) = RbOk (h, len hd)) /\
  (forall pre t, pre ++ t = hd -> t <> [] -> exists n, read_fixed_header pre = RbMore n /\ 1 <= n <= len t) /\
  (forall rest, finish h (len hd) ((hd ++ body) ++ rest) = MPacket p rest).
Proof.
  intros HS (f & v & body & EB & HV & S1 & S2). assert (exists h, forall r, read_fixed_header (b ++ r) = RbOk (h, 1 + len v)) as (h' & HH').
  { pose proof HS as (_ & _ & _ & body' & _ & HB' & _ & E'). rewrite E' in EB. injection EB as <- EB.
    destruct (spec_varint_is_varint (len body') HB') as [HV' _]. apply varint_prefix in EB as [<- <-]; auto.
    exists (FH (type_of p) (spec_flags p) (len body')). intros r. rewrite E'. cbn [app]. rewrite <- app_assoc. now apply read_fixed_header_ok. }
  destruct (sent_shape _ _ HS) as (hd & body0 & h & E0 & HL & HR & _ & HH & HM & HF).
  assert (EL : len hd = 1 + len v).
  { specialize (HH' []). rewrite app_nil_r, E0, HH in HH'. now injection HH' as _ ->. }
  exists hd, body0, h. split; [assumption|]. split; [congruence|]. split.
  { rewrite S2. pose proof EB as X. rewrite E0 in X. apply (f_equal (@len N)) in X. rewrite (@len_cons N), !len_app in X. lia. }
  split; [lia|]. split; [assumption|]. split; [assumption|]. split; [assumption|]. rewrite <- E0. exact HF.
Qed.
Lemma parse_exact chk p b s B t tail : sent p b -> frame_sizes b s -> B ++ t = b ++ tail ->
  if fst s + snd s <=? len B then exists r, parse_message chk B = MPacket p r /\ b ++ r = B
  else if chk && (fst s <=? len B) && (snd s <? len B) then parse_message chk B = MPanic
  else parse_message chk B = MMore B.
Proof.
  intros HS HZ E. destruct (sized_shape p b s HS HZ) as (hd & body & h & -> & -> & -> & HL & HR & HH & HM & HF). unfold parse_message.
  destruct (N.leb_spec (len hd) (len B)) as [Hge|Hlt].
  - assert (EH : read_fixed_header B = RbOk (h, len hd)).
    { pose proof E as E0. rewrite <- (app_assoc hd) in E0. apply app_eq_app in E0 as (l & [[EB _]|[EB _]]); [rewrite EB; apply HH|].
      destruct l as [|y l]; [rewrite app_nil_r in EB; rewrite <- EB; specialize (HH []); now rewrite app_nil_r in HH|].
      exfalso. apply (f_equal (@len N)) in EB. rewrite !len_app, (@len_cons N) in EB. lia. }
    rewrite EH, HR. pose proof (finish_exact p hd body h B t tail HR HF E Hge) as X. destruct (N.leb_spec (len hd + len body) (len B)) as [Hb|Hb].
    + replace (len B <? len body + len hd) with false by lia. exact X.
    + replace (len B <? len body + len hd) with true by lia. unfold usize_sub. rewrite andb_true_r. destruct (len body <? len B), chk; reflexivity.
  - replace (len hd + len body <=? len B) with false by lia. rewrite andb_false_r. cbn [andb].
    assert (exists l, hd = B ++ l /\ l <> []) as (l & EL & HLn).
    { pose proof E as E0. rewrite <- (app_assoc hd) in E0. apply app_eq_app in E0 as (l & [[EB _]|[EB _]]).
      - exfalso. apply (f_equal (@len N)) in EB. rewrite !len_app in EB. lia.
      - exists l. split; [exact EB|]. intros ->. apply (f_equal (@len N)) in EB. rewrite app_nil_r in EB. lia. }
    destruct (HM B l (eq_sym EL) HLn) as (n & -> & _). reflexivity.
Qed.
Lemma smol_exact chk : forall chunks ps bs sizes buf fut, Forall2 sent ps bs -> Forall2 frame_sizes bs sizes -> chunks_ok chunks -> buf ++ concat chunks ++ fut = concat bs ->
  let (k, o) := handed chk (len buf) sizes chunks in
  match o with
  | None => smol_reads chk buf chunks = (firstn k ps, Panic)
  | Some n => exists kept, smol_reads chk buf chunks = (firstn k ps, Reading kept) /\ len kept = n /\ concat (firstn k bs) ++ kept = buf ++ concat chunks
  end.
Proof.
  induction chunks as [|ch chunks IH]; intros ps bs sizes buf fut HF HZ HC E; cbn [handed smol_reads].
  - exists buf. split; [reflexivity|]. split; [reflexivity|]. cbn [firstn concat app]. now rewrite app_nil_r.
  - inversion HC as [|? ? HX HC']; subst. destruct ch as [|x ch]; [congruence|]. set (c := x :: ch) in *. cbn [concat] in *.
    assert (E2 : (buf ++ c) ++ concat chunks ++ fut = concat bs) by (rewrite <- E, <- !app_assoc; reflexivity).
    rewrite <- (len_app buf c). destruct HZ as [|b s bs sizes Hs HZ].
    { exfalso. cbn [concat] in E2. apply app_eq_nil in E2 as [E2 _]. apply app_eq_nil in E2 as [_ E2]. discriminate E2. }
    inversion HF as [|p ? ps' ? HS HF']; subst. cbn [concat] in E2. pose proof (parse_exact chk p b s (buf ++ c) _ _ HS Hs E2) as X.
    destruct s as [hl n]. cbn [fst snd] in X. destruct (N.leb_spec (hl + n) (len (buf ++ c))) as [Hb|Hb].
    + destruct X as (r & -> & EB). rewrite <- EB in E2. rewrite <- app_assoc in E2. apply app_inv_head in E2.
      specialize (IH ps' bs sizes r fut HF' HZ HC' E2).
      assert (EL : len (buf ++ c) - (hl + n) = len r).
      { destruct Hs as (f & v & body & EV & _ & S1 & S2). cbn [fst snd] in *. rewrite <- EB, len_app, EV, (@len_cons N), len_app. lia. }
      rewrite EL. destruct (handed chk (len r) sizes chunks) as [k [m|]].
      * destruct IH as (kept & -> & HK & EK). exists kept. split; [reflexivity|]. split; [assumption|]. cbn [firstn concat]. rewrite <- app_assoc, EK, app_assoc, EB. now rewrite <- app_assoc.
      * now rewrite IH.
    + destruct (chk && (hl <=? len (buf ++ c)) && (n <? len (buf ++ c))); [now rewrite X|]. rewrite X.
      specialize (IH (p :: ps') (b :: bs) ((hl, n) :: sizes) (buf ++ c) fut HF (Forall2_cons _ _ Hs HZ) HC' E2).
      destruct (handed chk (len (buf ++ c)) ((hl, n) :: sizes) chunks) as [k [m|]]; [|exact IH]. rewrite <- (app_assoc buf) in IH. exact IH.
Qed.

(* ---- C42 ---- *)
Definition course_says (ps : list packet) (bs : list bytes) (all : bytes) (r : list packet * option treader) (c : course) : Prop :=
  match c with
  | Reads k n m => exists g i, r = (firstn k ps, Some (TReader g i)) /\ len g = n /\ len i = m /\ concat (firstn k bs) ++ g ++ i = all
  | Loses k n m later => exists g i more, r = (let (qs, o) := tokio_reads (TReader [] i) later in (firstn k ps ++ qs, o)) /\
      len g = n /\ len i = m /\ g <> [] /\ concat (firstn k bs) ++ g ++ i ++ more = all /\ more = arrived later
  end.
Lemma one_more_says p b ps bs all q o c : course_says ps bs all (q, o) c -> course_says (p :: ps) (b :: bs) (b ++ all) (p :: q, o) (one_more c).
Proof.
  destruct c as [k n m|k n m l]; cbn [course_says one_more firstn concat].
  - intros (g & i & E & HN & HM & HA). injection E as -> ->. exists g, i. rewrite <- app_assoc, HA. auto.
  - intros (g & i & more & E & HN & HM & HG & HA & HE). exists g, i, more. rewrite <- app_assoc, HA. split; [|auto].
    destruct (tokio_reads (TReader [] i) l) as [qs o']. now injection E as -> ->.
Qed.
Lemma tokio_exact : forall xs ps bs got inn fut, Forall2 sent ps bs -> got ++ inn ++ arrived xs ++ fut = concat bs -> part_of got bs ->
  course_says ps bs (got ++ inn ++ arrived xs) (tokio_reads (TReader got inn) xs) (course_of (len got) (len inn) (map (@len N) bs) xs).
Proof.
  induction xs as [|x xs IH]; intros ps bs got inn fut HF E HP.
  - cbn [course_of tokio_reads]. exists got, inn. split; [reflexivity|]. do 2 (split; [reflexivity|]). cbn [firstn concat]. unfold arrived. cbn. now rewrite app_nil_r.
  - cbn [tokio_reads]. destruct x as [b| |]; cbn [course_of tstep tr_got tr_in].
    + assert (E2 : got ++ (inn ++ b) ++ arrived xs ++ fut = concat bs) by (rewrite <- E; unfold arrived; cbn [map concat]; rewrite <- !app_assoc; reflexivity).
      specialize (IH ps bs got (inn ++ b) fut HF E2 HP). rewrite len_app in IH.
      replace (got ++ inn ++ arrived (TArrive b :: xs)) with (got ++ (inn ++ b) ++ arrived xs) by (unfold arrived; cbn [map concat]; rewrite <- !app_assoc; reflexivity).
      destruct (tokio_reads (TReader got (inn ++ b)) xs) as [qs o]. exact IH.
    + assert (EA : arrived (TPoll :: xs) = arrived xs) by reflexivity. rewrite EA in *.
      destruct (list_eq_dec N.eq_dec (got ++ inn) []) as [EN|EN].
      * apply app_eq_nil in EN as [-> ->]. change (aread_packet ([] ++ [])) with (@AShort packet). cbn [app] in *. rewrite (@len_nil N). change (0 + 0) with 0.
        specialize (IH ps bs [] [] fut HF E HP). cbn [app] in IH. rewrite (@len_nil N) in IH. destruct (tokio_reads (TReader [] []) xs) as [qs o]. cbn [app].
        destruct bs as [|b bs]; cbn [map] in *; [exact IH|]. inversion HF as [|p ? ps' ? HS HF']; subst.
        pose proof (sent_shape _ _ HS) as (hd & body & h & -> & HL & _). replace (len (hd ++ body) <=? 0) with false by (rewrite len_app; lia). exact IH.
      * rewrite app_assoc in E. destruct (buffer_cases ps bs (got ++ inn) _ HF E EN) as (p & ps' & b & bs' & -> & -> & HS & HF' & [(B' & EB & E')|(t & EB & HT)]).
        -- destruct (sent_areads p b B' HS) as (n & ER). rewrite EB, ER. cbn [map]. rewrite <- len_app, EB, len_app.
           replace (len b <=? len b + len B') with true by lia. replace (len b + len B' - len b) with (len B') by lia.
           specialize (IH ps' bs' [] B' fut HF' E' ltac:(intros X; now elim X)). rewrite (@len_nil N) in IH. cbn [app] in IH.
           destruct (tokio_reads (TReader [] B') xs) as [qs o]. cbn [app]. rewrite app_assoc, EB, <- app_assoc. now apply one_more_says.
        -- rewrite EB in HS. rewrite (aread_part p _ t HS HT). cbn [map]. rewrite <- len_app. replace (len b <=? len (got ++ inn)) with false.
           2: { rewrite EB, (len_app (got ++ inn)). destruct t; [congruence|]. rewrite (@len_cons N). lia. }
           assert (E2 : (got ++ inn) ++ [] ++ arrived xs ++ fut = concat (b :: bs')) by exact E.
           specialize (IH (p :: ps') (b :: bs') (got ++ inn) [] fut HF E2). rewrite (@len_nil N) in IH. cbn [map app] in IH.
           rewrite (app_assoc got). destruct (tokio_reads (TReader (got ++ inn) []) xs) as [qs o]. cbn [app]. apply IH. intros _. exists b, bs', t. auto.
    + assert (EA : arrived (TDrop :: xs) = arrived xs) by reflexivity. rewrite EA in *. destruct got as [|g got].
      * rewrite (@len_nil N). cbn [N.eqb app] in *. specialize (IH ps bs [] inn fut HF E HP). cbn [app] in IH. rewrite (@len_nil N) in IH.
        destruct (tokio_reads (TReader [] inn) xs) as [qs o]. exact IH.
      * replace (len (g :: got) =? 0) with false by (rewrite (@len_cons N); lia). exists (g :: got), inn, (arrived xs). cbn [firstn concat app].
        split; [reflexivity|]. do 2 (split; [reflexivity|]). split; [discriminate|]. split; reflexivity.
Qed.
Lemma course_exact xs ps bs fut : Forall2 sent ps bs -> arrived xs ++ fut = concat bs ->
  match course_of 0 0 (map (@len N) bs) xs with
  | Reads k n m => exists g i, tokio_reads (TReader [] []) xs = (firstn k ps, Some (TReader g i)) /\ len g = n /\ len i = m /\
      concat (firstn k bs) ++ g ++ i = arrived xs
  | Loses k n m later => exists g i, len g = n /\ len i = m /\ g <> [] /\ concat (firstn k bs) ++ g ++ i ++ arrived later = arrived xs /\
      let (qs, o) := tokio_reads (TReader [] i) later in tokio_reads (TReader [] []) xs = (firstn k ps ++ qs, o)
  end.
Proof.
  intros HF E. assert (HP : part_of [] bs) by (intros X; now elim X). pose proof (tokio_exact xs ps bs [] [] fut HF E HP) as X. cbn [app] in X. rewrite (@len_nil N) in X.
  destruct (course_of 0 0 (map (@len N) bs) xs) as [k n m|k n m l]; cbn [course_says] in X; [exact X|].
  destruct X as (g & i & more & EX & HN & HM & HG & HA & ->). exists g, i. do 4 (split; [assumption|]). destruct (tokio_reads (TReader [] i) l). exact EX.
Qed.

(* ---- cases ---- *)
Lemma ack_sizes i : i < 256 -> frame_sizes [64; 2; 0; i] (2, 2).
Proof. intros _. exists 64, [2], [0; i]. split; [reflexivity|]. split; [apply (spec_varint_is_varint 2); discriminate|]. split; reflexivity. Qed.
Lemma handed_case : let bs := [[64; 2; 0; 7]; [64; 2; 0; 8]] in let chunks := [[64; 2]; [0; 7; 64; 2; 0; 8]; [64]] in
  Forall2 sent [rc_ack 7; rc_ack 8] bs /\ Forall2 frame_sizes bs [(2, 2); (2, 2)] /\ chunks_ok chunks /\
  handed true 0 [(2, 2); (2, 2)] [[64; 2]; [0; 7; 64; 2; 0; 8]] = (1%nat, Some 4) /\
  handed true 0 [(2, 2); (2, 2)] [[64; 2; 0]; [7]] = (O, None) /\ handed false 0 [(2, 2); (2, 2)] [[64; 2; 0]; [7]] = (1%nat, Some 0).
Proof.
  destruct prompt_case as (A & _). split; [exact A|]. split; [constructor; [now apply ack_sizes|constructor; [now apply ack_sizes|constructor]]|].
  split; [repeat constructor; discriminate|]. repeat split; vm_compute; reflexivity.
Qed.
Lemma fate_case : sent rc_connack [32; 3; 0; 0; 0] /\ is_varint [3] /\
  (forall chk, fate_of chk 2 3 [[32]; [3; 0; 0; 0]; [1]] = Received [[1]]) /\ (forall chk, fate_of chk 2 3 [[32; 3]; [0; 0; 0]] = Received []) /\
  (forall chk, fate_of chk 2 3 [[32; 3]; [0; 0]; [0]] = Panics) /\ fate_of true 2 3 [[32; 3; 0; 0]; [0]] = Panics /\ fate_of false 2 3 [[32; 3; 0; 0]; [0]] = Waits.
Proof.
  destruct answer_case as (A & _ & B & _). split; [exact A|]. split; [exact B|]. repeat split; try (intros []); vm_compute; reflexivity.
Qed.
Lemma course_case : let bs := [[64; 2; 0; 7]; [64; 2; 0; 8]] in let sizes := [4; 4] in
  Forall2 sent [rc_ack 7; rc_ack 8] bs /\ map (@len N) bs = sizes /\
  course_of 0 0 sizes [TArrive [64; 2; 0]; TDrop; TPoll; TArrive [7; 64]; TPoll; TDrop] = Reads 1 0 1 /\
  course_of 0 0 sizes [TArrive [64; 2; 0; 7; 64]; TPoll; TPoll; TArrive [2]; TDrop; TArrive [0; 8]] = Loses 1 1 1 [TArrive [0; 8]].
Proof. destruct prompt_case as (A & _). split; [exact A|]. repeat split; vm_compute; reflexivity. Qed.
