(* C43, C54: exactly which bytes panic the smol client *)
From Verif Require Import Base BaseFacts VarInt VarIntFacts Prims PrimFacts Props Codes Packets PacketFacts Options Session Client System SpecCodec SpecRead SpecWire SmolStream TokioRead Wire SpecAnswer SpecPanic SpecCrash
  FrameFacts PanicFacts WireFacts WireMore EndMore DecodeFacts.

Lemma header_read s enc : all_bytes s -> headed s enc -> exists h, read_fixed_header s = RbOk (h, 1 + len enc) /\ fh_rem h = groups_value enc.
Proof.
  intros HB (first & more & -> & HL & HV). inversion HB as [|? ? Hf _]; subst. pose proof (legal_first_ok first Hf) as L. rewrite HL in L. destruct L as (t & fl & L).
  exists (FH t fl (groups_value enc)). pose proof (is_varint_len enc HV). unfold read_fixed_header. rewrite (@len_cons N), !len_app.
  match goal with |- context [?a <? 2] => replace (a <? 2) with false by lia end. rewrite L. unfold read_rem_len. rewrite read_varint_enc by assumption. split; reflexivity.
Qed.
Lemma read_header s h n : all_bytes s -> read_fixed_header s = RbOk (h, n) -> exists enc, headed s enc /\ n = 1 + len enc /\ fh_rem h = groups_value enc.
Proof.
  intros HB HR. assert (forall enc, headed s enc -> exists enc, headed s enc /\ n = 1 + len enc /\ fh_rem h = groups_value enc) as X.
  { intros enc HH. exists enc. split; [exact HH|]. destruct (header_read _ _ HB HH) as (h' & E & EV). rewrite HR in E. injection E as -> ->. auto. }
  destruct (buf_cases s HB) as [s HT|first rs HL H1|first init rs HL HF HI|first init HL HF HI HN|first enc body HL HV HBd|first enc body rs HL HV HBd].
  1: { unfold read_fixed_header in HR. replace (len s <? 2) with true in HR by lia. discriminate HR. }
  all: inversion HB as [|? ? Hf Hr]; subst; pose proof (legal_first_ok first Hf) as L; rewrite HL in L.
  - unfold read_fixed_header in HR. rewrite (@len_cons N) in HR. match type of HR with context [?a <? 2] => replace (a <? 2) with false in HR by lia end. rewrite L in HR. discriminate HR.
  - destruct L as (t & fl & L). unfold read_fixed_header in HR. rewrite (@len_cons N), len_app in HR. match type of HR with context [?a <? 2] => replace (a <? 2) with false in HR by lia end. rewrite L in HR.
    unfold read_rem_len in HR. rewrite (read_varint_loop_long 4 init) in HR; [discriminate HR|assumption|unfold len in HI; lia].
  - destruct L as (t & fl & L). assert (1 <= len init) by (destruct init; [congruence|rewrite (@len_cons N); lia]). unfold read_fixed_header in HR. rewrite (@len_cons N) in HR.
    match type of HR with context [?a <? 2] => replace (a <? 2) with false in HR by lia end. rewrite L in HR.
    unfold read_rem_len in HR. rewrite (read_varint_loop_short 4 init) in HR; [discriminate HR|assumption|unfold len in HI; lia].
  - apply (X enc). exists first, body. auto.
  - apply (X enc). exists first, (body ++ rs). auto.
Qed.
Lemma headed_one s e1 e2 : all_bytes s -> headed s e1 -> headed s e2 -> len e1 = len e2 /\ groups_value e1 = groups_value e2.
Proof.
  intros HB H1 H2. destruct (header_read _ _ HB H1) as (h1 & E1 & V1), (header_read _ _ HB H2) as (h2 & E2 & V2). rewrite E1 in E2. injection E2 as -> E2. split; [lia|congruence].
Qed.
Lemma headed_more s t enc : headed s enc -> headed (s ++ t) enc.
Proof. intros (first & more & -> & HL & HV). exists first, (more ++ t). split; [cbn; now rewrite <- app_assoc|auto]. Qed.
Lemma headed_len s enc : headed s enc -> 1 + len enc <= len s.
Proof. intros (first & more & -> & _ & _). rewrite (@len_cons N), len_app. lia. Qed.

Lemma finish_panics h n s : all_bytes s -> read_fixed_header s = RbOk (h, n) -> fh_rem h + n <= len s -> (finish h n s = MPanic <-> panics s).
Proof.
  intros HB HR HL. pose proof (decode_panics s Panicked HB) as D. unfold read_packet in D. rewrite HR in D. replace (len s <? fh_rem h + n) with false in D by lia. cbv zeta in D.
  unfold finish. cbv zeta. rewrite len_drop. replace (len s - n <? fh_rem h) with false by lia.
  assert (forall r, read_body h (take (fh_rem h) (drop n s)) = Crash r -> r = Panicked) as HP.
  { intros r E. pose proof (decode_panics s r HB) as D'. unfold read_packet in D'. rewrite HR in D'. replace (len s <? fh_rem h + n) with false in D' by lia. cbv zeta in D'. rewrite E in D'.
    exact (proj1 (proj1 D' eq_refl)). }
  destruct (read_body h (take (fh_rem h) (drop n s))) as [[q r]|e|r] eqn:E.
  - split; [discriminate|]. intros X. discriminate (proj2 D (conj eq_refl X)).
  - split; [discriminate|]. intros X. discriminate (proj2 D (conj eq_refl X)).
  - rewrite (HP _ eq_refl) in D. split; [|reflexivity]. intros _. exact (proj2 (proj1 D eq_refl)).
Qed.
Lemma finish_short h n s : len s < fh_rem h + n -> n <= len s -> finish h n s = MPanic.
Proof. intros H1 H2. unfold finish. cbv zeta. rewrite len_drop. now replace (len s - n <? fh_rem h) with true by lia. Qed.
(* what panics the decoder is complete *)
Lemma panics_whole s : all_bytes s -> panics s -> exists h n, read_fixed_header s = RbOk (h, n) /\ fh_rem h + n <= len s.
Proof.
  intros HB HP. pose proof (proj2 (decode_panics s Panicked HB) (conj eq_refl HP)) as D. unfold read_packet in D.
  destruct (read_fixed_header s) as [[h n]|e|n]; [|discriminate D|discriminate D]. exists h, n. split; [reflexivity|]. destruct (N.ltb_spec (len s) (fh_rem h + n)); [discriminate D|assumption].
Qed.
Lemma panics_more s t h n : all_bytes (s ++ t) -> read_fixed_header s = RbOk (h, n) -> fh_rem h + n <= len s -> (panics (s ++ t) <-> panics s).
Proof.
  intros HB HR HL. assert (all_bytes s) as HS by (apply all_bytes_app in HB; tauto). destruct (header_more _ _ _ t HR) as [HR' HN].
  rewrite <- (finish_panics _ _ _ HB HR') by (rewrite len_app; lia). rewrite <- (finish_panics _ _ _ HS HR HL). unfold finish. cbv zeta. rewrite !len_drop, len_app.
  replace (len s - n <? fh_rem h) with false by lia. replace (len s + len t - n <? fh_rem h) with false by lia.
  replace (take (fh_rem h) (drop n (s ++ t))) with (take (fh_rem h) (drop n s)); [destruct (read_body _ _) as [[]| |]; split; congruence|].
  unfold take, drop. rewrite !skipn_app, firstn_app. unfold len in *. rewrite skipn_length.
  replace (N.to_nat (fh_rem h) - (length s - N.to_nat n))%nat with O by lia. now rewrite firstn_O, app_nil_r.
Qed.

(* ---- run ---- *)
Lemma parse_panics chk s : all_bytes s -> (parse_message chk s = MPanic <-> run_panics chk s).
Proof.
  intros HB. unfold parse_message, run_panics. destruct (read_fixed_header s) as [[h n]|e|n] eqn:E.
  2, 3: (split; [discriminate|]; intros [H|(_ & enc & H & _)]; [destruct (panics_whole _ HB H) as (? & ? & E' & _)|destruct (header_read _ _ HB H) as (? & E' & _)]; congruence).
  destruct (read_header _ _ _ HB E) as (enc & HH & EN & EV). destruct (N.ltb_spec (len s) (fh_rem h + n)) as [HL|HL].
  - unfold usize_sub. split.
    + intros H. right. destruct (N.ltb_spec (fh_rem h) (len s)); [|discriminate H]. destruct chk; [|discriminate H]. split; [reflexivity|]. exists enc. split; [exact HH|lia].
    + intros [H|(-> & enc' & HH' & H1 & H2)]; [destruct (panics_whole _ HB H) as (? & ? & E' & HL'); rewrite E in E'; injection E' as <- <-; lia|].
      destruct (headed_one _ _ _ HB HH HH') as [E1 E2]. replace (fh_rem h <? len s) with true by lia. reflexivity.
  - rewrite (finish_panics _ _ _ HB E HL). split; [auto|]. intros [H|(_ & enc' & HH' & H1 & H2)]; [exact H|]. destruct (headed_one _ _ _ HB HH HH') as [E1 E2]. lia.
Qed.
Lemma smol_run_exact c chk xs w w' k ch rest : cf_rt c = Smol -> Forall wbytes xs -> wexec c chk xs (winit c chk) = Some w ->
  y_pc (w_sys w) = PSelect k -> sr_in (w_net w) = ch :: rest -> ch <> [] -> wread c chk w = Some w' ->
  (w_dead w' = true <-> run_panics chk (sr_buf (w_net w) ++ ch)).
Proof.
  intros HK HF HX EP EI HC HW. pose proof (proj2 (wire_tracked _ _ _ _ HF HX)) as [[[HB1 HB2] _] _]. rewrite EI in HB2. apply Forall_cons_iff in HB2 as [HB2 _].
  assert (all_bytes (sr_buf (w_net w) ++ ch)) as HB by now apply all_bytes_app. assert (wreachable c chk w) as HR by now exists xs.
  destruct (wire_linked _ _ _ HR) as (HL & _ & HL3). assert (nt_connected (y_net (w_sys w)) = true) as HN by (apply HL3; now rewrite EP).
  destruct (HL HN) as (a & _ & HG). destruct (smol_answered _ _ _ HK HR) as [_ HA]. assert (sr_need (w_net w) = None) as HE by (apply HA; rewrite HG; discriminate).
  rewrite <- (parse_panics chk _ HB). unfold wread in HW. destruct (w_dead w); [discriminate HW|]. rewrite EP in HW. unfold read_result, take_chunk in HW. rewrite EI, HK, HE, EP in HW.
  destruct ch as [|x ch]; [congruence|]. unfold smol_take in HW. destruct (parse_message chk _) as [p b|b|e|].
  - destruct (step c (EPacket p) (w_sys w)); [|discriminate HW]. injection HW as <-. split; discriminate.
  - destruct (step c EPartial (w_sys w)); [|discriminate HW]. injection HW as <-. split; discriminate.
  - destruct (step c (EReadErr _) (w_sys w)); [|discriminate HW]. injection HW as <-. split; discriminate.
  - injection HW as <-. split; reflexivity.
Qed.

(* ---- connect ---- *)
Lemma header_err s t e : all_bytes s -> read_fixed_header s = RbErr e -> forall enc, ~ headed (s ++ t) enc.
Proof.
  intros HB HR enc (first & more & E & HL & HV).
  assert (all_bytes s -> forall enc, ~ headed s enc) as X by (intros _ e' H; destruct (header_read _ _ HB H) as (h & E' & _); congruence). specialize (X HB).
  destruct s as [|f s]; [discriminate HR|]. injection E as -> E. inversion HB as [|? ? Hf _]; subst. pose proof (legal_first_ok first Hf) as L. rewrite HL in L. destruct L as (ty & fl & L).
  pose proof (buf_cases _ HB) as HK. remember (first :: s) as z eqn:EZ.
  destruct HK as [s0 HT|first0 rs HL0 H1|first0 init rs HL0 HF HI|first0 init HL0 HF HI HN|first0 enc0 body HL0 HV0 HBd|first0 enc0 body rs HL0 HV0 HBd]; clear X; try (injection EZ as -> EZ; subst s).
  - unfold read_fixed_header in HR. replace (len s0 <? 2) with true in HR by lia. discriminate HR.
  - congruence.
  - rewrite <- app_assoc in E. pose proof (read_varint_enc enc more HV) as V. rewrite <- E, (read_varint_loop_long 4 init) in V; [discriminate V|assumption|unfold len in HI; lia].
  - unfold read_fixed_header in HR. rewrite (@len_cons N) in HR. assert (1 <= len init) by (destruct init; [congruence|rewrite (@len_cons N); lia]).
    match type of HR with context [?a <? 2] => replace (a <? 2) with false in HR by lia end. rewrite L in HR. unfold read_rem_len in HR. rewrite (read_varint_loop_short 4 init) in HR; [discriminate HR|assumption|unfold len in HI; lia].
  - destruct (header_read (first :: enc0 ++ body) enc0 HB) as (h & E' & _); [exists first, body; auto|congruence].
  - destruct (header_read (first :: enc0 ++ body ++ rs) enc0 HB) as (h & E' & _); [exists first, (body ++ rs); auto|congruence].
Qed.
Lemma header_wants s n : all_bytes s -> read_fixed_header s = RbMore n -> n = 1 \/ n + len s = 2.
Proof.
  intros HB HR. destruct (buf_cases s HB) as [s HT|first rs HL H1|first init rs HL HF HI|first init HL HF HI HN|first enc body HL HV HBd|first enc body rs HL HV HBd].
  1: { unfold read_fixed_header in HR. replace (len s <? 2) with true in HR by lia. injection HR as <-. right. lia. }
  4: { destruct (header_read _ enc HB) as (h & E' & _); [exists first, body; auto|congruence]. }
  4: { destruct (header_read _ enc HB) as (h & E' & _); [exists first, (body ++ rs); auto|congruence]. }
  all: inversion HB as [|? ? Hf Hr]; subst; pose proof (legal_first_ok first Hf) as L; rewrite HL in L.
  - unfold read_fixed_header in HR. rewrite (@len_cons N) in HR. match type of HR with context [?a <? 2] => replace (a <? 2) with false in HR by lia end. rewrite L in HR. discriminate HR.
  - destruct L as (t & fl & L). unfold read_fixed_header in HR. rewrite (@len_cons N), len_app in HR. match type of HR with context [?a <? 2] => replace (a <? 2) with false in HR by lia end. rewrite L in HR.
    unfold read_rem_len in HR. rewrite (read_varint_loop_long 4 init) in HR; [discriminate HR|assumption|unfold len in HI; lia].
  - destruct L as (t & fl & L). assert (1 <= len init) by (destruct init; [congruence|rewrite (@len_cons N); lia]). unfold read_fixed_header in HR. rewrite (@len_cons N) in HR.
    match type of HR with context [?a <? 2] => replace (a <? 2) with false in HR by lia end. rewrite L in HR.
    unfold read_rem_len in HR. rewrite (read_varint_loop_short 4 init) in HR; [|assumption|unfold len in HI; lia]. injection HR as <-. now left.
Qed.
Lemma headed_less s t enc : headed (s ++ t) enc -> 1 + len enc <= len s -> headed s enc.
Proof.
  intros (first & more & E & HL & HV) HN. destruct s as [|f s]; [rewrite (@len_nil N) in HN; lia|]. injection E as -> E. rewrite (@len_cons N) in HN.
  apply app_eq_app in E as (l & [[E1 E2]|[E1 E2]]); [exists first, l; subst s; auto|].
  assert (l = []) as -> by (apply (f_equal (@len N)) in E1; rewrite len_app in E1; destruct l; [reflexivity|rewrite (@len_cons N) in E1; lia]).
  rewrite app_nil_r in E1. subst enc. exists first, []. rewrite app_nil_r. auto.
Qed.

Lemma body_panics chk h n : forall chunks w buf, chunks_ok chunks -> all_bytes (buf ++ concat chunks) -> read_fixed_header buf = RbOk (h, n) -> wt_head w = Some (h, n) ->
  wt_need w + len buf = fh_rem h + wt_total w ->
  (smol_read chk w buf chunks = Broken Panic <->
   match take_until (fh_rem h) (len buf) chunks with None => False | Some (m, _) => if n + fh_rem h <=? m then panics (buf ++ concat chunks) else True end).
Proof.
  induction chunks as [|ch chunks IH]; intros w buf HC HB HR HW HN; [cbn; split; [discriminate|intros []]|].
  inversion HC as [|? ? HX HC']; subst. cbn [smol_read concat take_until] in *. destruct ch as [|x ch]; [congruence|]. set (c := x :: ch) in *.
  rewrite app_assoc in HB. rewrite app_assoc. destruct (header_more _ _ _ c HR) as [HR' HN']. unfold read_more. destruct (N.ltb_spec (wt_total w + len c) (wt_need w)) as [Hlt|Hge].
  - replace (fh_rem h <=? len buf + len c) with false by lia. rewrite <- (len_app buf c). apply IH; auto. cbn [wt_need wt_total]. rewrite len_app. lia.
  - replace (fh_rem h <=? len buf + len c) with true by lia. rewrite HW. rewrite <- (len_app buf c). pose proof HB as HB'. apply all_bytes_app in HB' as [HB' _].
    destruct (N.leb_spec (n + fh_rem h) (len (buf ++ c))) as [HL|HL].
    + rewrite (panics_more _ _ _ _ HB HR') by lia. rewrite <- (finish_panics _ _ _ HB' HR') by lia. destruct (finish h n (buf ++ c)); split; congruence.
    + rewrite finish_short; [split; auto|lia|rewrite len_app; lia].
Qed.
Lemma wrap_waits chk h n : forall chunks w buf, chunks_ok chunks -> wt_head w = Some (h, n) -> 2 ^ 64 + wt_total w <= wt_need w + len buf ->
  len (buf ++ concat chunks) < 2 ^ 64 -> smol_read chk w buf chunks = Pending.
Proof.
  induction chunks as [|ch chunks IH]; intros w buf HC HW HN HB; [reflexivity|].
  inversion HC as [|? ? HX HC']; subst. cbn [smol_read concat] in *. destruct ch as [|x ch]; [congruence|]. set (c := x :: ch) in *.
  unfold read_more. rewrite !len_app in HB. replace (wt_total w + len c <? wt_need w) with true by lia.
  apply IH; [exact HC'|exact HW| |rewrite !len_app; lia]. cbn [wt_need wt_total]. rewrite len_app. lia.
Qed.
Lemma head_panics chk : forall chunks w buf, chunks_ok chunks -> all_bytes (buf ++ concat chunks) -> len (buf ++ concat chunks) < 2 ^ 64 ->
  wt_head w = None -> wt_need w = wt_total w + 1 \/ wt_need w + len buf <= 2 + wt_total w ->
  (smol_read chk w buf chunks = Broken Panic <->
   exists enc, headed (buf ++ concat chunks) enc /\
     match take_until (1 + len enc) (len buf) chunks with
     | None => False
     | Some (k, rest) =>
         if 1 + len enc + groups_value enc <=? k then panics (buf ++ concat chunks)
         else if groups_value enc <? k then chk = true
         else match take_until (groups_value enc) k rest with
              | None => False
              | Some (m, _) => if 1 + len enc + groups_value enc <=? m then panics (buf ++ concat chunks) else True
              end
     end).
Proof.
  induction chunks as [|ch chunks IH]; intros w buf HC HB HS HW HN; [cbn; split; [discriminate|intros (enc & _ & [])]|].
  inversion HC as [|? ? HX HC']; subst. cbn [smol_read concat] in *. destruct ch as [|x ch]; [congruence|]. set (c := x :: ch) in *. assert (1 <= len c) as HL1 by (subst c; rewrite (@len_cons N); lia).
  assert (forall n, take_until n (len buf) (c :: chunks) = if n <=? len (buf ++ c) then Some (len (buf ++ c), chunks) else take_until n (len (buf ++ c)) chunks) as HT
    by (intros n; cbn [take_until]; now rewrite <- !len_app).
  rewrite app_assoc in HB, HS. rewrite app_assoc. pose proof HB as HB'. apply all_bytes_app in HB' as [HB' _]. unfold read_more.
  assert (forall enc, headed ((buf ++ c) ++ concat chunks) enc -> ~ headed (buf ++ c) enc -> (1 + len enc <=? len (buf ++ c)) = false) as HLate.
  { intros enc H1 H2. destruct (N.leb_spec (1 + len enc) (len (buf ++ c))) as [H|H]; [|reflexivity]. elim H2. exact (headed_less _ _ _ H1 H). }
  assert (forall w', (smol_read chk w' (buf ++ c) chunks = Broken Panic <-> exists enc, headed ((buf ++ c) ++ concat chunks) enc /\
     match take_until (1 + len enc) (len (buf ++ c)) chunks with
     | None => False
     | Some (k, rest) =>
         if 1 + len enc + groups_value enc <=? k then panics ((buf ++ c) ++ concat chunks)
         else if groups_value enc <? k then chk = true
         else match take_until (groups_value enc) k rest with
              | None => False
              | Some (m, _) => if 1 + len enc + groups_value enc <=? m then panics ((buf ++ c) ++ concat chunks) else True
              end
     end) -> (forall enc, ~ headed (buf ++ c) enc) -> (smol_read chk w' (buf ++ c) chunks = Broken Panic <-> exists enc, headed ((buf ++ c) ++ concat chunks) enc /\
     match take_until (1 + len enc) (len buf) (c :: chunks) with
     | None => False
     | Some (k, rest) =>
         if 1 + len enc + groups_value enc <=? k then panics ((buf ++ c) ++ concat chunks)
         else if groups_value enc <? k then chk = true
         else match take_until (groups_value enc) k rest with
              | None => False
              | Some (m, _) => if 1 + len enc + groups_value enc <=? m then panics ((buf ++ c) ++ concat chunks) else True
              end
     end)) as HGo.
  { intros w' H HNo. rewrite H. split; intros (enc & HH & HM); exists enc; (split; [exact HH|]); rewrite HT, (HLate enc HH (HNo enc)) in *; exact HM. }
  destruct (N.ltb_spec (wt_total w + len c) (wt_need w)) as [H1|H1].
  - apply HGo; [apply IH; auto; cbn [wt_need wt_total]; rewrite ?len_app; lia|]. intros enc (first & more & E & _ & HV). apply (f_equal (@len N)) in E. rewrite (@len_cons N), !len_app in E. pose proof (is_varint_len _ HV). lia.
  - rewrite HW. unfold read_round. destruct (read_fixed_header (buf ++ c)) as [[h n]|e|n] eqn:ER.
    + destruct (read_header _ _ _ HB' ER) as (enc & HH & EN & EV). pose proof (headed_len _ _ HH) as HL.
      assert (forall P : Prop, (P <-> match take_until (1 + len enc) (len buf) (c :: chunks) with
          | None => False
          | Some (k, rest) =>
              if 1 + len enc + groups_value enc <=? k then panics ((buf ++ c) ++ concat chunks)
              else if groups_value enc <? k then chk = true
              else match take_until (groups_value enc) k rest with
                   | None => False
                   | Some (m, _) => if 1 + len enc + groups_value enc <=? m then panics ((buf ++ c) ++ concat chunks) else True
                   end
          end) -> (P <-> exists enc, headed ((buf ++ c) ++ concat chunks) enc /\ match take_until (1 + len enc) (len buf) (c :: chunks) with
          | None => False
          | Some (k, rest) =>
              if 1 + len enc + groups_value enc <=? k then panics ((buf ++ c) ++ concat chunks)
              else if groups_value enc <? k then chk = true
              else match take_until (groups_value enc) k rest with
                   | None => False
                   | Some (m, _) => if 1 + len enc + groups_value enc <=? m then panics ((buf ++ c) ++ concat chunks) else True
                   end
          end)) as HOne.
      { intros P [HP1 HP2]. split; [intros HP; exists enc; split; [now apply headed_more|exact (HP1 HP)]|]. intros (enc' & HH' & HM). apply HP2.
        destruct (headed_one _ _ _ HB (headed_more _ (concat chunks) _ HH) HH') as [E1 E2]. rewrite E1, E2. exact HM. }
      apply HOne. rewrite HT. replace (1 + len enc <=? len (buf ++ c)) with true by lia. rewrite <- EV, <- EN.
      destruct (N.ltb_spec (len (buf ++ c)) (n + fh_rem h)) as [Hs|Hs].
      * replace (n + fh_rem h <=? len (buf ++ c)) with false by lia. unfold usize_sub. destruct (N.ltb_spec (fh_rem h) (len (buf ++ c))) as [Hu|Hu].
        -- destruct chk; [split; auto|]. rewrite (wrap_waits false h n); [split; discriminate|exact HC'|reflexivity|cbn [wt_need wt_total]; lia|exact HS].
        -- apply (body_panics chk h n); auto. cbn [wt_need wt_total]. lia.
      * replace (n + fh_rem h <=? len (buf ++ c)) with true by lia. rewrite (panics_more _ _ _ _ HB ER) by lia. rewrite <- (finish_panics _ _ _ HB' ER) by lia.
        destruct (finish h n (buf ++ c)); split; congruence.
    + split; [discriminate|]. intros (enc & HH & _). elim (header_err _ (concat chunks) _ HB' ER enc HH).
    + apply HGo; [apply IH; auto; cbn [wt_need wt_total]; destruct (header_wants _ _ HB' ER); lia|]. intros enc HH. destruct (header_read _ _ HB' HH) as (h & E' & _). congruence.
Qed.
Lemma connect_exact chk chunks : chunks_ok chunks -> all_bytes (concat chunks) -> len (concat chunks) < 2 ^ 64 -> (read_answer chk chunks = Broken Panic <-> connect_panics chk chunks).
Proof.
  intros HC HB HS. unfold read_answer. change (read_round chk []) with (@inl waiting message (Need 2 0 None)). cbv iota.
  rewrite (head_panics chk chunks (Need 2 0 None) [] HC HB HS eq_refl); [|right; rewrite (@len_nil N); cbn [wt_need wt_total]; lia]. rewrite (@len_nil N). cbn [app].
  unfold connect_panics, fate_of. split; intros (enc & HH & HM); exists enc; (split; [exact HH|]).
  - destruct (take_until (1 + len enc) 0 chunks) as [[k rest]|]; [|destruct HM]. destruct (_ <=? k); [exact HM|]. destruct (_ <? k); [rewrite HM; exact I|].
    destruct (take_until _ k rest) as [[m rest']|]; [|destruct HM]. destruct (_ <=? m); auto.
  - destruct (take_until (1 + len enc) 0 chunks) as [[k rest]|]; [|destruct HM]. destruct (_ <=? k); [exact HM|]. destruct (_ <? k); [now destruct chk|].
    destruct (take_until _ k rest) as [[m rest']|]; [|destruct HM]. destruct (_ <=? m); auto.
Qed.

(* ---- connect, in the model of the whole client ---- *)
Definition reading (chk : bool) (chunks : list bytes) (r : stream) : Prop := sr_got r = [] ->
  exists taken w, chunks = taken ++ sr_in r /\ chunks_ok taken /\ sr_need r = Some w /\ forall more, read_answer chk (taken ++ more) = smol_read chk w (sr_buf r) more.
Lemma new_reading chk : reading chk [] (new_stream chk).
Proof.
  intros _. exists [], (Need 2 0 None). change (new_stream chk) with (Stream [] (Some (Need 2 0 None)) [] [] [] false). split; [reflexivity|]. split; [constructor|]. split; [reflexivity|]. reflexivity.
Qed.
Lemma take_reading chk chunks r : reading chk chunks r -> match take_chunk Smol chk r with SMore r' | SPacket _ r' => reading chk chunks r' | _ => True end.
Proof.
  intros HR. unfold take_chunk. destruct (sr_in r) as [|[|x ch] rest] eqn:EI; [exact I|exact I|]. set (c := x :: ch) in *. destruct (sr_got r) as [|p ps] eqn:EG.
  - destruct (HR EG) as (taken & w & -> & HT & EN & HM). rewrite EN. unfold smol_answer. destruct (read_more chk w c (sr_buf r ++ c)) as [w'|[p b|b|e|]] eqn:ER; try exact I.
    + intros _. exists (taken ++ [c]), w'. cbn [sr_in sr_need sr_buf]. rewrite EI, <- app_assoc. split; [reflexivity|]. split; [apply Forall_app; split; [exact HT|constructor; [discriminate|constructor]]|].
      split; [reflexivity|]. intros more. rewrite <- app_assoc. cbn [app]. rewrite HM. cbn [smol_read]. subst c. now rewrite ER.
    + intros X. cbn [sr_got] in X. destruct (sr_got r); discriminate X.
  - destruct (sr_need r) as [w|]; [unfold smol_answer; destruct (read_more _ _ _ _) as [w'|[q b|b|e|]]; try exact I|unfold smol_take; destruct (parse_message _ _) as [q b|b|e|]; try exact I];
      intros X; cbn [sr_got] in X; rewrite EG in X; discriminate X.
Qed.
Lemma smol_reading c chk xs : cf_rt c = Smol -> forall w, wexec c chk xs (winit c chk) = Some w -> reading chk (answer_chunks xs) (w_new w).
Proof.
  intros HK. induction xs as [|x xs IH] using rev_ind; intros w H; [injection H as <-; apply new_reading|].
  rewrite wexec_app in H. destruct (wexec c chk xs (winit c chk)) as [w1|]; [|discriminate]. specialize (IH _ eq_refl). cbn [wexec] in H. destruct (wstep c chk x w1) as [w2|] eqn:ES; [|discriminate]. injection H as <-.
  unfold answer_chunks in *. rewrite fold_left_app. cbn [fold_left]. set (a := fold_left _ xs []) in *. destruct x as [[] ch| |e]; cbn [wstep] in ES.
  - injection ES as <-. cbn [w_new]. intros HG. destruct (IH HG) as (taken & w & E & HT & EN & HM). exists taken, w. rewrite E. cbn [arrive sr_in sr_need sr_buf]. rewrite <- app_assoc. auto.
  - injection ES as <-. exact IH.
  - unfold wread in ES. destruct (w_dead w1); [discriminate ES|]. pose proof (take_reading chk _ _ IH) as HT.
    destruct (y_pc (w_sys w1)) eqn:EP; try discriminate ES; unfold read_result in ES; rewrite HK, EP in ES.
    + destruct (take_chunk Smol chk (w_new w1)) as [|r|p r|e|].
      * discriminate ES.
      * injection ES as <-. exact HT.
      * destruct (step c (EPacket p) (w_sys w1)); [|discriminate ES]. injection ES as <-. exact HT.
      * destruct (step c (EReadErr e) (w_sys w1)); [|discriminate ES]. injection ES as <-. exact IH.
      * injection ES as <-. exact IH.
    + destruct (take_chunk Smol chk (w_net w1)) as [|r|p r|e|].
      * discriminate ES.
      * destruct (step c EPartial (w_sys w1)); [|discriminate ES]. injection ES as <-. exact IH.
      * destruct (step c (EPacket p) (w_sys w1)); [|discriminate ES]. injection ES as <-. exact IH.
      * destruct (step c (EReadErr e) (w_sys w1)); [|discriminate ES]. injection ES as <-. exact IH.
      * injection ES as <-. exact IH.
  - unfold wevents in ES. destruct (Wire.is_read e || _); [discriminate ES|]. destruct (step c e (w_sys w1)) as [s|]; [|discriminate ES]. injection ES as <-.
    destruct e; try exact IH. apply new_reading.
Qed.
Lemma chunks_bytes xs : Forall wbytes xs -> all_bytes (concat (answer_chunks xs)).
Proof.
  induction xs as [|x xs IH] using rev_ind; intros H; [constructor|]. apply Forall_app in H as [H HX]. apply Forall_inv in HX. specialize (IH H). unfold answer_chunks in *. rewrite fold_left_app. cbn [fold_left].
  destruct x as [[] ch| |e]; try exact IH; [|destruct e; try exact IH; constructor]. rewrite concat_app. cbn [concat]. rewrite app_nil_r. now apply all_bytes_app.
Qed.
Lemma smol_connect_exact c chk xs w w' taken ch rest : cf_rt c = Smol -> Forall wbytes xs -> wexec c chk xs (winit c chk) = Some w -> len (concat (answer_chunks xs)) < 2 ^ 64 ->
  y_pc (w_sys w) = PConnRead -> answer_chunks xs = taken ++ ch :: rest -> sr_in (w_new w) = ch :: rest -> ch <> [] -> wread c chk w = Some w' ->
  (w_dead w' = true <-> connect_panics chk (taken ++ [ch])).
Proof.
  intros HK HF HX HS EP EA EI HC HW. assert (wreachable c chk w) as HR by now exists xs. destruct (wire_linked _ _ _ HR) as (_ & HL & _). rewrite EP in HL.
  destruct (smol_reading _ _ _ HK _ HX HL) as (tk & nd & E & HT & EN & HM). rewrite EA, EI in E. apply app_inv_tail in E as <-.
  pose proof (chunks_bytes _ HF) as HB. rewrite EA in HB, HS. replace (taken ++ ch :: rest) with ((taken ++ [ch]) ++ rest) in HB, HS by now rewrite <- app_assoc.
  rewrite concat_app in HB, HS. apply all_bytes_app in HB as [HB _]. rewrite len_app in HS.
  rewrite <- connect_exact; [|apply Forall_app; split; [exact HT|constructor; [exact HC|constructor]]|exact HB|lia].
  rewrite HM. unfold wread in HW. destruct (w_dead w); [discriminate HW|]. rewrite EP in HW. unfold read_result, take_chunk in HW. rewrite EI, HK, EN, EP in HW. destruct ch as [|x ch]; [congruence|].
  unfold smol_answer in HW. cbn [smol_read]. destruct (read_more chk nd _ _) as [w1|[p b|b|e|]].
  - injection HW as <-. split; discriminate.
  - destruct (step c (EPacket p) (w_sys w)); [|discriminate HW]. injection HW as <-. split; discriminate.
  - discriminate HW.
  - destruct (step c (EReadErr _) (w_sys w)); [|discriminate HW]. injection HW as <-. split; discriminate.
  - injection HW as <-. split; reflexivity.
Qed.
