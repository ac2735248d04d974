(* The byte level. *)
From Verif Require Import Base BaseFacts VarInt VarIntFacts Prims Props Codes Packets PacketFacts Options Session Client System SpecCodec SpecRead SmolStream TokioRead CodecMore InjFacts GoodFacts FrameFacts ReadFacts ReadMore Wire.

(* --- every execution on bytes is an execution on packets --- *)
Lemma exec_snoc c es : forall s s' e s'', exec c es s = Some s' -> step c e s' = Some s'' -> exec c (es ++ [e]) s = Some s''.
Proof.
  induction es as [|x es IH]; intros s s' e s'' H H1; cbn [exec app] in *.
  - injection H as ->. now rewrite H1.
  - destruct (step c x s) as [t|]; [|discriminate]. eauto.
Qed.
Lemma reachable_step c s e s' : reachable c s -> step c e s = Some s' -> reachable c s'.
Proof. intros [es H] H1. exists (es ++ [e]). eapply exec_snoc; eauto. Qed.

Lemma wexec_app c chk xs : forall ys w, wexec c chk (xs ++ ys) w = match wexec c chk xs w with Some w' => wexec c chk ys w' | None => None end.
Proof. induction xs as [|x xs IH]; intros ys w; cbn [wexec app]; [reflexivity|]. destruct (wstep c chk x w); [apply IH|reflexivity]. Qed.
Lemma wreachable_ind c chk (P : wire -> Prop) : P (winit c chk) -> (forall x w w', wreachable c chk w -> P w -> wstep c chk x w = Some w' -> P w') ->
  forall w, wreachable c chk w -> P w.
Proof.
  intros H0 HS w [xs H]. revert w H. induction xs as [|x xs IH] using rev_ind; intros w H.
  - cbn in H. injection H as <-. exact H0.
  - rewrite wexec_app in H. destruct (wexec c chk xs (winit c chk)) as [w1|] eqn:E; [|discriminate]. cbn [wexec] in H.
    destruct (wstep c chk x w1) as [w2|] eqn:E2; [|discriminate]. injection H as ->. eapply HS; [exists xs; exact E|now apply IH|exact E2].
Qed.

(* what a step does to the system and to the streams *)
Inductive wtrans (c : config) (chk : bool) (w : wire) : wire -> Prop :=
| wt_arrive_new ch : wtrans c chk w (Wire (w_sys w) (arrive ch (w_new w)) (w_net w) (w_dead w))
| wt_arrive_net ch : wtrans c chk w (Wire (w_sys w) (w_new w) (arrive ch (w_net w)) (w_dead w))
| wt_connect s : step c EConnect (w_sys w) = Some s -> wtrans c chk w (Wire s (new_stream chk) (w_net w) (w_dead w))
| wt_drop e s : (e = EOutgoing \/ e = ETimer) -> step c e (w_sys w) = Some s -> wtrans c chk w (Wire s (w_new w) (drop_read (cf_rt c) (w_net w)) (w_dead w))
| wt_event e s : is_read e = false -> e <> EConnect -> e <> EOutgoing -> e <> ETimer -> step c e (w_sys w) = Some s ->
    wtrans c chk w (Wire s (w_new w) (if opens c e (w_sys w) then w_new w else w_net w) (w_dead w))
| wt_new_more r : y_pc (w_sys w) = PConnRead -> take_chunk (cf_rt c) chk (w_new w) = SMore r -> wtrans c chk w (Wire (w_sys w) r (w_net w) false)
| wt_new_packet p r s : y_pc (w_sys w) = PConnRead -> take_chunk (cf_rt c) chk (w_new w) = SPacket p r -> step c (EPacket p) (w_sys w) = Some s ->
    wtrans c chk w (Wire s r (w_net w) false)
| wt_new_fail e s : y_pc (w_sys w) = PConnRead -> take_chunk (cf_rt c) chk (w_new w) = SFail e -> step c (EReadErr e) (w_sys w) = Some s ->
    wtrans c chk w (Wire s (w_new w) (w_net w) false)
| wt_net_more t r s : y_pc (w_sys w) = PSelect t -> take_chunk (cf_rt c) chk (w_net w) = SMore r -> step c EPartial (w_sys w) = Some s ->
    wtrans c chk w (Wire s (w_new w) r false)
| wt_net_packet t p r s : y_pc (w_sys w) = PSelect t -> take_chunk (cf_rt c) chk (w_net w) = SPacket p r -> step c (EPacket p) (w_sys w) = Some s ->
    wtrans c chk w (Wire s (w_new w) r false)
| wt_net_fail t e s : y_pc (w_sys w) = PSelect t -> take_chunk (cf_rt c) chk (w_net w) = SFail e -> step c (EReadErr e) (w_sys w) = Some s ->
    wtrans c chk w (Wire s (w_new w) (w_net w) false)
| wt_panic : wtrans c chk w (Wire (w_sys w) (w_new w) (w_net w) true).

Lemma wstep_trans c chk x w w' : wstep c chk x w = Some w' -> wtrans c chk w w'.
Proof.
  destruct x as [[] ch| |e]; cbn [wstep].
  - intros [= <-]. apply wt_arrive_new.
  - intros [= <-]. apply wt_arrive_net.
  - unfold wread. destruct (w_dead w); [discriminate|]. destruct (y_pc (w_sys w)) eqn:EP; try discriminate.
    + unfold read_result. destruct (take_chunk _ _ _) as [|r|p r|e|] eqn:ET; [discriminate| | | |].
      * destruct (cf_rt c) eqn:ER; rewrite ?EP; intros [= <-]; rewrite <- ER in ET; now apply wt_new_more.
      * destruct (step c (EPacket p) (w_sys w)) eqn:ES; [|discriminate]. intros [= <-]. now apply wt_new_packet with p.
      * destruct (step c (EReadErr e) (w_sys w)) eqn:ES; [|discriminate]. intros [= <-]. now apply wt_new_fail with e.
      * intros [= <-]. cbn. apply wt_panic.
    + unfold read_result. destruct (take_chunk _ _ _) as [|r|p r|e|] eqn:ET; [discriminate| | | |].
      * rewrite EP. destruct (cf_rt c) eqn:ER.
        -- intros [= <-]. rewrite <- ER in ET. apply wt_net_more with since; auto. cbn [step]. now rewrite EP, ER.
        -- destruct (step c EPartial (w_sys w)) eqn:ES; [|discriminate]. intros [= <-]. rewrite <- ER in ET. now apply wt_net_more with since.
      * destruct (step c (EPacket p) (w_sys w)) eqn:ES; [|discriminate]. intros [= <-]. now apply wt_net_packet with since p.
      * destruct (step c (EReadErr e) (w_sys w)) eqn:ES; [|discriminate]. intros [= <-]. now apply wt_net_fail with since e.
      * intros [= <-]. cbn. apply wt_panic.
  - unfold wevents. destruct (is_read e || _) eqn:EI; [discriminate|]. apply orb_false_iff in EI as [EI _]. destruct (step c e (w_sys w)) as [s|] eqn:ES; [|discriminate].
    intros [= <-]. destruct e; try discriminate EI; try (apply wt_event; [reflexivity|discriminate|discriminate|discriminate|exact ES]).
    + now apply wt_connect.
    + apply wt_drop with EOutgoing; auto.
    + apply wt_drop with ETimer; auto.
Qed.
Lemma wire_refines c chk w : wreachable c chk w -> reachable c (w_sys w).
Proof.
  intros H. induction H as [|x w w' _ IH H] using wreachable_ind; [exists []; reflexivity|].
  apply wstep_trans in H. destruct H; cbn [w_sys]; try exact IH; eapply reachable_step; eauto.
Qed.

(* --- the readers keep to the packets of the broker --- *)
Definition head_ok (w : waiting) (buf b : bytes) : Prop :=
  forall h hl, wt_head w = Some (h, hl) -> forall rest, read_fixed_header (b ++ rest) = RbOk (h, hl) /\ hl <= len buf.
Definition good (rt : runtime) (r : stream) : Prop := forall ps bs fut, Forall2 sent ps bs -> sr_all r ++ fut = concat bs -> sr_torn r = false ->
  exists ps1 ps2 bs1 bs2, ps = ps1 ++ ps2 /\ bs = bs1 ++ bs2 /\ length bs1 = length ps1 /\ Forall2 sent ps2 bs2 /\ sr_got r = ps1 /\
    sr_all r = concat bs1 ++ sr_buf r ++ concat (sr_in r) /\ (rt = Tokio -> part_of (sr_buf r) bs2) /\
    (rt = Smol -> forall w b bs', sr_need r = Some w -> bs2 = b :: bs' -> head_ok w (sr_buf r) b).

Lemma answer_step chk p b tail w ch buf t : sent p b -> (buf ++ ch) ++ t = b ++ tail -> head_ok w buf b ->
  match read_more chk w ch (buf ++ ch) with
  | inl w' => head_ok w' (buf ++ ch) b
  | inr (MPacket q r) => q = p /\ r ++ t = tail /\ buf ++ ch = b ++ r
  | inr MPanic => True
  | inr _ => False
  end.
Proof.
  intros HS. destruct (sent_shape _ _ HS) as (hd & body & h & -> & HL & HR & _ & HH & HM & HF).
  assert (forall rest, read_fixed_header ((hd ++ body) ++ rest) = RbOk (h, len hd)) as HH2 by (intros rest; rewrite <- app_assoc; apply HH).
  intros E HW. unfold read_more. destruct (wt_total w + len ch <? wt_need w).
  - intros h0 hl0 X rest. destruct (HW h0 hl0 X rest) as [Y1 Y2]. split; [exact Y1|]. rewrite len_app. lia.
  - assert (forall B, B ++ t = (hd ++ body) ++ tail -> len hd <= len B ->
      match finish h (len hd) B with MPacket q r => q = p /\ r ++ t = tail /\ B = (hd ++ body) ++ r | MPanic => True | _ => False end) as HFin.
    { intros B EB HB. destruct (finish_cases p hd body h B _ tail HR HF EB HB) as [(r & -> & ER)| ->]; [|exact I]. split; [reflexivity|]. split; [exact ER|].
      subst tail. rewrite app_assoc in EB. now apply app_inv_tail in EB. }
    destruct (wt_head w) as [[h0 hl0]|] eqn:EW.
    + destruct (HW h0 hl0 EW []) as [Y1 Y2]. rewrite HH2 in Y1. injection Y1 as <- <-. apply HFin; [exact E|rewrite len_app; lia].
    + unfold read_round. assert ((exists n, read_fixed_header (buf ++ ch) = RbMore n) \/ (read_fixed_header (buf ++ ch) = RbOk (h, len hd) /\ len hd <= len (buf ++ ch))) as [(n & ->)|[-> HB]].
      { pose proof E as E0. rewrite <- (app_assoc hd) in E0. apply app_eq_app in E0 as (l & [[EB _]|[EB _]]).
        - right. rewrite EB. split; [apply HH|]. rewrite len_app. lia.
        - destruct l as [|y l]; [right; rewrite app_nil_r in EB; rewrite <- EB; split; [specialize (HH []); now rewrite app_nil_r in HH|lia]|].
          left. destruct (HM (buf ++ ch) (y :: l) (eq_sym EB) ltac:(discriminate)) as (n & X & _). eauto. }
      * intros h0 hl0 X. discriminate X.
      * destruct (len (buf ++ ch) <? len hd + fh_rem h).
        -- destruct (usize_sub chk (fh_rem h) (len (buf ++ ch))); [|exact I]. intros h0 hl0 X. injection X as <- <-. intros rest. auto.
        -- now apply HFin.
Qed.

Lemma good_arrive rt ch r : good rt r -> good rt (arrive ch r).
Proof.
  intros HG ps bs fut HF E HT. cbn [arrive sr_all sr_torn] in *. rewrite <- app_assoc in E.
  destruct (HG ps bs _ HF E HT) as (ps1 & ps2 & bs1 & bs2 & H1 & H2 & H3 & H4 & H5 & H6 & H7 & H8).
  exists ps1, ps2, bs1, bs2. do 5 (split; [assumption|]). split; [|split; [exact H7|exact H8]].
  rewrite H6. cbn [arrive sr_buf sr_in]. rewrite concat_app. cbn [concat]. now rewrite app_nil_r, <- !app_assoc.
Qed.
Lemma good_drop rt r : good rt r -> good rt (drop_read rt r).
Proof.
  intros HG. destruct rt; [|exact HG]. intros ps bs fut HF E HT. cbn [drop_read sr_all sr_torn sr_buf sr_in sr_got sr_need] in *.
  apply orb_false_iff in HT as [HT HB]. assert (sr_buf r = []) as EB by (destruct (sr_buf r); [reflexivity|discriminate]).
  destruct (HG ps bs _ HF E HT) as (ps1 & ps2 & bs1 & bs2 & H1 & H2 & H3 & H4 & H5 & H6 & H7 & H8).
  exists ps1, ps2, bs1, bs2. do 5 (split; [assumption|]). split; [now rewrite EB in H6|]. split; [intros _ X; now elim X|discriminate].
Qed.
Lemma good_new rt chk : good rt (new_stream chk).
Proof.
  intros ps bs fut HF E HT. exists [], ps, [], bs. do 6 (split; [auto|]). split; [intros _ X; now elim X|].
  intros _ w b bs' EN _ h hl X. cbn [new_stream sr_need] in EN. change (read_round chk []) with (@inl waiting message (Need 2 0 None)) in EN. injection EN as <-. discriminate X.
Qed.
Lemma length_snoc {A} (l : list A) x : length (l ++ [x]) = S (length l).
Proof. rewrite app_length. cbn. lia. Qed.
Lemma concat_some b : concat (some_bytes b) = b.
Proof. destruct b; [reflexivity|]. cbn. now rewrite app_nil_r. Qed.
Lemma concat_snoc {A} (l : list (list A)) x : concat (l ++ [x]) = concat l ++ x.
Proof. rewrite concat_app. cbn. now rewrite app_nil_r. Qed.

(* one chunk, given what the broker sends *)
Lemma take_cases rt chk r ps bs fut : good rt r -> Forall2 sent ps bs -> sr_all r ++ fut = concat bs -> sr_torn r = false ->
  match take_chunk rt chk r with
  | SMore r' => sr_all r' = sr_all r /\ sr_torn r' = false /\
      exists ps1 ps2 bs1 bs2, ps = ps1 ++ ps2 /\ bs = bs1 ++ bs2 /\ length bs1 = length ps1 /\ Forall2 sent ps2 bs2 /\ sr_got r' = ps1 /\
        sr_all r = concat bs1 ++ sr_buf r' ++ concat (sr_in r') /\ (rt = Tokio -> part_of (sr_buf r') bs2) /\
        (rt = Smol -> forall w b bs', sr_need r' = Some w -> bs2 = b :: bs' -> head_ok w (sr_buf r') b)
  | SPacket p r' => sr_all r' = sr_all r /\ sr_torn r' = false /\
      exists ps1 ps2 bs1 bs2, ps = ps1 ++ ps2 /\ bs = bs1 ++ bs2 /\ length bs1 = length ps1 /\ Forall2 sent ps2 bs2 /\ sr_got r' = ps1 /\
        sr_all r = concat bs1 ++ sr_buf r' ++ concat (sr_in r') /\ (rt = Tokio -> part_of (sr_buf r') bs2) /\
        (rt = Smol -> forall w b bs', sr_need r' = Some w -> bs2 = b :: bs' -> head_ok w (sr_buf r') b)
  | SFail e => e = Io /\ exists rest, sr_in r = [] :: rest
  | SPanic => rt = Smol /\ (sr_need r = None -> chk = true)
  | SNone => sr_in r = []
  end.
Proof.
  intros HG HF E HT. destruct (HG ps bs fut HF E HT) as (ps1 & ps2 & bs1 & bs2 & -> & -> & HLn & HF2 & HGot & HA & HP & HW).
  unfold take_chunk. destruct (sr_in r) as [|ch rest] eqn:EI; [reflexivity|]. destruct ch as [|x ch]; [split; [reflexivity|now exists rest]|]. set (cc := x :: ch) in *.
  assert (sr_buf r ++ cc <> []) as HN by (intros X; apply app_eq_nil in X as [_ X]; discriminate X).
  assert ((sr_buf r ++ cc) ++ concat rest ++ fut = concat bs2) as EB.
  { rewrite HA, concat_app, <- app_assoc in E. apply app_inv_head in E. cbn [concat] in E. rewrite <- E, <- !app_assoc. reflexivity. }
  assert (forall b B', sr_buf r ++ cc = b ++ B' -> sr_all r = concat (bs1 ++ [b]) ++ B' ++ concat rest) as HA1.
  { intros b B' EQ. rewrite HA, concat_app. cbn [concat]. rewrite app_nil_r, <- !app_assoc. f_equal. rewrite !app_assoc. now rewrite EQ. }
  assert (sr_all r = concat bs1 ++ (sr_buf r ++ cc) ++ concat rest) as HA2.
  { rewrite HA. cbn [concat]. now rewrite <- !app_assoc. }
  destruct (buffer_cases ps2 bs2 (sr_buf r ++ cc) _ HF2 EB HN) as (p & ps' & b & bs' & -> & -> & HS & HF' & HC).
  destruct rt.
  - unfold tokio_take. destruct HC as [(B' & EQ & E')|(t & EQ & Ht)].
    + rewrite EQ. destruct (sent_areads p b B' HS) as (n & ->). cbn [sr_all sr_torn sr_got sr_buf sr_in sr_need]. split; [reflexivity|]. split; [exact HT|].
      exists (ps1 ++ [p]), ps', (bs1 ++ [b]), bs'. rewrite <- !app_assoc. do 2 (split; [reflexivity|]). split; [rewrite !length_snoc; congruence|]. split; [exact HF'|].
      split; [now rewrite HGot|]. split; [rewrite (concat_app (some_bytes B')), concat_some; cbn [app]; now apply HA1|]. split; [intros _ X; now elim X|discriminate].
    + rewrite EQ in HS. rewrite (aread_part p _ t HS Ht). cbn [sr_all sr_torn sr_got sr_buf sr_in sr_need]. split; [reflexivity|]. split; [exact HT|].
      exists ps1, (p :: ps'), bs1, (b :: bs'). do 5 (split; [assumption || reflexivity|]). split; [exact HA2|]. split; [|discriminate]. intros _ _. exists b, bs', t. auto.
  - destruct (sr_need r) as [w|] eqn:EN.
    + unfold smol_answer. assert (exists tail, (sr_buf r ++ cc) ++ (concat rest ++ fut) = b ++ tail) as (tail & ET) by (exists (concat bs'); exact EB).
      pose proof (answer_step chk p b tail w cc (sr_buf r) _ HS ET (HW eq_refl w b bs' eq_refl eq_refl)) as HX.
      destruct (read_more chk w cc (sr_buf r ++ cc)) as [w'|[q q'|q|e|]]; [| |destruct HX|destruct HX|split; [reflexivity|discriminate]]; cbn [sr_all sr_torn sr_got sr_buf sr_in sr_need].
      * split; [reflexivity|]. split; [exact HT|]. exists ps1, (p :: ps'), bs1, (b :: bs'). do 5 (split; [assumption || reflexivity|]). split; [exact HA2|]. split; [discriminate|].
        intros _ w0 b0 bs0 [= <-] [= <- <-]. exact HX.
      * destruct HX as (-> & _ & EQ). split; [reflexivity|]. split; [exact HT|].
        exists (ps1 ++ [p]), ps', (bs1 ++ [b]), bs'. rewrite <- !app_assoc. do 2 (split; [reflexivity|]). split; [rewrite !length_snoc; congruence|]. split; [exact HF'|].
        split; [now rewrite HGot|]. split; [now apply HA1|]. split; discriminate.
    + unfold smol_take. destruct HC as [(B' & EQ & E')|(t & EQ & Ht)].
      * rewrite EQ, (parse_whole chk p b B' HS). cbn [sr_all sr_torn sr_got sr_buf sr_in sr_need]. split; [reflexivity|]. split; [exact HT|].
        exists (ps1 ++ [p]), ps', (bs1 ++ [b]), bs'. rewrite <- !app_assoc. do 2 (split; [reflexivity|]). split; [rewrite !length_snoc; congruence|]. split; [exact HF'|].
        split; [now rewrite HGot|]. split; [now apply HA1|]. split; discriminate.
      * rewrite EQ in HS. destruct (parse_part chk p _ t HS Ht) as [-> |[HK ->]]; [|split; [reflexivity|intros _; exact HK]]. cbn [sr_all sr_torn sr_got sr_buf sr_in sr_need]. split; [reflexivity|]. split; [exact HT|].
        exists ps1, (p :: ps'), bs1, (b :: bs'). do 5 (split; [assumption || reflexivity|]). split; [exact HA2|]. split; discriminate.
Qed.
