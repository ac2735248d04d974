(* More lemmas about handlers. *)
From Verif Require Import Base BaseFacts VarInt Prims Props Codes Packets Options Session Client System SpecCodec SpecSession Utf8Facts SystemFacts Cases WireFacts Handlers HandlerFacts.

(* --- a handler that finds room and identifiers returns --- *)
Lemma pick_last {A} (l : list A) x : pick (length l) (l ++ [x]) = Some (x, l).
Proof. induction l as [|y l IH]; cbn; [reflexivity|]. now rewrite IH. Qed.
Definition own_event (x : hevent) : Prop := match x with HCall | HReturn | HEnv (ESend _) => True | _ => False end.
Lemma plan_runs {A} (f : handler A) c m : forall ks h, reachable c (hs_sys h) -> handling (y_pc (hs_sys h)) = true -> hs_plan h = Some (Plan ks (Return m)) -> hs_wait h = None -> hs_dead h = false ->
  pl_open (st_pool (y_state (hs_sys h))) = true -> (forall k id, In k ks -> validate (max_packet (cf_opts c)) (build k id) = None) ->
  len (y_chan (hs_sys h)) + len ks <= CHANNEL_SIZE -> (length (filter needs_id ks) <= length (pl_ids (st_pool (y_state (hs_sys h)))))%nat ->
  exists xs h', hexec f c xs h = Some h' /\ Forall own_event xs /\ hs_mem h' = m /\ hs_dead h' = false /\ hs_plan h' = None /\
  exists l1 l2, trace (hs_sys h') = trace (hs_sys h) ++ l1 ++ OHandled :: l2 /\ Forall by_clients l1.
Proof.
  induction ks as [|k ks IH]; intros h HR HH HP HW HD HO HV HC HI.
  - exists [HReturn]. cbn [hexec hstep]. unfold hreturn. rewrite HP, HW, HD.
    assert (exists s, step c EHandled (hs_sys h) = Some s) as (s & HS) by (cbn [step]; destruct (y_pc (hs_sys h)); try discriminate HH; eauto).
    assert (exists l, trace s = trace (hs_sys h) ++ OHandled :: l) as (l & HL).
    { destruct (step_tcase _ _ _ _ HR HS) as (l & st & w & ch & n & q & t & HC1 & ->). rewrite next_trace. inversion HC1; subst; eauto. }
    rewrite HS. cbn [option_map]. eexists. split; [reflexivity|]. split; [repeat constructor|]. cbn [hs_sys hs_mem hs_dead hs_plan]. do 3 (split; [reflexivity|]).
    exists [], l. auto.
  - assert (exists p' pkt, step c (ECall k) (hs_sys h) = Some (log [OBegin pkt] (set_wait (y_wait (hs_sys h) ++ [pkt]) (set_state (set_pool p' (y_state (hs_sys h))) (hs_sys h)))) /\
      pl_open p' = true /\ (length (filter needs_id ks) <= length (pl_ids p'))%nat) as (p' & pkt & HS & HO' & HI').
    { cbn [step]. unfold begin_call. rewrite HO. unfold client_call. cbn [filter] in HI. destruct (needs_id k).
      - destruct (pl_ids _) as [|id rest]; [cbn in HI; lia|]. rewrite HV by now left. eexists _, _. split; [reflexivity|]. cbn. split; [exact HO|]. cbn in HI. lia.
      - rewrite HV by now left. eexists _, _. split; [reflexivity|]. auto. }
    set (s1 := log _ _) in HS. assert (step c (ESend (length (y_wait (hs_sys h)))) s1 = Some (log [OAccept pkt] (set_chan (y_chan s1 ++ [pkt]) (set_wait (y_wait (hs_sys h)) s1)))) as HS2.
    { cbn [step]. unfold send_call. change (y_wait s1) with (y_wait (hs_sys h) ++ [pkt]). rewrite pick_last. change (y_chan s1) with (y_chan (hs_sys h)).
      rewrite len_cons in HC. replace (len (y_chan (hs_sys h)) <? CHANNEL_SIZE) with true by lia. reflexivity. }
    set (s2 := log _ _) in HS2. set (h2 := HSys s2 (hs_mem h) (Some (Plan ks (Return m))) None false).
    assert (hexec f c [HCall; HEnv (ESend (length (y_wait (hs_sys h))))] h = Some h2) as HX.
    { cbn [hexec hstep]. unfold hcall. rewrite HP, HW, HD, HS. replace (len (y_wait s1) =? len (y_wait (hs_sys h))) with false.
      - cbn [henv hs_dead hs_sys hs_wait hs_mem hs_plan andb]. rewrite HS2. cbn [option_map shift]. now rewrite Nat.eqb_refl.
      - change (y_wait s1) with (y_wait (hs_sys h) ++ [pkt]). rewrite len_app, len_cons, len_nil. lia. }
    destruct (IH h2) as (xs & h' & H1 & H2 & H3 & H4 & H5 & l1 & l2 & H6 & H7).
    + eapply reachable_step; [|exact HS2]. eapply reachable_step; [exact HR|exact HS].
    + exact HH.
    + reflexivity.
    + reflexivity.
    + reflexivity.
    + exact HO'.
    + intros k0 id Hk. apply HV. now right.
    + change (y_chan (hs_sys h2)) with (y_chan (hs_sys h) ++ [pkt]). rewrite len_app, !len_cons, len_nil in *. lia.
    + exact HI'.
    + exists ([HCall; HEnv (ESend (length (y_wait (hs_sys h))))] ++ xs), h'. rewrite hexec_app, HX. split; [exact H1|]. split; [apply Forall_app; split; [repeat constructor|exact H2]|].
      do 3 (split; [assumption|]). exists (OBegin pkt :: OAccept pkt :: l1), l2. split; [|constructor; [exact I|constructor; [exact I|exact H7]]].
      rewrite H6. change (hs_sys h2) with s2. unfold trace, s2, s1. cbn [log set_chan set_wait set_state y_log]. rewrite !map_app. cbn [map snd]. now rewrite <- !app_assoc.
Qed.

(* --- PingPong --- *)
Lemma starts_spec pat s : starts pat s = true <-> exists b, s = pat ++ b.
Proof.
  revert s. induction pat as [|x pat IH]; intros s; cbn [starts app].
  - split; eauto.
  - destruct s as [|y s]; [split; [discriminate|intros (b & X); discriminate X]|]. rewrite andb_true_iff, IH. split.
    + intros [E (b & ->)]. apply N.eqb_eq in E as <-. eauto.
    + intros (b & X). injection X as -> ->. rewrite N.eqb_refl. eauto.
Qed.
Lemma contains_spec pat s : contains pat s = true <-> exists a b, s = a ++ pat ++ b.
Proof.
  induction s as [|x s IH]; cbn [contains]; rewrite orb_true_iff, starts_spec.
  - split; [intros [(b & ->)|X]; [exists [], b; reflexivity|discriminate X]|]. intros (a & b & X). destruct a; [left; eauto|discriminate X].
  - rewrite IH. split.
    + intros [(b & ->)|(a & b & ->)]; [exists [], b; reflexivity|exists (x :: a), b; reflexivity].
    + intros (a & b & X). destruct a as [|y a]; [left; eauto|right]. injection X as -> ->. eauto.
Qed.
(* written in any mixture of cases *)
Definition same_letters (w pat : bytes) : Prop := Forall2 (fun x y => x = y \/ x + 32 = y) w pat.
Lemma lower_word w : map lower w = PING <-> same_letters w PING.
Proof.
  assert (forall x y, in_range 97 122 y = true -> lower x = y <-> x = y \/ x + 32 = y) as HL.
  { intros x y Hy. unfold lower, in_range in *. destruct ((65 <=? x) && (x <=? 90)) eqn:E; lia. }
  unfold same_letters, PING. split; intros H.
  - destruct w as [|a [|b [|c [|d [|]]]]]; try discriminate H. cbn [map] in H. injection H as H1 H2 H3 H4. repeat (apply Forall2_cons; [now apply HL|]). apply Forall2_nil.
  - repeat match goal with H : Forall2 _ _ (_ :: _) |- _ => inversion H; clear H; subst | H : Forall2 _ _ [] |- _ => inversion H; clear H; subst end.
    cbn [map]. repeat f_equal; now apply HL.
Qed.
Lemma map_app_inv {A B} (f : A -> B) l : forall a b, map f l = a ++ b -> exists a' b', l = a' ++ b' /\ map f a' = a /\ map f b' = b.
Proof.
  induction l as [|x l IH]; intros a b H.
  - symmetry in H. apply app_eq_nil in H as [-> ->]. now exists [], [].
  - destruct a as [|y a]; [exists [], (x :: l); auto|]. injection H as H1 H2. destruct (IH _ _ H2) as (a' & b' & -> & <- & <-). exists (x :: a'), b'. cbn. now rewrite H1.
Qed.
Lemma contains_ping s : contains PING (map lower s) = true <-> exists a w b, s = a ++ w ++ b /\ same_letters w PING.
Proof.
  rewrite contains_spec. split.
  - intros (a & b & H). apply map_app_inv in H as (a' & s' & -> & <- & H). apply map_app_inv in H as (w & b' & -> & H & <-). exists a', w, b'. split; [reflexivity|now apply lower_word].
  - intros (a & w & b & -> & H). apply lower_word in H. rewrite !map_app, H. eauto.
Qed.

Lemma encode_tail c : exists x l, utf8_encode c = x :: l /\ (scalar c -> in_range 128 191 x = false) /\ Forall (fun b => in_range 128 191 b = true) l.
Proof.
  unfold utf8_encode, in_range. pose proof (N.mod_lt c 64 ltac:(discriminate)). pose proof (N.mod_lt (c / 64) 64 ltac:(discriminate)). pose proof (N.mod_lt (c / 4096) 64 ltac:(discriminate)).
  destruct (c <? 128) eqn:E1; [exists c, []; repeat split; [intros _; lia|constructor]|].
  destruct (c <? 2048) eqn:E2; [eexists _, _; split; [reflexivity|]; split; [intros _; lia|repeat constructor; lia]|].
  destruct (c <? 65536) eqn:E3; (eexists _, _; split; [reflexivity|]; split; [intros _; lia|repeat constructor; lia]).
Qed.
Lemma utf8_cut : forall cs a b, Forall scalar cs -> concat (map utf8_encode cs) = a ++ b -> (b = [] \/ exists x t, b = x :: t /\ in_range 128 191 x = false) -> utf8 a /\ utf8 b.
Proof.
  induction cs as [|c cs IH]; intros a b HF E HB.
  - symmetry in E. apply app_eq_nil in E as [-> ->]. split; exists []; auto.
  - inversion HF as [|? ? HC HF']; subst. cbn [map concat] in E. destruct (encode_tail c) as (x & l & EC & _ & HL).
    assert (utf8 (concat (map utf8_encode (c :: cs)))) as HU by (exists (c :: cs); auto).
    destruct a as [|y a]; [split; [exists []; auto|]; cbn [app] in E; now rewrite <- E|].
    assert (utf8_encode c = y :: a \/ (exists k, y :: a = utf8_encode c ++ k /\ concat (map utf8_encode cs) = k ++ b)) as [EA|(k & EA & EK)].
    { apply app_eq_app in E as (k & [[E1 E2]|[E1 E2]]); [|right; eauto]. destruct k as [|z k]; [left; now rewrite app_nil_r in E1|].
      exfalso. rewrite E1 in EC. cbn in EC. injection EC as -> EC. rewrite <- EC in HL. apply Forall_app in HL as [_ HL]. inversion HL; subst.
      destruct HB as [X|(z' & t & X & Y)]; [discriminate X|]. injection X as <- _. congruence. }
    + rewrite EA in E. apply app_inv_head in E. split; [exists [c]; cbn; rewrite app_nil_r; auto|]. exists cs; auto.
    + destruct (IH k b HF' EK HB) as [[cs1 [H1 H2]] HU2]. split; [|exact HU2]. exists (c :: cs1). cbn. rewrite <- H2. auto.
Qed.
Lemma boundary_spec n s : utf8 s -> n <= len s -> char_boundary n s = true <-> exists a b, utf8 a /\ utf8 b /\ s = a ++ b /\ len a = n.
Proof.
  intros [cs [HF HS]] HN. unfold char_boundary.
  assert (s = firstn (N.to_nat n) s ++ skipn (N.to_nat n) s) as ES by now rewrite firstn_skipn.
  assert (forall a b, s = a ++ b -> len a = n -> nth_error s (N.to_nat n) = nth_error b 0) as HE.
  { intros a b -> HA. rewrite nth_error_app2 by (unfold len in HA; lia). f_equal. unfold len in HA. lia. }
  assert (len (firstn (N.to_nat n) s) = n) as HLen by (unfold len in *; rewrite firstn_length; lia).
  split.
  - intros H. rewrite HS in ES at 1. destruct (utf8_cut _ _ _ HF ES) as [H1 H2]; [|exists (firstn (N.to_nat n) s), (skipn (N.to_nat n) s); repeat split; auto; now rewrite firstn_skipn].
    rewrite (HE _ _ (eq_sym (firstn_skipn (N.to_nat n) s)) HLen) in H. destruct (skipn (N.to_nat n) s) as [|x t]; [auto|right]. cbn in H. exists x, t. split; [reflexivity|now apply negb_true_iff].
  - intros (a & b & _ & (cs2 & HF2 & HB) & E & HA). rewrite (HE _ _ E HA). destruct cs2 as [|c cs2]; [now rewrite HB|]. inversion HF2; subst.
    destruct (encode_tail c) as (x & l & EC & HX & _). cbn [map concat]. rewrite EC. cbn. now rewrite HX.
Qed.
Lemma boundary_end s : char_boundary (len s) s = true.
Proof. unfold char_boundary. replace (nth_error s (N.to_nat (len s))) with (@None N); [reflexivity|]. symmetry. apply nth_error_None. unfold len. lia. Qed.

(* no text of ten bytes at the beginning *)
Definition cut_at_ten (s : bytes) : Prop := utf8 s /\ 10 < len s /\ ~ exists a b, utf8 a /\ utf8 b /\ s = a ++ b /\ len a = 10.
Lemma ping_pong_cases chk n p :
  (pn_calls (ping_pong chk n p) <> [] <->
    exists x a w b, p = PPublish x /\ utf8 (pb_payload x) /\ ~ cut_at_ten (pb_payload x) /\ pb_payload x = a ++ w ++ b /\ same_letters w PING) /\
  (pn_end (ping_pong chk n p) = Panics <->
    (exists x, p = PPublish x /\ cut_at_ten (pb_payload x)) \/
    (chk = true /\ 65535 <= n /\ exists x, p = PPublish x /\ pb_retain x = false /\ pn_calls (ping_pong chk n p) <> [])) /\
  (forall k, In k (pn_calls (ping_pong chk n p)) -> exists x, p = PPublish x /\ k = CPublish (pb_qos x) (pb_retain x) (pb_topic x) [112; 111; 110; 103] no_props).
Proof.
  assert (forall s, utf8 s -> char_boundary (N.min (len s) 10) s = true <-> ~ cut_at_ten s) as HB.
  { intros s HU. destruct (N.leb_spec (len s) 10) as [H|H].
    - rewrite N.min_l by lia. rewrite boundary_end. split; [intros _ (_ & X & _); lia|reflexivity].
    - rewrite N.min_r by lia. rewrite (boundary_spec 10 s HU) by lia. split; [intros X (_ & _ & Y); contradiction|].
      intros X. destruct (char_boundary 10 s) eqn:E; [apply (boundary_spec 10 s HU); [lia|exact E]|]. exfalso. apply X. split; [exact HU|]. split; [exact H|].
      intros Y. apply (boundary_spec 10 s HU) in Y; [|lia]. congruence. }
  destruct p; try (cbn; repeat split; [intros X; now elim X|intros (? & ? & ? & ? & X & _); discriminate X|discriminate|intros [(? & X & _)|(_ & _ & ? & X & _)]; discriminate X|contradiction]).
  rename p into x. cbn [ping_pong]. destruct (utf8_valid (pb_payload x)) eqn:EV.
  2:{ assert (~ utf8 (pb_payload x)) as HN by (intros X; apply utf8_spec in X; congruence). cbn. repeat split.
      - intros X; now elim X.
      - intros (y & a & w & b & X & Y & _) _. injection X as <-. contradiction.
      - discriminate.
      - intros [(y & X & Y & _)|(_ & _ & y & X & _ & Y)]; [injection X as <-; contradiction|now elim Y].
      - contradiction. }
  apply utf8_spec in EV. specialize (HB _ EV). destruct (char_boundary _ _).
  2:{ assert (cut_at_ten (pb_payload x)) as HC.
      { destruct (N.leb_spec (len (pb_payload x)) 10) as [H|H]; [exfalso; assert (false = true) as X; [|discriminate X]; apply HB; intros (_ & X & _); lia|].
        split; [exact EV|]. split; [exact H|]. intros Y. assert (false = true) as X; [|discriminate X]. apply HB. intros (_ & _ & Z). contradiction. }
      cbn. repeat split.
      - intros X; now elim X.
      - intros (y & a & w & b & X & _ & Y & _) _. injection X as <-. contradiction.
      - intros _. left. eauto.
      - contradiction. }
  assert (~ cut_at_ten (pb_payload x)) as HC by now apply HB.
  destruct (contains PING (map lower (pb_payload x))) eqn:EP.
  - apply contains_ping in EP as (a & w & b & E & HW). cbn [pn_calls pn_end]. repeat split.
    + intros _. exists x, a, w, b. auto.
    + discriminate.
    + intros H. right. destruct (pb_retain x) eqn:ER; [discriminate H|]. unfold add_one in H. destruct (n <? 65535) eqn:E1; [discriminate H|]. destruct chk; [|discriminate H].
      split; [reflexivity|]. split; [lia|]. exists x. repeat split; [exact ER|discriminate].
    + intros [(y & X & Y)|(-> & H & y & X & ER & _)]; injection X as <-; [contradiction|]. rewrite ER. unfold add_one. now replace (n <? 65535) with false by lia.
    + intros k [<-|[]]. eauto.
  - cbn. repeat split.
    + intros X; now elim X.
    + intros (y & a & w & b & X & _ & _ & E & HW) _. injection X as <-. assert (contains PING (map lower (pb_payload x)) = true) as X by (apply contains_ping; eauto). congruence.
    + discriminate.
    + intros [(y & X & Y)|(_ & _ & y & X & _ & Y)]; [injection X as <-; contradiction|now elim Y].
    + contradiction.
Qed.
Lemma own_answer chk n x : pb_payload x = [112; 111; 110; 103] -> ping_pong chk n (PPublish x) = Plan [] (Return n).
Proof. intros E. cbn [ping_pong]. rewrite E. reflexivity. Qed.
Lemma same_length w pat : same_letters w pat -> len w = len pat.
Proof. induction 1 as [|x y w pat _ _ IH]; [reflexivity|]. now rewrite !len_cons, IH. Qed.
Lemma answer_accepted chk n p k id max : In k (pn_calls (ping_pong chk n p)) -> well_formed p -> body_len p <= max -> validate max (build k id) = None.
Proof.
  intros HI HW HM. destruct (ping_pong_cases chk n p) as (H1 & _ & H2). destruct (H2 k HI) as (x & -> & ->).
  assert (pn_calls (ping_pong chk n (PPublish x)) <> []) as HN by (intros X; rewrite X in HI; destruct HI).
  apply H1 in HN as (y & a & w & b & X & _ & _ & E & HL). injection X as <-. apply same_length in HL.
  cbn [build validate]. unfold validate_publish. cbn [body_len] in HM. destruct HW as (((_ & HT) & _ & HQ & _) & _).
  assert (publish_len (Publish false (pb_qos x) (pb_retain x) (pb_topic x) (match pb_qos x with AtMostOnce => None | _ => Some id end) no_props PONG) <= publish_len x) as HP.
  { unfold publish_len. cbn [pb_topic pb_pkid pb_props pb_payload]. rewrite E, !len_app, HL. change (section_len publish_cfg no_props) with 1. change (len PONG) with 4. change (len PING) with 4.
    assert (1 <= section_len publish_cfg (pb_props x)) by (unfold section_len, variable_integer_len; repeat match goal with |- context[if ?b then _ else _] => destruct b end; lia).
    assert (opt_len (fun _ => 2) (match pb_qos x with AtMostOnce => None | _ => Some id end) <= opt_len (fun _ => 2) (pb_pkid x)); [|lia].
    destruct (pb_pkid x) as [i|] eqn:EI; [destruct (pb_qos x); cbn; lia|]. rewrite (proj1 HQ eq_refl). reflexivity. }
  match goal with |- context[max <? ?z] => replace (max <? z) with false by (symmetry; apply N.ltb_ge; exact (N.le_trans _ _ _ HP HM)) end. cbn [pb_topic]. replace (MAXIMUM_TOPIC_SIZE <? len (pb_topic x)) with false; [reflexivity|]. unfold MAXIMUM_TOPIC_SIZE. lia.
Qed.
