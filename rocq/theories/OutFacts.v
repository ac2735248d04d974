(* Lemmas for C57 *)
From Coq Require Import Permutation.
From Verif Require Import Base VarInt Prims Props Codes Packets BaseFacts SpecCodec SpecOptions Options Session Client System SpecSession SpecNet SpecOut
  StrictMore InjFacts FrameFacts CodecMore LimitMore OptionsMore SessionFacts SystemFacts Cases NetFacts.
From Verif Require GoodFacts.

Definition lawful_out (o : out) : Prop := match o with OWrite x p | OWriteFail x p => lawful x p | _ => True end.

(* ---- properties ----------------------------------------------------------------------------- *)
Definition no_props_ok := GoodFacts.no_props_ok.
Lemma plain_ok i : i < 65536 -> well_formed (PPubAck (plain_ack i)) /\ well_formed (PPubRec (plain_ack i)) /\ well_formed (PPubRel (plain_ack i)) /\ well_formed (PPubComp (plain_ack i)).
Proof.
  intros H. unfold well_formed, plain_ack. cbn [packet_ok packet_props ak_props]. unfold ack_ok. cbn [ak_id ak_rc ak_props].
  assert (auth_method_ok no_props) as A by (intros X; now elim X).
  assert (code_ok puback_codes RSuccess /\ code_ok pubrec_codes RSuccess /\ code_ok pubrel_codes RSuccess /\ code_ok pubcomp_codes RSuccess) as (B1 & B2 & B3 & B4).
  { unfold code_ok. cbn. tauto. }
  auto 10 using no_props_ok.
Qed.

(* ---- requests ------------------------------------------------------------------------------- *)
Lemma build_lawful max k i : call_ok k -> validate max (build k i) = None -> i < 65536 -> (needs_id k = true -> i <> 0) -> lawful FromClient (build k i).
Proof.
  intros HK HV HI H0. destruct k as [q rt topic payload ps|ts ps|ts ps|d]; cbn [build validate call_ok needs_id] in *.
  - destruct HK as (K1 & K2 & K3).
    set (x := Publish false q rt topic (match q with AtMostOnce => None | _ => Some i end) ps payload) in *.
    assert (rq_ok (RqPublish x)) as HR.
    { cbn. unfold pub_request. subst x. cbn. split; [exact K1|]. split; [destruct q; [exact I|exact HI|exact HI]|]. split; [|split; assumption].
      destruct q; split; intros E; try reflexivity; discriminate E. }
    assert (rq_topics (RqPublish x) <> []) as HT by discriminate.
    pose proof (valid_packet_ok max (RqPublish x) HR HV HT) as HO. destruct (rq_no_auth (RqPublish x) HO) as [HW _].
    split; [exact HW|]. subst x. cbn. split; [reflexivity|]. destruct q; [discriminate|specialize (H0 eq_refl); congruence|specialize (H0 eq_refl); congruence].
  - destruct HK as (K1 & K2 & K3). set (x := Subscribe i ps ts) in *.
    assert (rq_ok (RqSubscribe x)) as HR by (split; [exact HI|split; [exact K3|exact K2]]).
    assert (rq_topics (RqSubscribe x) <> []) as HT by (cbn; destruct ts; [congruence|discriminate]).
    pose proof (valid_packet_ok max (RqSubscribe x) HR HV HT) as HO. destruct (rq_no_auth (RqSubscribe x) HO) as [HW _].
    split; [exact HW|]. cbn. auto.
  - destruct HK as (K1 & K2 & K3). set (x := Unsubscribe i ps ts) in *.
    assert (rq_ok (RqUnsubscribe x)) as HR by (split; [exact HI|split; [exact K3|exact K2]]).
    assert (rq_topics (RqUnsubscribe x) <> []) as HT by (cbn; assumption).
    pose proof (valid_packet_ok max (RqUnsubscribe x) HR HV HT) as HO. destruct (rq_no_auth (RqUnsubscribe x) HO) as [HW _].
    split; [exact HW|]. cbn. auto.
  - destruct HK as (K1 & K2). split; [|exact I]. split; [split; assumption|]. cbn [packet_props]. intros X. exfalso.
    destruct (authentication_data (dc_props d)) as [b|] eqn:E; [|now elim X]. destruct K2 as (K2 & _). specialize (K2 AuthenticationData). cbn [get_prop] in K2. rewrite E in K2.
    destruct (K2 _ eq_refl) as [HJ _]. apply inb_in in HJ. discriminate HJ.
Qed.

(* ---- the CONNECT ---------------------------------------------------------------------------- *)
Definition opts_of (c : config) (o : options) : Prop := exists k, o = with_keep_alive k (cf_opts c).
Lemma opts_same c : opts_of c (cf_opts c).
Proof. exists (op_keep_alive (cf_opts c)). now destruct (cf_opts c). Qed.
Lemma with_again a b o : with_keep_alive a (with_keep_alive b o) = with_keep_alive a o.
Proof. reflexivity. Qed.
Lemma opts_answer c rt t a n : opts_of c (nt_opts n) -> opts_of c (nt_opts (apply_connack rt t a n)).
Proof.
  intros [k E]. unfold apply_connack. destruct rt; cbn; [|now exists k]. destruct (server_keep_alive (ca_props a)) as [x|]; [|now exists k].
  rewrite E. exists (from_secs x). apply with_again.
Qed.
Lemma connect_lawful c o : built c -> opts_of c o -> lawful FromConnect (create_connect o) /\ no_empty_auth (create_connect o) /\ no_assigned_id (create_connect o).
Proof.
  intros (id & l & HI & HL & E) [k ->]. rewrite E. destruct (created_ok id l HI HL) as [[HW HA] HN].
  rewrite (configure_same id l). unfold connect_of in *. unfold create_connect, with_keep_alive, option_props. cbn [op_client_id op_keep_alive op_clean_start op_username op_password op_session_expiry op_receive_max op_send_max op_max_packet op_topic_alias_max op_request_response op_request_problem op_user_props op_auth_method op_auth_data op_will].
  split; [split; [split|exact I]|split; [exact HN|reflexivity]].
  - cbn [packet_ok cn_keep_alive cn_props cn_will cn_username cn_password cn_client_id] in *. destruct HW as (_ & HW). split; [apply N.mod_lt; discriminate|exact HW].
  - exact HA.
Qed.

(* ---- the ledger ----------------------------------------------------------------------------- *)
Definition id_ok (i : N) : Prop := i <> 0 /\ i < 65536.
Record led_ok (g : ledger) : Prop := {
  lo_sent : Forall (lawful FromClient) (lg_sent g);
  lo_rel : Forall id_ok (lg_rel g);
  lo_expect : Forall (lawful FromResend) (lg_expect g);
  lo_expect_rel : Forall id_ok (lg_expect_rel g);
  lo_ids : Forall identified (lg_sent g) }.
Lemma dup_lawful p : lawful FromClient p -> identified p -> is_pub p = true -> lawful FromResend (dup p).
Proof.
  intros [[HO HA] HP] HI E. destruct p; try discriminate E. cbn [dup]. unfold identified in HI. cbn [req_id] in HI.
  split; [split; [exact HO|exact HA]|]. cbn. split; [reflexivity|]. split; [|apply HP]. cbn [packet_ok] in HO. destruct HO as (_ & _ & HO & _).
  intros EQ. apply HI. now apply HO.
Qed.
Lemma lawful_id p i : lawful FromClient p -> req_id p = Some i -> id_ok i.
Proof.
  intros [[HO _] HP] E. unfold id_ok. destruct p; cbn [req_id] in E; try discriminate E; cbn [packet_ok] in *.
  - destruct HO as (_ & HO & _). rewrite E in HO. cbn in HO. destruct HP as [_ HP]. split; [congruence|exact HO].
  - injection E as <-. split; [exact HP|apply HO].
  - injection E as <-. split; [exact HP|apply HO].
Qed.
Lemma Forall_filter {A} (P : A -> Prop) f l : Forall P l -> Forall P (filter f l).
Proof. rewrite !Forall_forall. intros H x Hx. apply filter_In in Hx as [Hx _]. auto. Qed.
Lemma led_step clean g o : led_ok g -> (forall p, o = OWrite FromClient p -> lawful FromClient p) -> led_ok (ledger_step clean g o).
Proof.
  intros [A B C D E] HW. destruct g as [op se re lo cl ex er]. cbn [lg_open lg_sent lg_rel lg_expect lg_expect_rel] in *.
  destruct o as [p|p|p e|p| | |r| |r|p|p|p| |x p|x p|]; try (constructor; assumption); cbn [ledger_step].
  - destruct (is_some (req_id p)); constructor; assumption.
  - destruct p as [c|a|x|a|a|a|a|s|s|u|u| | |d|d]; try (constructor; assumption). destruct (ca_rc a); try (constructor; assumption).
    destruct (ca_session_present a && negb clean); constructor; cbn [lg_open lg_sent lg_rel lg_expect lg_expect_rel]; auto using Forall_filter.
    apply Forall_forall. intros q Hq. apply in_map_iff in Hq as (p & <- & Hp). apply filter_In in Hp as [Hp EP]. rewrite Forall_forall in A, E. apply dup_lawful; auto.
  - destruct p as [c|a|x|a|a|a|a|s|s|u|u| | |d|d]; constructor; cbn [lg_open lg_sent lg_rel lg_expect lg_expect_rel]; auto using Forall_filter.
    apply Forall_app. split; [exact B|]. destruct (existsb _ se) eqn:EX; [|constructor]. destruct (rec_accepts _); [|constructor]. constructor; [|constructor].
    apply existsb_exists in EX as (q & Hq & EA). rewrite Forall_forall in A. apply (lawful_id q); [auto|].
    destruct q; try discriminate EA. cbn [answers] in EA. unfold has_id in EA. destruct (req_id (PPublish p)) as [j|]; [|discriminate EA].
    apply N.eqb_eq in EA. now subst.
  - destruct x; try (constructor; assumption). constructor; cbn [lg_open lg_sent lg_rel lg_expect lg_expect_rel]; auto.
    + destruct (is_some (req_id p)); [|exact A]. apply Forall_app. auto.
    + destruct (req_id p) eqn:EI; cbn [is_some]; [|exact E]. apply Forall_app. split; [exact E|]. constructor; [|constructor]. unfold identified. congruence.
  - destruct x; constructor; assumption.
Qed.
Lemma led_of clean l : Forall lawful_out l -> led_ok (ledger_of clean l).
Proof.
  unfold ledger_of. induction l as [|o l IH] using rev_ind; intros H; [repeat constructor|]. apply Forall_app in H as [H1 H2]. rewrite fold_left_app. cbn [fold_left].
  apply led_step; [auto|]. intros p ->. now inversion H2.
Qed.

(* ---- replies -------------------------------------------------------------------------------- *)
Ltac rep HO i := destruct (plain_ok i HO) as (? & ? & ? & ?).
Lemma reply_lawful p st st' r b : packet_ok p -> handle_incoming_packet p st = (st', HOk (Some r, b)) -> lawful FromReply r.
Proof.
  intros HO H. assert (plain (plain_ack 0)) as HP by (split; reflexivity).
  destruct p as [c|a|x|a|a|a|a|s|s|u|u| | |d|d]; cbn [handle_incoming_packet] in H; try discriminate H.
  - unfold handle_incoming_publish in H. cbn [packet_ok] in HO. destruct HO as (_ & HO & _). destruct (pb_qos x); [discriminate H| |]; (destruct (pb_pkid x) as [i|]; [|discriminate H]); cbn in HO;
      destruct (plain_ok i HO) as (P1 & P2 & P3 & P4).
    + injection H as <- <- <-. split; [exact P1|]. split; reflexivity.
    + unfold mbind, add_incoming_pub, ret in H. destruct (set_insert i (st_in st)) as [l' fr]. injection H as <- <- <-. split; [exact P2|]. split; reflexivity.
  - unfold handle_incoming_puback, mbind in H. destruct (remove_outgoing_pub _ _) as [s1 [[old|]|e|]]; cbn [is_some] in H; try discriminate H.
    destruct (make_pkid_available _ _) as [s2 [[]|e|]]; try discriminate H.
  - unfold handle_incoming_pubrec, mbind in H. destruct (remove_outgoing_pub (ak_id a) st) as [s1 [[old|]|e|]] eqn:ER; try discriminate H.
    assert (ak_id a <> 0) as H0. { intros E0. unfold remove_outgoing_pub in ER. rewrite E0 in ER. discriminate ER. }
    cbn [packet_ok] in HO. destruct HO as (HO & _). destruct (plain_ok _ HO) as (P1 & P2 & P3 & P4).
    assert (Some (PPubRel (plain_ack (ak_id a))) = Some r) as ER2.
    { unfold add_outgoing_rel, ret in H. destruct (ak_rc a); try discriminate H; destruct (set_insert _ _) as [l' fr]; injection H; intros; now subst. }
    injection ER2 as <-. split; [exact P3|]. split; [split; reflexivity|exact H0].
  - unfold handle_incoming_pubrel, mbind, remove_incoming_pub, ret in H. destruct (set_remove _ _) as [l' fr]. injection H as <- <- <-.
    cbn [packet_ok] in HO. destruct HO as (HO & _). destruct (plain_ok _ HO) as (P1 & P2 & P3 & P4). split; [exact P4|]. split; reflexivity.
  - unfold handle_incoming_pubcomp, mbind in H. destruct (remove_outgoing_rel _ _) as [s1 [[|]|e|]]; try discriminate H. destruct (make_pkid_available _ _) as [s2 [[]|e|]]; discriminate H.
  - unfold handle_incoming_suback, mbind in H. destruct (remove_outgoing_sub _ _) as [s1 [[|]|e|]]; try discriminate H. destruct (make_pkid_available _ _) as [s2 [[]|e|]]; discriminate H.
  - unfold handle_incoming_unsuback, mbind in H. destruct (remove_outgoing_unsub _ _) as [s1 [[|]|e|]]; try discriminate H. destruct (make_pkid_available _ _) as [s2 [[]|e|]]; discriminate H.
Qed.

(* ---- the invariant -------------------------------------------------------------------------- *)
Definition pc_lawful (q : pc) : Prop :=
  match q with
  | PHandle (AfterPacket r) => Forall (lawful FromReply) (opt_list r)
  | PReply p => lawful FromReply p
  | PFlush ps => Forall (lawful FromReply) ps
  | _ => True
  end.
Record law (c : config) (s : sys) : Prop := {
  lw_pend : Forall (lawful FromClient) (pending s);
  lw_opts : opts_of c (nt_opts (y_net s));
  lw_pc : pc_lawful (y_pc s);
  lw_trace : Forall lawful_out (trace s) }.

Lemma reply_pc_lawful rt r t : Forall (lawful FromReply) (opt_list r) -> pc_lawful (reply_pc rt r t).
Proof. intros H. destruct rt, r; cbn in *; auto. exact (Forall_inv H). Qed.
Lemma pick_all (P : packet -> Prop) : forall i l p rest, pick i l = Some (p, rest) -> Forall P l -> P p /\ Forall P rest.
Proof.
  induction i as [|i IH]; intros [|x l] p rest E H; cbn [pick] in E; try discriminate E.
  - injection E as <- <-. now inversion H.
  - destruct (pick i l) as [[y r]|] eqn:EP; [|discriminate E]. injection E as <- <-. destruct (IH _ _ _ EP (Forall_inv_tail H)). split; [assumption|]. constructor; [exact (Forall_inv H)|assumption].
Qed.
Lemma tokio_writes_law o ps : Forall (lawful o) ps -> forall oks, Forall lawful_out (tokio_writes o ps oks).
Proof.
  induction 1 as [|p ps HP HF IH]; intros oks; cbn [tokio_writes]; [constructor|]. destruct oks as [|b oks]; destruct (write_result _ _ _); constructor; auto.
Qed.
Lemma smol_writes_law o ps ok : Forall (lawful o) ps -> Forall lawful_out (smol_writes o ps ok).
Proof.
  intros H. unfold smol_writes. apply Forall_forall. intros x Hx. apply in_map_iff in Hx as (p & E & Hp). rewrite Forall_forall in H. specialize (H p Hp).
  destruct (smol_write_all ps ok); subst x; exact H.
Qed.
Lemma timer_lawful : lawful FromTimer PPingReq /\ lawful FromTimer bye.
Proof.
  assert (auth_method_ok no_props) as A by (intros X; now elim X).
  split; (split; [split|]); try exact I; try exact A; try (split; reflexivity). unfold bye. cbn. split; [|apply no_props_ok].
  unfold code_ok. cbn. tauto.
Qed.
Lemma resend_lawful c s ps : config_ok c -> reachable c s -> law c s -> y_pc s = PConnResend ps -> Forall (lawful FromResend) ps.
Proof.
  intros HC HR HL E. pose proof (v_expects _ _ (inv_reachable c s HC HR)) as HE. rewrite E in HE. cbn [expects] in HE. destruct HE as (rel & -> & HP & _).
  pose proof (led_of (cleans c) _ (lw_trace _ _ HL)) as [_ _ L1 L2 _]. fold (ledger_at c s) in L1, L2. apply Forall_app. split; [exact L1|].
  apply Forall_forall. intros p Hp. apply in_map_iff in Hp as (i & <- & Hi). apply (Permutation_in _ HP) in Hi. rewrite Forall_forall in L2. destruct (L2 _ Hi) as [H0 H1].
  destruct (plain_ok i H1) as (_ & _ & P3 & _). split; [exact P3|]. split; [split; reflexivity|exact H0].
Qed.
Lemma client_call_lawful c s k p pool' : config_ok c -> reachable c s -> call_ok k -> client_call (max_packet (cf_opts c)) k (st_pool (y_state s)) = Some (pool', inr p) -> lawful FromClient p.
Proof.
  intros HC HR HK H. pose proof (v_inv _ _ (inv_reachable c s HC HR)) as HI. pose proof (i_perm _ _ _ _ _ HI) as HP. unfold client_call in H. destruct (needs_id k) eqn:EN.
  - destruct (pl_ids (st_pool (y_state s))) as [|i rest] eqn:EI; [discriminate H|]. destruct (validate _ _) eqn:EV; [discriminate H|]. injection H as <- <-.
    assert (1 <= i <= send_max (cf_opts c)) as HB. { apply ids_upto_in. apply (Permutation_in _ HP). rewrite ?EI. left. reflexivity. }
    destruct HC as [HC _]. apply (build_lawful (max_packet (cf_opts c))); auto; lia.
  - destruct (validate _ _) eqn:EV; [discriminate H|]. injection H as <- <-. apply (build_lawful (max_packet (cf_opts c))); auto; [lia|congruence].
Qed.

Lemma law_next c s l st w ch n q t : law c s ->
  Forall (lawful FromClient) (w ++ ch ++ held q) -> opts_of c (nt_opts n) -> pc_lawful q -> Forall lawful_out l -> law c (next s l st w ch n q t).
Proof.
  intros HL A B C D. constructor; [exact A|exact B|exact C|]. rewrite next_trace. apply Forall_app. split; [apply HL|exact D].
Qed.
Lemma opts_end c rt n : opts_of c (nt_opts n) -> opts_of c (nt_opts (end_net rt n)).
Proof. now destruct rt. Qed.
Ltac quiet_out := repeat (apply Forall_cons; [exact I|]); apply Forall_nil.
Lemma law_step c s e l st w ch n q t : config_ok c -> built c -> reachable c s -> event_ok e -> law c s -> tcase c s e l st w ch n q t -> law c (next s l st w ch n q t).
Proof.
  intros HC HB HR HE HL HT. pose proof HL as [A B C D]. unfold pending in A.
  apply Forall_app in A as [AW A]. apply Forall_app in A as [AC AH].
  pose proof timer_lawful as [TP TB]. pose proof (connect_lawful c _ HB B) as [TC _].
  inversion HT; subst; try match goal with H : y_pc s = _ |- _ => rewrite H in * end; cbn [held pc_lawful] in *;
  (apply law_next; [exact HL|rewrite ?app_nil_r, ?Forall_app; repeat apply conj; auto|auto using opts_answer, opts_end|try exact I; auto|
    try solve [quiet_out | repeat (apply Forall_cons; [first [exact I|exact TP|exact TB|exact TC]|]); apply Forall_nil]]).
  all: try match goal with |- Forall _ (held (reply_pc ?rt ?r _)) => destruct rt, r; apply Forall_nil end.
  all: try match goal with |- context [match cf_rt ?k with Tokio => _ | Smol => _ end] => destruct (cf_rt k); first [exact I|apply Forall_nil|exact B] end.
  all: try match goal with H : pick _ _ = Some _ |- _ => destruct (pick_all _ _ _ _ _ H AW) as [P1 P2]; first [exact P2|apply Forall_cons; [exact P1|apply Forall_nil]] end.
  all: try match goal with H : _ = ?p :: ?r, A : Forall _ (?p :: ?r) |- _ => first [exact (Forall_inv_tail A)|apply Forall_cons; [exact (Forall_inv A)|apply Forall_nil]] end.
  all: try match goal with H : y_chan _ = ?p :: ?r |- _ => rewrite H in AC; first [exact (Forall_inv_tail AC)|apply Forall_cons; [exact (Forall_inv AC)|apply Forall_nil]] end.
  all: try match goal with H : y_pc _ = PConnResend ?ps |- _ => pose proof (resend_lawful _ _ ps HC HR HL H) end.
  all: try solve [apply Forall_app; split; [first [now apply tokio_writes_law|now apply smol_writes_law]|quiet_out]].
  all: try now apply smol_writes_law.
  all: try match goal with |- Forall lawful_out (OWrite FromClient _ :: _) => apply Forall_cons; [exact (Forall_inv AH)|quiet_out] end.
  all: try match goal with |- Forall lawful_out (OWriteFail FromClient _ :: _) => apply Forall_cons; [exact (Forall_inv AH)|quiet_out] end.
  all: try match goal with |- Forall lawful_out (OWrite FromReply _ :: _) => apply Forall_cons; [exact C|quiet_out] end.
  all: try match goal with |- Forall lawful_out (OWriteFail FromReply _ :: _) => apply Forall_cons; [exact C|quiet_out] end.
  - apply Forall_cons; [|apply Forall_nil]. eapply client_call_lawful; eauto.
  - match goal with H : loop_packet _ = Some ?a |- _ => destruct a as [| |r]; try exact I end.
    match goal with H : loop_packet ?p = _ |- _ => destruct p; discriminate H end.
  - destruct reply as [r|]; [|apply Forall_nil]. apply Forall_cons; [|apply Forall_nil]. eapply reply_lawful; eassumption.
  - apply reply_pc_lawful. destruct reply as [r|]; [|apply Forall_nil]. apply Forall_cons; [|apply Forall_nil]. eapply reply_lawful; eassumption.
  - apply reply_pc_lawful. apply Forall_nil.
  - apply reply_pc_lawful. exact C.
Qed.
Lemma exec_snoc c es e s s' : exec c (es ++ [e]) s = Some s' -> exists t, exec c es s = Some t /\ step c e t = Some s'.
Proof. rewrite exec_app. destruct (exec c es s) as [t|]; [|discriminate]. cbn. intros H. exists t. split; [reflexivity|]. destruct (step c e t); [exact H|discriminate H]. Qed.
Lemma law_exec c : config_ok c -> built c -> forall es s, Forall event_ok es -> exec c es (init c) = Some s -> law c s.
Proof.
  intros HC HB. induction es as [|e es IH] using rev_ind; intros s HF H.
  - injection H as <-. constructor; try apply Forall_nil; [apply opts_same|exact I].
  - apply Forall_app in HF as [HF HE]. apply exec_snoc in H as (s1 & H & HS). assert (reachable c s1) as HR by (now exists es).
    destruct (step_tcase c e s1 s HR HS) as (l & st & w & ch & n & q & t & HT & ->). exact (law_step _ _ _ _ _ _ _ _ _ _ HC HB HR (Forall_inv HE) (IH _ HF H) HT).
Qed.
