(* C87 *)
From Verif Require Import Base VarInt Prims Props Codes Packets BaseFacts Options Session Client System SpecCodec VarIntFacts SpecAgree Cases OpaqueFacts BlindFacts.

(* --- the errors of the two writers --- *)
Lemma varint_err n : w_err (write_varint n) = w_err (awrite_varint n).
Proof.
  destruct (N.le_gt_cases n MAXVAR) as [H|H]; [now rewrite write_varint_spec, awrite_varint_spec|now rewrite write_varint_over, awrite_varint_over].
Qed.
Lemma val_err v : w_err (write_val v) = w_err (awrite_val v).
Proof. destruct v; try reflexivity. apply varint_err. Qed.
Definition fixed (v : pval) : Prop := match v with VVar _ => False | _ => True end.
Lemma val_none v : fixed v -> w_err (awrite_val v) = None.
Proof. destruct v; intros []; reflexivity. Qed.
Lemma ptype_none t w : w_err (write_ptype t >>> w) = w_err w.
Proof. rewrite err_seq. reflexivity. Qed.
Lemma concat_same {A} (f g : A -> wr) l : (forall x, w_err (f x) = w_err (g x)) -> w_err (w_concat (map f l)) = w_err (w_concat (map g l)).
Proof. intros H. unfold w_concat. induction l as [|x l IH]; [reflexivity|]. cbn [map fold_right]. now rewrite !err_seq, H, IH. Qed.
Lemma concat_none {A} (f : A -> wr) l : Forall (fun x => w_err (f x) = None) l -> w_err (w_concat (map f l)) = None.
Proof. unfold w_concat. induction 1 as [|x l H _ IH]; [reflexivity|]. cbn [map fold_right]. now rewrite err_seq, H, IH. Qed.
Lemma items_fixed cfg t p : t <> SubscriptionIdentifier -> Forall fixed (items cfg t p).
Proof.
  intros H. assert (forall o, match o with Some v => fixed v | None => True end -> Forall fixed (opt_list o)) as X by (intros [v|] E; repeat constructor; exact E).
  destruct t; cbn [items]; try (apply X; cbn [get_prop]; match goal with |- match option_map _ ?x with _ => _ end => destruct x end; exact I); [congruence|].
  apply Forall_forall. intros v Hv. apply in_map_iff in Hv as (x & <- & _). exact I.
Qed.
Definition paired (p : props) : Prop := authentication_data p <> None -> authentication_method p <> None.
Lemma type_same cfg p t : (c_auth_strict cfg = true -> paired p) -> w_err (write_type cfg p t) = w_err (awrite_type cfg p t).
Proof.
  intros HP. unfold write_type, awrite_type.
  assert (w_err (w_concat (map (fun v => write_ptype t >>> write_val v) (items cfg t p))) = w_err (w_concat (map (fun v => write_ptype t >>> awrite_val v) (items cfg t p)))) as E.
  { apply concat_same. intros v. now rewrite !ptype_none, val_err. }
  assert (t <> SubscriptionIdentifier -> w_err (w_concat (map (fun v => write_ptype t >>> awrite_val v) (items cfg t p))) = None) as N.
  { intros H. apply concat_none. pose proof (items_fixed cfg t p H) as F. eapply Forall_impl; [|exact F]. intros v Hv. cbv beta. rewrite ptype_none. now apply val_none. }
  destruct t; try exact E; cbn [w_err w_nil]; try (rewrite E; now apply N).
  cbn [w_err]. destruct (c_auth_strict cfg) eqn:ES.
  - specialize (HP eq_refl). unfold paired in HP. destruct (is_some (authentication_data p) && negb (is_some (authentication_method p))) eqn:EA.
    + exfalso. apply andb_true_iff in EA as [E1 E2]. destruct (authentication_data p); [|discriminate E1]. destruct (authentication_method p); [discriminate E2|]. now apply HP.
    + destruct (auth_data_written p); [exact E|]. rewrite E, N by discriminate. reflexivity.
  - destruct (auth_data_written p); [exact E|reflexivity].
Qed.
Lemma type_none cfg p t : t <> SubscriptionIdentifier -> w_err (awrite_type cfg p t) = None.
Proof.
  intros H. unfold awrite_type.
  assert (w_err (w_concat (map (fun v => write_ptype t >>> awrite_val v) (items cfg t p))) = None) as N.
  { apply concat_none. pose proof (items_fixed cfg t p H) as F. eapply Forall_impl; [|exact F]. intros v Hv. cbv beta. rewrite ptype_none. now apply val_none. }
  destruct t; try exact N; try reflexivity. destruct (auth_data_written p); [exact N|reflexivity].
Qed.
Lemma types_err cfg p l : w_err (w_concat (map (awrite_type cfg p) l)) = if existsb (ptype_eqb SubscriptionIdentifier) l then w_err (awrite_type cfg p SubscriptionIdentifier) else None.
Proof.
  unfold w_concat. induction l as [|t l IH]; [reflexivity|]. cbn [map fold_right existsb]. rewrite err_seq, IH.
  destruct (ptype_eqb SubscriptionIdentifier t) eqn:E.
  - cbn [orb]. assert (t = SubscriptionIdentifier) as -> by (destruct t; try discriminate E; reflexivity). destruct (w_err (awrite_type cfg p SubscriptionIdentifier)); [reflexivity|]. now destruct (existsb _ l).
  - cbn [orb]. rewrite (type_none cfg p t); [reflexivity|]. intros ->. discriminate E.
Qed.
Definition usual (cfg : pcfg) : Prop := existsb (ptype_eqb SubscriptionIdentifier) (c_order cfg) = existsb (ptype_eqb SubscriptionIdentifier) (c_decl cfg).
Lemma props_err cfg p : usual cfg -> (c_auth_strict cfg = true -> paired p) -> w_err (write_props cfg p) = w_err (awrite_props cfg p).
Proof.
  intros HU HP. unfold write_props, awrite_props. rewrite !err_seq, varint_err.
  rewrite (concat_same (write_type cfg p) (awrite_type cfg p)) by (intros t; now apply type_same). now rewrite !types_err, HU.
Qed.
Lemma usual_all cfg : In cfg all_cfgs -> usual cfg.
Proof. intros H. cbn in H. decompose [or] H; subst; try reflexivity; contradiction. Qed.
Definition pairs (p : packet) : Prop := match p with PConnect c => paired (cn_props c) | PConnAck c => paired (ca_props c) | _ => True end.
Ltac props_of := apply props_err; [apply usual_all; cbn; tauto|first [discriminate|intros _; assumption]].
Lemma body_err p : pairs p -> w_err (write_body p) = w_err (awrite_body p).
Proof.
  assert (forall cfg a, In cfg all_cfgs -> c_auth_strict cfg = false -> w_err (write_ack cfg a) = w_err (awrite_ack cfg a)) as A.
  { intros cfg a HI HS. unfold write_ack, awrite_ack. rewrite !err_seq. destruct (rc_eqb _ _ && _); [reflexivity|]. destruct (no_ack_props _); [reflexivity|].
    rewrite !err_seq. rewrite (props_err cfg); [reflexivity|now apply usual_all|congruence]. }
  assert (forall cfg a, In cfg all_cfgs -> c_auth_strict cfg = false -> w_err (write_suback cfg a) = w_err (awrite_suback cfg a)) as B.
  { intros cfg a HI HS. unfold write_suback, awrite_suback. rewrite !err_seq. rewrite (props_err cfg); [reflexivity|now apply usual_all|congruence]. }
  intros HP. destruct p; cbn [write_body awrite_body]; try reflexivity;
  try (apply A; [cbn; tauto|reflexivity]); try (apply B; [cbn; tauto|reflexivity]).
  - unfold write_connect, awrite_connect. rewrite !err_seq. rewrite (props_err connect_cfg); [|apply usual_all; cbn; tauto|intros _; exact HP].
    replace (w_err (write_opt write_will (cn_will c))) with (w_err (write_opt awrite_will (cn_will c))); [reflexivity|].
    destruct (cn_will c) as [x|]; [|reflexivity]. cbn [write_opt]. unfold write_will, awrite_will. rewrite !err_seq. rewrite (props_err will_cfg); [reflexivity|apply usual_all; cbn; tauto|discriminate].
  - unfold write_connack, awrite_connack. rewrite !err_seq. rewrite (props_err connack_cfg); [reflexivity|apply usual_all; cbn; tauto|intros _; exact HP].
  - unfold write_publish, awrite_publish. rewrite !err_seq. rewrite (props_err publish_cfg); [reflexivity|apply usual_all; cbn; tauto|discriminate].
  - unfold write_subscribe, awrite_subscribe. rewrite !err_seq. rewrite (props_err subscribe_cfg); [reflexivity|apply usual_all; cbn; tauto|discriminate].
  - unfold write_unsubscribe, awrite_unsubscribe. rewrite !err_seq. rewrite (props_err unsubscribe_cfg); [reflexivity|apply usual_all; cbn; tauto|discriminate].
  - unfold write_disconnect, awrite_disconnect. destruct (disconnect_body d); [|reflexivity]. rewrite !err_seq. rewrite (props_err disconnect_cfg); [reflexivity|apply usual_all; cbn; tauto|discriminate].
  - unfold write_auth, awrite_auth. rewrite !err_seq. rewrite (props_err auth_cfg); [reflexivity|apply usual_all; cbn; tauto|discriminate].
Qed.
Lemma ser_agree p : pairs p -> ser_err Tokio p = ser_err Smol p.
Proof.
  intros HP. unfold ser_err. pose proof (body_err p HP) as HB.
  assert (w_err (w_put [first_byte p] >>> write_varint (body_len p) >>> write_body p) = w_err (w_put [first_byte p] >>> awrite_varint (body_len p) >>> awrite_body p)) as H
    by (rewrite !err_seq, varint_err, HB; reflexivity).
  destruct p; try (symmetry; exact H); reflexivity.
Qed.

(* --- the packets that may be sent again can be serialised --- *)
Definition fits (p : packet) : Prop := ser_err Smol p = None /\ pairs p.
Definition okv (st : state) : Prop := Forall (fun x => match x with Some p => fits (PPublish p) | None => True end) (st_pub st).
Definition keepv {A} (m : M A) : Prop := forall st, okv st -> okv (fst (m st)).
Lemma keepv_bind {A B} (m : M A) (k : A -> M B) : keepv m -> (forall a, keepv (k a)) -> keepv (mbind m k).
Proof. intros H K st HO. unfold mbind. specialize (H st HO). destruct (m st) as [t [a|e|]]; cbn [fst] in *; [now apply K|exact H|exact H]. Qed.
Lemma keepv_same {A} (m : M A) : (forall st, st_pub (fst (m st)) = st_pub st) -> keepv m.
Proof. intros H st HO. unfold okv. now rewrite H. Qed.
Lemma vec_all {A} (P : A -> Prop) v : P v -> forall l i old l', Forall P l -> vec_at i v l = Some (old, l') -> Forall P l'.
Proof.
  intros HV. induction l as [|x l IH]; intros i old l' HL; destruct i; cbn [vec_at]; try discriminate; inversion HL; subst; [intros [= <- <-]; now constructor|].
  destruct (vec_at i v l) as [[o r]|] eqn:E; [|discriminate]. intros [= <- <-]. constructor; [assumption|]. eapply IH; eassumption.
Qed.
Lemma keepv_rem i : keepv (remove_outgoing_pub i).
Proof.
  intros st HO. unfold remove_outgoing_pub. cbn [st_pub]. destruct (_ =? _); [exact HO|]. destruct (vec_at _ _ _) as [[old v]|] eqn:E; [|exact HO].
  exact (vec_all (fun x => match x with Some p => fits (PPublish p) | None => True end) None I _ _ _ _ HO E).
Qed.
Lemma okv_add i p st : fits (PPublish p) -> okv st -> okv (fst (add_outgoing_pub i p st)).
Proof.
  intros HF HO. unfold add_outgoing_pub. destruct (_ =? _); [exact HO|]. destruct (vec_at _ _ _) as [[old v]|] eqn:E; [|exact HO].
  pose proof (vec_all (fun x => match x with Some p => fits (PPublish p) | None => True end) (Some p) HF _ _ _ _ HO E) as X. destruct (is_some old); exact X.
Qed.
Ltac same_pub := apply keepv_same; intros st; reflexivity.
Lemma keepv_mark i : keepv (make_pkid_available i).
Proof. apply keepv_same. intros st. unfold make_pkid_available, mark_available. destruct (negb _); [reflexivity|]. now destruct (_ <=? _). Qed.
Lemma keepv_incoming p : keepv (handle_incoming_packet p).
Proof.
  assert (forall A (a : A), keepv (ret a)) as X1 by (intros; same_pub).
  assert (forall A e, keepv (fail e : M A)) as X2 by (intros; same_pub).
  assert (forall i, keepv (add_incoming_pub i)) as X3 by (intros i; apply keepv_same; intros st; unfold add_incoming_pub; now destruct (set_insert _ _)).
  assert (forall i, keepv (remove_incoming_pub i)) as X4 by (intros i; apply keepv_same; intros st; unfold remove_incoming_pub; now destruct (set_remove _ _)).
  assert (forall i, keepv (add_outgoing_rel i)) as X5 by (intros i; apply keepv_same; intros st; unfold add_outgoing_rel; now destruct (set_insert _ _)).
  assert (forall i, keepv (remove_outgoing_rel i)) as X6 by (intros i; apply keepv_same; intros st; unfold remove_outgoing_rel; now destruct (set_remove _ _)).
  assert (forall i, keepv (remove_outgoing_sub i)) as X7 by (intros i; apply keepv_same; intros st; unfold remove_outgoing_sub; now destruct (set_remove _ _)).
  assert (forall i, keepv (remove_outgoing_unsub i)) as X8 by (intros i; apply keepv_same; intros st; unfold remove_outgoing_unsub; now destruct (set_remove _ _)).
  pose proof keepv_rem as X9. pose proof keepv_mark as X10.
  destruct p; cbn [handle_incoming_packet]; unfold handle_incoming_publish, handle_incoming_puback, handle_incoming_pubrec, handle_incoming_pubrel, handle_incoming_pubcomp, handle_incoming_suback, handle_incoming_unsuback;
  repeat first [ progress auto
  | match goal with
    | |- keepv (mbind _ _) => apply keepv_bind; [|intros]
    | |- keepv (if ?x then _ else _) => destruct x
    | |- keepv (match ?x with _ => _ end) => destruct x
    end ].
Qed.
Lemma fits_dup p : fits (PPublish p) -> fits (PPublish (set_dup p)).
Proof. unfold fits, ser_err. cbn [write_packet]. rewrite !err_seq. intros H. exact H. Qed.
Lemma fits_rel i : fits (PPubRel (plain_ack i)).
Proof. split; [|exact I]. unfold ser_err. cbn [write_packet]. rewrite !err_seq. reflexivity. Qed.
Lemma resend_fits v : Forall (fun x => match x with Some p => fits (PPublish p) | None => True end) v -> forall l ps, resend v l = Some ps -> Forall fits ps.
Proof.
  intros HV. induction l as [|i l IH]; intros ps; cbn [resend]; [intros [= <-]; constructor|]. destruct (_ =? _); [discriminate|].
  destruct (nth_error v _) as [[p|]|] eqn:E; try discriminate. destruct (resend v l) as [r|]; [|discriminate]. intros [= <-]. constructor; [|now apply IH].
  apply fits_dup. apply nth_error_In in E. exact (proj1 (Forall_forall _ _) HV _ E).
Qed.
Lemma keepv_all l : keepv (make_all_available l).
Proof. induction l; cbn [make_all_available]; [same_pub|]. apply keepv_bind; [apply keepv_mark|intros; exact IHl]. Qed.
Lemma connack_fits cl a st : okv st -> okv (fst (handle_incoming_connack cl a st)) /\ forall ps, snd (handle_incoming_connack cl a st) = HOk (Some ps) -> Forall fits ps.
Proof.
  intros HO. unfold handle_incoming_connack. destruct (ca_rc a); try (split; [exact HO|discriminate]). unfold mbind, reset.
  destruct (ca_session_present a && negb cl).
  - destruct (resend _ _) as [pubs|] eqn:ER; [|split; [exact HO|discriminate]]. match goal with |- context [make_all_available ?l ?x] => set (u := x); set (ids := l) end.
    pose proof (keepv_all ids u HO) as X. destruct (make_all_available ids u) as [t [[]|e|]]; cbn [fst snd] in *; split; try exact X; try discriminate.
    intros ps [= <-]. apply Forall_app. split; [exact (resend_fits _ HO _ _ ER)|]. apply Forall_forall. intros q Hq. apply in_map_iff in Hq as (i & <- & _). apply fits_rel.
  - match goal with |- context [make_all_available ?l ?x] => set (u := x); set (ids := l) end.
    assert (okv u) as HU. { unfold u, okv. cbn. apply Forall_forall. intros x Hx. apply repeat_spec in Hx. now subst. }
    pose proof (keepv_all ids u HU) as X. destruct (make_all_available ids u) as [t [[]|e|]]; cbn [fst snd] in *; split; try exact X; try discriminate.
    intros ps [= <-]. constructor.
Qed.
Lemma outgoing_fits p st : fits p -> okv st -> okv (fst (handle_outgoing_packet p st)).
Proof.
  intros HF HO. destruct p; try exact HO; cbn [handle_outgoing_packet].
  - unfold handle_outgoing_publish. destruct (pb_qos p); [exact HO| |]; (destruct (pb_pkid p); [now apply okv_add|exact HO]).
  - unfold mbind, add_outgoing_sub. now destruct (set_insert _ _).
  - unfold mbind, add_outgoing_unsub. now destruct (set_insert _ _).
Qed.

(* --- the relation between the two --- *)
Section Two.
Context (o : options) (HP : auth_paired o).
Definition bare (x : options) : options := with_keep_alive 0 x.
Definition nrel (n n' : net) : Prop := nt_connected n = nt_connected n' /\ bare (nt_opts n) = bare o /\ bare (nt_opts n') = bare o /\ nt_buf n' = [].
Definition prel (q q' : pc) : Prop :=
  match q, q' with
  | PSelect _, PSelect _ => True
  | PSelect _, PFlush ps => ps = []
  | PReply p, PFlush ps => ps = [p] /\ pairs p
  | PIdle, PIdle | PConnWrite, PConnWrite | PConnRead, PConnRead | PCrash, PCrash => True
  | PConnHandle a, PConnHandle b => a = b /\ match a with Some ps => Forall fits ps | None => True end
  | PConnResend a, PConnResend b => a = b /\ Forall fits a
  | PHandle a, PHandle b => a = b /\ match a with AfterPacket (Some p) => pairs p | _ => True end
  | PRequest a, PRequest b => a = b /\ pairs a
  | _, _ => False
  end.
Record rel0 (s s' : sys) : Prop := {
  e_state : y_state s = y_state s';
  e_wait : y_wait s = y_wait s';
  e_chan : y_chan s = y_chan s';
  e_net : nrel (y_net s) (y_net s');
  e_now : y_now s = y_now s';
  e_log : map compared (y_log s) = map compared (y_log s');
  e_ok : okv (y_state s);
  e_reqs : Forall pairs (y_wait s) /\ Forall pairs (y_chan s) }.
Definition rel (s s' : sys) : Prop := rel0 s s' /\ prel (y_pc s) (y_pc s').

Definition oc (x : out) : out := snd (compared (0, x)).
Lemma compared_now n l l' : map oc l = map oc l' -> map compared (map (pair n) l) = map compared (map (pair n) l').
Proof. revert l'. induction l as [|x l IH]; intros [|y l']; try discriminate; [reflexivity|]. cbn [map]. intros [= E1 E2]. rewrite (IH _ E2). f_equal. unfold compared in *. cbn in *. now f_equal. Qed.
Lemma rel_log l l' s s' : rel0 s s' -> map oc l = map oc l' -> rel0 (log l s) (log l' s').
Proof. intros [A B C D E F G H] K. constructor; cbn; auto. rewrite !map_app, F, E. f_equal. now apply compared_now. Qed.
Lemma rel_same l s s' : rel0 s s' -> rel0 (log l s) (log l s').
Proof. intros H. now apply rel_log. Qed.
Lemma rel_pc q q' s s' : rel0 s s' -> rel0 (set_pc q s) (set_pc q' s').
Proof. intros [A B C D E F G H]. constructor; auto. Qed.
Lemma rel_net n n' s s' : rel0 s s' -> nrel n n' -> rel0 (set_net n s) (set_net n' s').
Proof. intros [A B C D E F G H] K. constructor; auto. Qed.
Lemma rel_state st s s' : rel0 s s' -> okv st -> rel0 (set_state st s) (set_state st s').
Proof. intros [A B C D E F G H] K. constructor; auto. Qed.
Lemma rel_end r s s' : rel0 s s' -> rel (end_run Tokio r s) (end_run Smol r s').
Proof. intros H. split; [|exact I]. unfold end_run. apply rel_same, rel_pc, rel_net; [exact H|]. destruct (e_net _ _ H) as (A & B & C & D). repeat split; assumption. Qed.
Lemma rel_connect r s s' : rel0 s s' -> rel (end_connect r s) (end_connect r s').
Proof. intros H. split; [|exact I]. now apply rel_same, rel_pc. Qed.
Lemma rel_crash s s' : rel0 s s' -> rel (crash_now s) (crash_now s').
Proof. intros H. split; [|exact I]. now apply rel_same, rel_pc. Qed.
Lemma rel_again s s' : rel0 s s' -> rel (again s) (again s').
Proof. intros H. split; [|exact I]. now apply rel_pc. Qed.
Lemma rel_last s s' t : rel0 s s' -> rel0 (set_net (set_last t (y_net s)) s) (set_net (set_last t (y_net s')) s').
Proof. intros H. apply rel_net; [exact H|]. destruct (e_net _ _ H) as (A & B & C & D). repeat split; assumption. Qed.
Lemma rel_connected s s' : rel0 s s' -> rel (connected s) (connected s').
Proof. intros H. unfold connected. apply rel_connect. apply rel_net; [exact H|]. destruct (e_net _ _ H) as (A & B & C & D). repeat split; assumption. Qed.
Lemma rel_reply r s s' : rel0 s s' -> match r with Some p => pairs p | None => True end -> rel (reply_now Tokio r s) (reply_now Smol r s').
Proof.
  intros H HR. destruct (e_net _ _ H) as (A & B & C & D). destruct r as [p|]; cbn [reply_now]; unfold smol_flush, smol_push, again.
  - split; [|cbn; now rewrite D]. destruct H as [H1 H2 H3 H4 H5 H6 H7 H8]. constructor; auto. cbn. repeat split; assumption.
  - split; [|cbn; exact D]. destruct H as [H1 H2 H3 H4 H5 H6 H7 H8]. constructor; auto. cbn. repeat split; assumption.
Qed.
Lemma result_agree p ok : pairs p -> write_result Tokio p ok = write_result Smol p ok.
Proof. intros H. unfold write_result. now rewrite ser_agree. Qed.

(* CONNECT *)
Lemma connect_bare x : bare x = bare o -> no_interval (create_connect x) = no_interval (create_connect o) /\ ser_err Smol (create_connect x) = ser_err Smol (create_connect o) /\ pairs (create_connect x).
Proof.
  intros E.
  assert (forall y, no_interval (create_connect y) = no_interval (create_connect (bare y))) as N1 by reflexivity.
  assert (forall y, ser_err Smol (create_connect y) = ser_err Smol (create_connect (bare y))) as N2.
  { intros y. unfold ser_err, create_connect. cbn [write_packet write_body]. unfold write_connect. rewrite !err_seq. reflexivity. }
  assert (forall y, pairs (create_connect y) <-> auth_paired (bare y)) as N3 by (intros y; reflexivity).
  split; [now rewrite N1, E, <- N1|]. split; [now rewrite N2, E, <- N2|]. apply N3. rewrite E. exact HP.
Qed.
Lemma connack_net a t n n' : nrel n n' -> nrel (apply_connack Tokio t a n) (apply_connack Smol t a n').
Proof.
  intros (A & B & C & D). unfold apply_connack, nrel. cbn. repeat split; auto. now destruct (server_keep_alive (ca_props a)).
Qed.
Lemma tokio_all ps oks : Forall fits ps -> Forall (eq true) oks -> tokio_writes FromResend ps oks = map (OWrite FromResend) ps.
Proof.
  intros H. revert oks. induction H as [|p ps [HF HQ] _ IH]; intros oks HO; [reflexivity|]. cbn [tokio_writes map].
  assert (write_result Tokio p true = None) as E. { rewrite result_agree by assumption. unfold write_result. now rewrite HF. }
  destruct oks as [|b oks]; [rewrite E; now rewrite IH|]. inversion HO; subst. rewrite E. now rewrite IH.
Qed.
Lemma smol_all ps : Forall fits ps -> smol_write_all ps true = None.
Proof.
  intros H. unfold smol_write_all. destruct (find _ ps) as [p|] eqn:E; [|reflexivity]. apply find_some in E as [E1 E2]. rewrite Forall_forall in H. destruct (H _ E1) as [H1 _]. now rewrite H1 in E2.
Qed.

Lemma rel_init : rel (init (Config Tokio o)) (init (Config Smol o)).
Proof.
  split; [|exact I]. constructor; try reflexivity.
  - repeat split.
  - unfold okv. cbn. apply Forall_forall. intros x Hx. apply repeat_spec in Hx. now subst.
  - split; constructor.
Qed.
Lemma pick_in {A} (l : list A) : forall i x r, pick i l = Some (x, r) -> In x l /\ incl r l.
Proof.
  induction l as [|y l IH]; intros i x r; destruct i; cbn [pick]; try discriminate.
  - intros [= <- <-]. split; [now left|intros z Hz; now right].
  - destruct (pick i l) as [[z q]|] eqn:E; [|discriminate]. intros [= <- <-]. destruct (IH _ _ _ E) as [E1 E2]. split; [now right|]. intros w [<-|Hw]; [now left|right; auto].
Qed.
Lemma pick_pairs l i x r : Forall pairs l -> pick i l = Some (x, r) -> pairs x /\ Forall pairs r.
Proof. intros H E. destruct (pick_in _ _ _ _ E) as [E1 E2]. rewrite Forall_forall in *. split; [now apply H|]. intros y Hy. apply H. now apply E2. Qed.

Definition agree2 (x y : option sys) : Prop := match x, y with Some t, Some t' => rel t t' | None, None => True | _, _ => False end.
Lemma both_handles e s s' : rel s s' -> match e with ETick _ | ECall _ | ESend _ | EGiveUp _ | EDropClients => True | _ => False end -> agree2 (step (Config Tokio o) e s) (step (Config Smol o) e s').
Proof.
  intros [[H1 H2 H3 H4 H5 H6 H7 [H8 H9]] HQ] HE. destruct e; try (destruct HE; fail); cbn [step].
  - split; [|exact HQ]. constructor; cbn; auto; congruence.
  - unfold begin_call. rewrite <- H1. destruct (pl_open _); [|exact I]. cbn [cf_opts]. destruct (client_call _ _ _) as [[p' [[pkt e]|pkt]]|] eqn:EC; [| |exact I].
    + split; [|exact HQ]. apply rel_same. constructor; cbn; auto; congruence.
    + split; [|exact HQ]. apply rel_same. constructor; cbn; auto; try congruence. split; [|exact H9]. apply Forall_app. split; [exact H8|]. constructor; [|constructor].
      unfold client_call in EC. destruct (needs_id c); [destruct (pl_ids _); [discriminate|]|]; destruct (validate _ _); try discriminate; injection EC as <- <-; now destruct c.
  - unfold send_call. rewrite <- H2, <- H3. destruct (pick _ _) as [[p rest]|] eqn:EK; [|exact I]. destruct (_ <? _); [|exact I]. destruct (pick_pairs _ _ _ _ H8 EK) as [K1 K2].
    split; [|exact HQ]. apply rel_same. constructor; cbn; auto. split; [exact K2|]. apply Forall_app. split; [exact H9|]. constructor; [exact K1|constructor].
  - unfold give_up. rewrite <- H2. destruct (pick _ _) as [[p rest]|] eqn:EK; [|exact I]. destruct (pick_pairs _ _ _ _ H8 EK) as [K1 K2].
    split; [|exact HQ]. apply rel_same. constructor; cbn; auto.
  - unfold drop_clients. rewrite <- H2. destruct (y_wait s) eqn:EW; [|exact I]. split; [|exact HQ]. apply rel_same. constructor; cbn; auto; try congruence. now rewrite EW.
Qed.
Lemma incoming_pairs p st reply b : snd (handle_incoming_packet p st) = HOk (reply, b) -> match reply with Some q => pairs q | None => True end.
Proof.
  destruct p; cbn [handle_incoming_packet]; try discriminate; unfold handle_incoming_publish, handle_incoming_puback, handle_incoming_pubrec, handle_incoming_pubrel, handle_incoming_pubcomp, handle_incoming_suback, handle_incoming_unsuback, mbind.
  - destruct (pb_qos p); [|destruct (pb_pkid p)|destruct (pb_pkid p)]; try discriminate; try (intros [= <- <-]; exact I). destruct (add_incoming_pub _ _) as [? [?|?|]]; try discriminate. intros [= <- <-]. exact I.
  - destruct (remove_outgoing_pub _ _) as [? [[?|]|?|]]; try discriminate. cbn. destruct (make_pkid_available _ _) as [? [?|?|]]; try discriminate. intros [= <- <-]. exact I.
  - destruct (remove_outgoing_pub _ _) as [? [[?|]|?|]]; try discriminate. destruct (ak_rc a); try (intros [= <- <-]; exact I); destruct (add_outgoing_rel _ _) as [? [?|?|]]; try discriminate; intros [= <- <-]; exact I.
  - destruct (remove_incoming_pub _ _) as [? [?|?|]]; try discriminate. intros [= <- <-]. exact I.
  - destruct (remove_outgoing_rel _ _) as [? [[|]|?|]]; try discriminate. destruct (make_pkid_available _ _) as [? [?|?|]]; try discriminate. intros [= <- <-]. exact I.
  - destruct (remove_outgoing_sub _ _) as [? [[|]|?|]]; try discriminate. destruct (make_pkid_available _ _) as [? [?|?|]]; try discriminate. intros [= <- <-]. exact I.
  - destruct (remove_outgoing_unsub _ _) as [? [[|]|?|]]; try discriminate. destruct (make_pkid_available _ _) as [? [?|?|]]; try discriminate. intros [= <- <-]. exact I.
Qed.
Lemma both_network e s s' : rel s s' -> steady e -> y_pc s' <> PFlush [] -> match e with ETick _ | ECall _ | ESend _ | EGiveUp _ | EDropClients => False | _ => True end ->
  agree2 (step (Config Tokio o) e s) (step (Config Smol o) e s').
Proof.
  intros [HR HQ] HS HN HE. pose proof (e_net _ _ HR) as (N1 & N2 & N3 & N4).
  destruct e; try (destruct HE; fail); try (destruct HS; fail); cbn [step cf_rt].
  - (* connect *) destruct (y_pc s), (y_pc s'); try exact I; try (destruct HQ; fail). split; [|exact I]. now apply rel_same, rel_pc.
  - (* run *) destruct (y_pc s) eqn:EP, (y_pc s') eqn:EP'; try exact I; try (destruct HQ; fail). unfold start_run. rewrite N1. destruct (nt_connected (y_net s')) eqn:EN.
    + apply rel_again, rel_same, rel_net; [exact HR|]. repeat split; try assumption. cbn. congruence.
    + split; [now apply rel_same|]. cbn. now rewrite EP, EP'.
  - (* packet *) destruct (y_pc s) eqn:EP, (y_pc s') eqn:EP'; try exact I; try (destruct HQ; fail).
    + (* answer *) unfold connect_answer. pose proof (rel_same [OAnswer p] _ _ HR) as HR1. revert HR1. generalize (log [OAnswer p] s) (log [OAnswer p] s'). intros u u' HU.
      destruct p; try (now apply rel_connect). destruct (ca_rc c); try (now apply rel_connect). cbn [cf_rt cf_opts].
      rewrite <- (e_now _ _ HU). cbn [y_state set_net]. rewrite <- (e_state _ _ HU).
      assert (rel0 (set_net (apply_connack Tokio (y_now u) c (y_net u)) u) (set_net (apply_connack Smol (y_now u) c (y_net u')) u')) as HV by (apply rel_net; [exact HU|apply connack_net, (e_net _ _ HU)]).
      destruct (connack_fits (op_clean_start o) c (y_state u) (e_ok _ _ HU)) as [F1 F2]. destruct (handle_incoming_connack _ _ _) as [st [re|e|]]; cbn [fst snd] in *.
      * split; [now apply rel_same, rel_pc, rel_state|]. cbn. split; [reflexivity|]. destruct re; [now apply F2|exact I].
      * now apply rel_connect, rel_state.
      * now apply rel_crash, rel_state.
    + (* read *) unfold incoming. pose proof (rel_same [ORead p] _ _ HR) as HR1. revert HR1. generalize (log [ORead p] s) (log [ORead p] s'). intros u u' HU.
      rewrite <- (e_state _ _ HU). pose proof (keepv_incoming p (y_state u) (e_ok _ _ HU)) as F1. pose proof (incoming_pairs p (y_state u)) as F2.
      assert (forall a, rel (log [OHandle p] (set_pc (PHandle a) u)) (log [OHandle p] (set_pc (PHandle a) u')) \/ match a with AfterPacket _ => True | _ => False end) as L.
      { intros a. destruct a; [left|left|now right]; (split; [now apply rel_same, rel_pc|cbn; auto]). }
      assert (agree2 (Some (let (st, r) := handle_incoming_packet p (y_state u) in match r with HErr e => end_run Tokio (inr (HandlerErr e)) (set_state st u) | HPanic => crash_now (set_state st u)
         | HOk (reply, true) => log [OHandle p] (set_pc (PHandle (AfterPacket reply)) (set_state st u)) | HOk (reply, false) => reply_now Tokio reply (set_state st u) end))
        (Some (let (st, r) := handle_incoming_packet p (y_state u) in match r with HErr e => end_run Smol (inr (HandlerErr e)) (set_state st u') | HPanic => crash_now (set_state st u')
         | HOk (reply, true) => log [OHandle p] (set_pc (PHandle (AfterPacket reply)) (set_state st u')) | HOk (reply, false) => reply_now Smol reply (set_state st u') end))) as X.
      { destruct (handle_incoming_packet p (y_state u)) as [st [[reply [|]]|e|]]; cbn [fst snd] in *; cbn [agree2].
        - split; [now apply rel_same, rel_pc, rel_state|]. cbn. split; [reflexivity|]. specialize (F2 reply true eq_refl). now destruct reply.
        - apply rel_reply; [now apply rel_state|]. exact (F2 _ _ eq_refl).
        - now apply rel_end, rel_state.
        - now apply rel_crash, rel_state. }
      destruct p; try exact X; cbn [agree2].
      * destruct (L AfterPing) as [Y|[]]. exact Y.
      * destruct (L AfterDisconnect) as [Y|[]]. exact Y.
    + (* flush *) cbn in HQ. subst ps. congruence.
  - (* partial *) destruct (y_pc s) eqn:EP, (y_pc s') eqn:EP'; try exact I; try (destruct HQ; fail).
    + split; [destruct HR as [A1 A2 A3 A4 A5 A6 A7 A8]; constructor; auto|]. cbn. now rewrite EP.
    + cbn in HQ. subst ps. congruence.
  - (* read error *) destruct (y_pc s) eqn:EP, (y_pc s') eqn:EP'; try exact I; try (destruct HQ; fail); [now apply rel_connect|now apply rel_end|cbn in HQ; subst ps; congruence].
  - (* outgoing *) destruct (y_pc s) eqn:EP, (y_pc s') eqn:EP'; try exact I; try (destruct HQ; fail); [|cbn in HQ; subst ps; congruence].
    unfold outgoing. rewrite <- (e_chan _ _ HR), <- (e_state _ _ HR). destruct (e_reqs _ _ HR) as [R1 R2]. destruct (y_chan s) as [|p rest] eqn:EC.
    + destruct (pl_open _); [exact I|]. now apply rel_end.
    + inversion R2; subst. split; [|cbn; auto]. apply rel_pc. destruct HR as [A1 A2 A3 A4 A5 A6 A7 A8]. constructor; cbn; auto.
  - (* handled *) destruct (y_pc s) eqn:EP, (y_pc s') eqn:EP'; try exact I; try (destruct HQ; fail); destruct HQ as [<- HQ].
    + cbv zeta. destruct re; cbn [agree2]; [|apply rel_connected; now apply rel_same]. split; [now apply rel_pc, rel_same|]. cbn. auto.
    + unfold handled. pose proof (rel_same [OHandled] _ _ HR) as HR1. revert HR1. generalize (log [OHandled] s) (log [OHandled] s'). intros u u' HU. destruct a as [| |r]; cbn [agree2].
      * assert (rel0 (set_net (set_await None (y_net u)) u) (set_net (set_await None (y_net u')) u')) as HV by (apply rel_net; [exact HU|]; destruct (e_net _ _ HU) as (A & B & C & D); repeat split; assumption).
        exact (rel_reply None _ _ HV I).
      * now apply rel_end.
      * apply rel_reply; [exact HU|]. now destruct r.
  - (* write *) destruct (y_pc s) eqn:EP, (y_pc s') eqn:EP'; try exact I; try (destruct HQ; fail).
    + destruct (connect_bare _ N2) as (C1 & C2 & C3). destruct (connect_bare _ N3) as (C4 & C5 & C6).
      assert (write_result Tokio (create_connect (nt_opts (y_net s))) ok = write_result Smol (create_connect (nt_opts (y_net s'))) ok) as -> by (rewrite result_agree by exact C3; unfold write_result; now rewrite C2, C5).
      destruct (write_result _ _ _) as [e|]; cbn [agree2].
      * apply rel_connect, rel_log; [exact HR|]. unfold oc, compared. cbn [map fst snd]. now rewrite C1, C4.
      * split; [|exact I]. apply rel_log; [now apply rel_pc|]. unfold oc, compared. cbn [map fst snd]. now rewrite C1, C4.
    + (* select against flush *) cbn in HQ. subst ps. congruence.
    + destruct HQ as [-> HQ]. unfold reply_written, flushed, smol_writes. rewrite result_agree by exact HQ.
      assert (smol_write_all [p] ok = write_result Smol p ok) as ->.
      { unfold smol_write_all, write_result. cbn [find]. destruct (ser_err Smol p) eqn:ES; cbn [is_some]; [now rewrite ES|reflexivity]. }
      destruct (write_result Smol p ok) as [e|]; cbn [agree2 map].
      * now apply rel_end, rel_same.
      * cbn [log y_now]. apply rel_again. rewrite <- (e_now _ _ HR). now apply rel_last, rel_same.
    + destruct HQ as [<- HQ]. unfold request_written. rewrite result_agree by exact HQ. destruct (write_result Smol p ok) as [e|] eqn:EW; cbn [agree2]; [now apply rel_end, rel_same|].
      assert (fits p) as HF by (split; [unfold write_result in EW; now destruct (ser_err Smol p)|exact HQ]).
      pose proof (rel_same [OWrite FromClient p] _ _ HR) as HR1. revert HR1. generalize (log [OWrite FromClient p] s) (log [OWrite FromClient p] s'). intros u u' HU.
      rewrite <- (e_state _ _ HU). pose proof (outgoing_fits p (y_state u) HF (e_ok _ _ HU)) as F1. destruct (handle_outgoing_packet p (y_state u)) as [st [[]|e|]]; cbn [fst] in F1.
      * pose proof (rel_state st _ _ HU F1) as HV. revert HV. generalize (set_state st u) (set_state st u'). intros v v' HV. rewrite <- (e_now _ _ HV). destruct (type_of p); first [now apply rel_again, rel_last|now apply rel_end, rel_last].
      * now apply rel_end, rel_state.
      * now apply rel_crash, rel_state.
  - (* writes *) destruct HS as [-> HO]. destruct (y_pc s) eqn:EP, (y_pc s') eqn:EP'; try exact I; try (destruct HQ; fail). destruct HQ as [<- HQ]. unfold connect_resend. cbn [cf_rt].
    unfold smol_writes. rewrite (smol_all _ HQ), (tokio_all _ _ HQ HO). cbn [agree2].
    pose proof (rel_same (map (OWrite FromResend) re) _ _ HR) as HR1. revert HR1. generalize (log (map (OWrite FromResend) re) s) (log (map (OWrite FromResend) re) s'). intros u u' HU.
    rewrite <- (e_now _ _ HU). now apply rel_connected, rel_last.
Qed.
Lemma outcome_rel s s' : rel s s' -> outcome s = outcome s'.
Proof. intros [[H1 H2 H3 (H4 & _) H5 H6 _ _] _]. unfold outcome. now rewrite H1, H2, H3, H4, H5, H6. Qed.
(* smol writes its empty buffer after a packet that needs no answer *)
Lemma empty_flush s s' ok : rel s s' -> y_pc s' = PFlush [] -> exists t', step (Config Smol o) (EWrite ok) s' = Some t' /\ if ok then rel s t' /\ y_pc t' <> PFlush [] else exists t, step (Config Tokio o) (EReadErr Io) s = Some t /\ rel t t'.
Proof.
  intros [HR HQ] EP. rewrite EP in HQ. destruct (y_pc s) as [| | | | |since| | | | | | |] eqn:ES; try (destruct HQ; fail); [|destruct HQ; discriminate].
  cbn [step]. rewrite EP, ES. unfold flushed, smol_writes, smol_write_all. cbn [find map]. destruct ok.
  - eexists. split; [reflexivity|]. split; [|discriminate]. split.
    + destruct HR as [A1 A2 A3 (B1 & B2 & B3 & B4) A5 A6 A7 A8]. constructor; cbn; auto; [repeat split; auto|now rewrite app_nil_r].
    + cbn. now rewrite ES.
  - eexists. split; [reflexivity|]. eexists. split; [reflexivity|]. cbn [cf_rt]. apply rel_end. destruct HR as [A1 A2 A3 A4 A5 A6 A7 A8]. constructor; cbn; auto. now rewrite app_nil_r.
Qed.
Lemma flush_dec (q : pc) : q = PFlush [] \/ q <> PFlush [].
Proof. destruct q as [| | | | | | | |[|p ps]| | | |]; try (right; discriminate). now left. Qed.
Definition of_handles (e : event) : bool := match e with ETick _ | ECall _ | ESend _ | EGiveUp _ | EDropClients => true | _ => false end.
Lemma both e s s' : rel s s' -> steady e -> (of_handles e = true \/ y_pc s' <> PFlush []) -> agree2 (step (Config Tokio o) e s) (step (Config Smol o) e s').
Proof.
  intros HR HS HN. destruct (of_handles e) eqn:E.
  - apply both_handles; [exact HR|]. now destruct e.
  - destruct HN as [HN|HN]; [discriminate|]. apply both_network; auto. now destruct e.
Qed.
Lemma to_smol es : Forall steady es -> forall s s' t, rel s s' -> exec (Config Tokio o) es s = Some t -> exists es' t', Forall steady es' /\ exec (Config Smol o) es' s' = Some t' /\ rel t t'.
Proof.
  induction 1 as [|e es HE _ IH]; intros s s' t HR; cbn [exec].
  - intros [= <-]. exists [], s'. split; [constructor|]. split; [reflexivity|]. exact HR.
  - destruct (step _ e s) as [s1|] eqn:ES; [|discriminate]. intros HX.
    assert (exists pre u, Forall steady pre /\ exec (Config Smol o) pre s' = Some u /\ rel s u /\ y_pc u <> PFlush []) as (pre & u & P1 & P2 & P3 & P4).
    { destruct (flush_dec (y_pc s')) as [EF|EF].
      - destruct (empty_flush s s' true HR EF) as (u & U1 & U2 & U3). exists [EWrite true], u. split; [repeat constructor|]. split; [cbn [exec]; now rewrite U1|]. auto.
      - exists [], s'. split; [constructor|]. split; [reflexivity|]. auto. }
    pose proof (both e s u P3 HE (or_intror P4)) as HB. rewrite ES in HB. destruct (step (Config Smol o) e u) as [u1|] eqn:EU; [|destruct HB].
    destruct (IH s1 u1 t HB HX) as (es' & t' & Q1 & Q2 & Q3). exists (pre ++ e :: es'), t'. split; [apply Forall_app; split; [exact P1|now constructor]|]. split; [|exact Q3].
    rewrite exec_app, P2. cbn [exec]. now rewrite EU.
Qed.
Lemma to_tokio es : Forall steady es -> forall s s' t', rel s s' -> exec (Config Smol o) es s' = Some t' -> exists es' t, Forall steady es' /\ exec (Config Tokio o) es' s = Some t /\ rel t t'.
Proof.
  induction 1 as [|e es HE _ IH]; intros s s' t' HR; cbn [exec].
  - intros [= <-]. exists [], s. split; [constructor|]. split; [reflexivity|]. exact HR.
  - destruct (step _ e s') as [s1|] eqn:ES; [|discriminate]. intros HX.
    assert (exists pre u, Forall steady pre /\ exec (Config Tokio o) pre s = Some u /\ rel u s1) as (pre & u & P1 & P2 & P3).
    { assert (of_handles e = true \/ y_pc s' <> PFlush [] \/ (of_handles e = false /\ y_pc s' = PFlush [])) as [HN|[HN|[HN EF]]].
      { destruct (of_handles e); [auto|]. destruct (flush_dec (y_pc s')); auto. }
      - pose proof (both e s s' HR HE (or_introl HN)) as HB. rewrite ES in HB. destruct (step (Config Tokio o) e s) as [u|] eqn:EU; [|destruct HB]. exists [e], u. split; [now constructor|]. cbn [exec]. rewrite EU. auto.
      - pose proof (both e s s' HR HE (or_intror HN)) as HB. rewrite ES in HB. destruct (step (Config Tokio o) e s) as [u|] eqn:EU; [|destruct HB]. exists [e], u. split; [now constructor|]. cbn [exec]. rewrite EU. auto.
      - assert (exists ok, e = EWrite ok) as [ok ->]. { destruct e; try discriminate HN; cbn [step] in ES; rewrite EF in ES; try discriminate ES. eauto. }
        destruct (empty_flush s s' ok HR EF) as (v & V1 & V2). rewrite V1 in ES. injection ES as <-. destruct ok.
        + exists [], s. split; [constructor|]. split; [reflexivity|]. apply V2.
        + destruct V2 as (t & T1 & T2). exists [EReadErr Io], t. split; [repeat constructor|]. cbn [exec]. rewrite T1. auto. }
    destruct (IH u s1 t' P3 HX) as (es' & t & Q1 & Q2 & Q3). exists (pre ++ es'), t. split; [apply Forall_app; auto|]. split; [|exact Q3]. now rewrite exec_app, P2.
Qed.
Lemma agreement x : possible Tokio o x <-> possible Smol o x.
Proof.
  split; intros (es & s & HS & HX & <-).
  - destruct (to_smol es HS _ _ _ rel_init HX) as (es' & t' & Q1 & Q2 & Q3). exists es', t'. split; [exact Q1|]. split; [exact Q2|]. symmetry. now apply outcome_rel.
  - destruct (to_tokio es HS _ _ _ rel_init HX) as (es' & t' & Q1 & Q2 & Q3). exists es', t'. split; [exact Q1|]. split; [exact Q2|]. now apply outcome_rel.
Qed.
End Two.
