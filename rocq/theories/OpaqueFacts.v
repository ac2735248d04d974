(* C85 *)
From Verif Require Import Base VarInt Prims Props Codes Packets BaseFacts Options Session Client System SpecOpaque.

Section Rename.
Context (f g : bytes -> bytes) (HF : same_len f) (HG : same_len g).
Local Notation r := (ren f g).
Local Notation rs := (ren_state f g).
Local Notation R := (ren_sys f g).
Local Notation rn := (ren_net f g).
Local Notation ro := (ren_out f g).
Local Notation rp := (ren_publish f g).

(* --- sizes and errors --- *)
Lemma err_seq a b : w_err (a >>> b) = match w_err a with Some e => Some e | None => w_err b end.
Proof. unfold w_seq. destruct a as [x n [e|]]; reflexivity. Qed.
Lemma err_str s : w_err (write_str s) = None.
Proof. reflexivity. Qed.
Lemma sum_ren {A} (h : A -> N) (k : A -> A) l : (forall x, h (k x) = h x) -> sum_len h (map k l) = sum_len h l.
Proof. intros H. unfold sum_len. induction l as [|x l IH]; [reflexivity|]. cbn [map fold_right]. now rewrite H, IH. Qed.
Lemma body_ren p : body_len (r p) = body_len p.
Proof.
  destruct p; try reflexivity; cbn [ren body_len].
  - unfold publish_len, str_len. cbn [ren_publish pb_topic pb_pkid pb_props pb_payload]. now rewrite HF, HG.
  - unfold subscribe_len. cbn [sb_props sb_topics]. rewrite sum_ren; [reflexivity|]. intros x. cbn [fst]. unfold str_len. now rewrite HF.
  - unfold unsubscribe_len. cbn [ub_props ub_topics]. rewrite sum_ren; [reflexivity|]. intros x. unfold str_len. now rewrite HF.
Qed.
Lemma err_concat {A} (h : A -> wr) (k : A -> A) l : (forall x, w_err (h (k x)) = w_err (h x)) -> w_err (w_concat (map h (map k l))) = w_err (w_concat (map h l)).
Proof.
  intros H. unfold w_concat. induction l as [|x l IH]; [reflexivity|]. cbn [map fold_right]. now rewrite !err_seq, H, IH.
Qed.
Lemma first_ren p : first_byte (r p) = first_byte p.
Proof. destruct p; reflexivity. Qed.
Lemma ser_ren rt p : ser_err rt (r p) = ser_err rt p.
Proof.
  unfold ser_err. destruct rt.
  - assert (w_err (awrite_body (r p)) = w_err (awrite_body p)) as HB.
    { destruct p; try reflexivity; cbn [ren awrite_body].
      - unfold awrite_publish. cbn [ren_publish pb_topic pb_pkid pb_props pb_payload]. rewrite !err_seq. reflexivity.
      - unfold awrite_subscribe. cbn [sb_id sb_props sb_topics]. rewrite !err_seq. now rewrite err_concat.
      - unfold awrite_unsubscribe. cbn [ub_id ub_props ub_topics]. rewrite !err_seq. now rewrite err_concat. }
    assert (w_err (w_put [first_byte (r p)] >>> awrite_varint (body_len (r p)) >>> awrite_body (r p)) = w_err (w_put [first_byte p] >>> awrite_varint (body_len p) >>> awrite_body p)) as H
      by (rewrite !err_seq, body_ren, HB; reflexivity).
    destruct p; try exact H; reflexivity.
  - assert (w_err (write_body (r p)) = w_err (write_body p)) as HB.
    { destruct p; try reflexivity; cbn [ren write_body].
      - unfold write_publish. cbn [ren_publish pb_topic pb_pkid pb_props pb_payload]. rewrite !err_seq. reflexivity.
      - unfold write_subscribe. cbn [sb_id sb_props sb_topics]. rewrite !err_seq. now rewrite err_concat.
      - unfold write_unsubscribe. cbn [ub_id ub_props ub_topics]. rewrite !err_seq. now rewrite err_concat. }
    assert (w_err (w_put [first_byte (r p)] >>> write_varint (body_len (r p)) >>> write_body (r p)) = w_err (w_put [first_byte p] >>> write_varint (body_len p) >>> write_body p)) as H
      by (rewrite !err_seq, body_ren, HB; reflexivity).
    destruct p; try exact H; reflexivity.
Qed.
Lemma result_ren rt p ok : write_result rt (r p) ok = write_result rt p ok.
Proof. unfold write_result. now rewrite ser_ren. Qed.
Lemma result_err rt p ok : option_map (ren_err f g) (write_result rt p ok) = write_result rt p ok.
Proof. unfold write_result. destruct (ser_err rt p); [reflexivity|]. now destruct ok. Qed.
Lemma find_ren {A} (h : A -> bool) (k : A -> A) l : (forall x, h (k x) = h x) -> find h (map k l) = option_map k (find h l).
Proof. intros H. induction l as [|x l IH]; [reflexivity|]. cbn [map find]. rewrite H. now destruct (h x). Qed.
Lemma all_ren ps ok : smol_write_all (map r ps) ok = smol_write_all ps ok.
Proof.
  unfold smol_write_all. rewrite find_ren by (intros; now rewrite ser_ren). destruct (find _ ps); [|reflexivity]. cbn [option_map]. now rewrite ser_ren.
Qed.
Lemma all_err ps ok : option_map (ren_err f g) (smol_write_all ps ok) = smol_write_all ps ok.
Proof. unfold smol_write_all. destruct (find _ ps) as [p|]; [now destruct (ser_err Smol p)|now destruct ok]. Qed.
Lemma long_ren {A} (h : A -> bytes) (k : A -> A) l : (forall x, len (h (k x)) = len (h x)) -> first_long h (map k l) = first_long h l.
Proof. intros H. unfold first_long. rewrite find_ren by (intros; now rewrite H). destruct (find _ l); [|reflexivity]. cbn [option_map]. now rewrite H. Qed.
Lemma validate_ren max p : validate max (r p) = validate max p.
Proof.
  pose proof (body_ren p) as HB. destruct p; try reflexivity; cbn [ren validate body_len] in *.
  - unfold validate_publish. rewrite HB. cbn [ren_publish pb_topic]. now rewrite HF.
  - unfold validate_subscribe. rewrite HB. cbn [sb_topics]. rewrite long_ren; [reflexivity|]. intros x. apply HF.
  - unfold validate_unsubscribe. rewrite HB. cbn [ub_topics]. rewrite long_ren; [reflexivity|]. intros x. apply HF.
Qed.
Lemma build_ren c id : build (ren_call f g c) id = r (build c id).
Proof. now destruct c. Qed.
Lemma call_ren max c p : client_call max (ren_call f g c) p =
  match client_call max c p with
  | None => None
  | Some (p', inl (pkt, e)) => Some (p', inl (r pkt, e))
  | Some (p', inr pkt) => Some (p', inr (r pkt))
  end.
Proof.
  unfold client_call. replace (needs_id (ren_call f g c)) with (needs_id c) by now destruct c.
  destruct (needs_id c); [destruct (pl_ids p); [reflexivity|]|]; rewrite build_ren, validate_ren; now destruct (validate _ _).
Qed.

(* --- the session --- *)
Definition com {A} (h : A -> A) (m m' : M A) : Prop :=
  forall s, m' (rs s) = let (t, x) := m s in (rs t, match x with HOk a => HOk (h a) | HErr e => HErr e | HPanic => HPanic end).
Definition same {A} (a : A) : A := a.
Lemma com_bind {A B} (h : A -> A) (k : B -> B) m m' (n n' : A -> M B) : com h m m' -> (forall a, com k (n a) (n' (h a))) -> com k (mbind m n) (mbind m' n').
Proof. intros H1 H2 s. unfold mbind. rewrite H1. destruct (m s) as [t [a|e|]]; [apply H2|reflexivity|reflexivity]. Qed.
Lemma com_ret {A} (h : A -> A) a b : b = h a -> com h (ret a) (ret b).
Proof. intros -> s. reflexivity. Qed.
Lemma com_fail {A} (h : A -> A) e : com h (fail e) (fail e).
Proof. intros s. reflexivity. Qed.
Lemma com_panic {A} (h : A -> A) : com h panic panic.
Proof. intros s. reflexivity. Qed.
Lemma com_mark i : com same (mark_available i) (mark_available i).
Proof. intros s. unfold mark_available. cbn [ren_state st_pool st_sub st_unsub st_pub st_order st_rel st_in]. destruct (negb _); [reflexivity|]. destruct (_ <=? _); reflexivity. Qed.
Lemma com_in_add i : com same (add_incoming_pub i) (add_incoming_pub i).
Proof. intros s. unfold add_incoming_pub. cbn [ren_state st_in]. now destruct (set_insert i _). Qed.
Lemma com_in_remove i : com same (remove_incoming_pub i) (remove_incoming_pub i).
Proof. intros s. unfold remove_incoming_pub. cbn [ren_state st_in]. now destruct (set_remove i _). Qed.
Lemma com_rel_add i : com same (add_outgoing_rel i) (add_outgoing_rel i).
Proof. intros s. unfold add_outgoing_rel. cbn [ren_state st_rel]. now destruct (set_insert i _). Qed.
Lemma com_rel_remove i : com same (remove_outgoing_rel i) (remove_outgoing_rel i).
Proof. intros s. unfold remove_outgoing_rel. cbn [ren_state st_rel]. now destruct (set_remove i _). Qed.
Lemma com_sub_add i : com same (add_outgoing_sub i) (add_outgoing_sub i).
Proof. intros s. unfold add_outgoing_sub. cbn [ren_state st_sub]. now destruct (set_insert i _). Qed.
Lemma com_sub_remove i : com same (remove_outgoing_sub i) (remove_outgoing_sub i).
Proof. intros s. unfold remove_outgoing_sub. cbn [ren_state st_sub]. now destruct (set_remove i _). Qed.
Lemma com_unsub_add i : com same (add_outgoing_unsub i) (add_outgoing_unsub i).
Proof. intros s. unfold add_outgoing_unsub. cbn [ren_state st_unsub]. now destruct (set_insert i _). Qed.
Lemma com_unsub_remove i : com same (remove_outgoing_unsub i) (remove_outgoing_unsub i).
Proof. intros s. unfold remove_outgoing_unsub. cbn [ren_state st_unsub]. now destruct (set_remove i _). Qed.
Lemma vec_ren {A} (h : A -> A) i v l : vec_at i (h v) (map h l) = option_map (fun x => (h (fst x), map h (snd x))) (vec_at i v l).
Proof.
  revert i. induction l as [|y l IH]; intros [|i]; try reflexivity. cbn [map vec_at]. rewrite IH. now destruct (vec_at i v l) as [[o q]|].
Qed.
Lemma com_pub_add i p : com same (add_outgoing_pub i p) (add_outgoing_pub i (rp p)).
Proof.
  intros s. unfold add_outgoing_pub. destruct (i =? 0); [reflexivity|]. cbn [ren_state st_pub st_pool st_sub st_unsub st_order st_rel st_in].
  change (Some (rp p)) with (option_map rp (Some p)). rewrite vec_ren. destruct (vec_at _ _ (st_pub s)) as [[old v]|]; [|reflexivity]. cbn [option_map fst snd]. now destruct old.
Qed.
Lemma com_pub_remove i : com (option_map rp) (remove_outgoing_pub i) (remove_outgoing_pub i).
Proof.
  intros s. unfold remove_outgoing_pub. cbn [ren_state st_pub st_pool st_sub st_unsub st_order st_rel st_in]. destruct (i =? 0); [reflexivity|].
  change (@None publish) with (option_map rp None) at 1. rewrite vec_ren. destruct (vec_at _ _ (st_pub s)) as [[old v]|]; reflexivity.
Qed.
Lemma resend_ren v order : resend (map (option_map rp) v) order = option_map (map r) (resend v order).
Proof.
  induction order as [|i order IH]; [reflexivity|]. cbn [resend]. destruct (i =? 0); [reflexivity|]. rewrite nth_error_map, IH.
  destruct (nth_error v _) as [[p|]|]; try reflexivity. cbn [option_map]. now destruct (resend v order).
Qed.
Lemma map_rel l : map r (map (fun i => PPubRel (plain_ack i)) l) = map (fun i => PPubRel (plain_ack i)) l.
Proof. rewrite map_map. reflexivity. Qed.
Lemma com_reset b : com (fun x => (fst x, map r (snd x))) (reset b) (reset b).
Proof.
  intros s. unfold reset. cbn [ren_state st_pub st_pool st_sub st_unsub st_order st_rel st_in]. destruct b.
  - rewrite resend_ren. destruct (resend _ _) as [pubs|]; [|reflexivity]. cbn [option_map fst snd]. rewrite map_app, map_rel. reflexivity.
  - unfold ren_state. cbn [st_pub st_pool st_sub st_unsub st_order st_rel st_in]. rewrite map_length. do 2 f_equal. induction (length (st_pub s)); [reflexivity|]. cbn. congruence.
Qed.
Lemma com_ack (m : M (option packet)) : com (option_map r) m m -> com (fun x => (option_map r (fst x), snd x)) (do x <- m; ret (x, true)) (do x <- m; ret (x, true)).
Proof. intros H. eapply com_bind; [exact H|]. intros a. now apply com_ret. Qed.
Lemma com_release b i t : com (option_map r) (if b : bool then do _ <- make_pkid_available i; ret None else fail (Unsolicited i t)) (if b : bool then do _ <- make_pkid_available i; ret None else fail (Unsolicited i t)).
Proof. destruct b; [|apply com_fail]. eapply com_bind; [apply com_mark|]. intros. now apply com_ret. Qed.
Lemma com_incoming p : com (fun x => (option_map r (fst x), snd x)) (handle_incoming_packet p) (handle_incoming_packet (r p)).
Proof.
  destruct p; cbn [ren handle_incoming_packet]; try apply com_fail.
  - unfold handle_incoming_publish. cbn [ren_publish pb_qos pb_pkid pb_dup]. destruct (pb_qos p); [now apply com_ret|destruct (pb_pkid p); [now apply com_ret|apply com_fail]|].
    destruct (pb_pkid p); [|apply com_fail]. eapply com_bind; [apply com_in_add|]. intros b. now apply com_ret.
  - apply com_ack. unfold handle_incoming_puback. eapply com_bind; [apply com_pub_remove|]. intros old. replace (is_some (option_map rp old)) with (is_some old) by now destruct old. apply com_release.
  - apply com_ack. unfold handle_incoming_pubrec. eapply com_bind; [apply com_pub_remove|]. intros [old|]; [|apply com_fail]. cbn [option_map].
    assert (com (option_map r) (do _ <- add_outgoing_rel (ak_id a); ret (Some (PPubRel (plain_ack (ak_id a))))) (do _ <- add_outgoing_rel (ak_id a); ret (Some (PPubRel (plain_ack (ak_id a)))))) as X
      by (eapply com_bind; [apply com_rel_add|]; intros; now apply com_ret).
    destruct (ak_rc a); first [exact X|now apply com_ret].
  - apply com_ack. eapply com_bind; [apply com_in_remove|]. intros. now apply com_ret.
  - apply com_ack. eapply com_bind; [apply com_rel_remove|]. intros b. apply com_release.
  - apply com_ack. eapply com_bind; [apply com_sub_remove|]. intros b. apply com_release.
  - apply com_ack. eapply com_bind; [apply com_unsub_remove|]. intros b. apply com_release.
Qed.
Lemma com_all ids : com same (make_all_available ids) (make_all_available ids).
Proof. induction ids as [|i ids IH]; cbn [make_all_available]; [now apply com_ret|]. eapply com_bind; [apply com_mark|]. intros. exact IH. Qed.
Lemma com_connack b c : com (option_map (map r)) (handle_incoming_connack b c) (handle_incoming_connack b c).
Proof.
  unfold handle_incoming_connack. destruct (ca_rc c); try (now apply com_ret). eapply com_bind; [apply com_reset|]. intros [ids re]. cbn [fst snd].
  eapply com_bind; [apply com_all|]. intros. now apply com_ret.
Qed.
Lemma com_outgoing p : com same (handle_outgoing_packet p) (handle_outgoing_packet (r p)).
Proof.
  destruct p; cbn [ren handle_outgoing_packet]; try (now apply com_ret).
  - unfold handle_outgoing_publish. cbn [ren_publish pb_qos pb_pkid]. destruct (pb_qos p); [now apply com_ret| |]; (destruct (pb_pkid p); [apply com_pub_add|apply com_panic]).
  - cbn [sb_id]. eapply com_bind; [apply com_sub_add|]. intros. now apply com_ret.
  - cbn [ub_id]. eapply com_bind; [apply com_unsub_add|]. intros. now apply com_ret.
Qed.

(* --- the client --- *)
Lemma log_ren l s : log (map ro l) (R s) = R (log l s).
Proof. unfold log, ren_sys. cbn. f_equal. rewrite map_app, !map_map. reflexivity. Qed.
Lemma log_ren1 o o' s : ro o = o' -> log [o'] (R s) = R (log [o] s).
Proof. intros <-. apply (log_ren [o] s). Qed.
Lemma end_run_ren rt x s : end_run rt (match x with inr e => inr (ren_err f g e) | inl a => inl a end) (R s) = R (end_run rt x s).
Proof. unfold end_run. rewrite <- log_ren. destruct rt, x; reflexivity. Qed.
Lemma end_run_l rt a s : end_run rt (inl a) (R s) = R (end_run rt (inl a) s).
Proof. exact (end_run_ren rt (inl a) s). Qed.
Lemma end_run_r rt e s : ren_err f g e = e -> end_run rt (inr e) (R s) = R (end_run rt (inr e) s).
Proof. intros H. rewrite <- (end_run_ren rt (inr e) s), H. reflexivity. Qed.
Lemma end_connect_ren x s : end_connect (option_map (ren_err f g) x) (R s) = R (end_connect x s).
Proof. unfold end_connect. rewrite <- log_ren. destruct x; reflexivity. Qed.
Lemma end_connect_r e s : ren_err f g e = e -> end_connect (Some e) (R s) = R (end_connect (Some e) s).
Proof. intros H. rewrite <- (end_connect_ren (Some e) s). cbn [option_map]. now rewrite H. Qed.
Lemma crash_ren s : crash_now (R s) = R (crash_now s).
Proof. unfold crash_now. rewrite <- log_ren. reflexivity. Qed.
Lemma flush_ren s : smol_flush (R s) = R (smol_flush s).
Proof. reflexivity. Qed.
Lemma push_ren p s : smol_push (r p) (R s) = R (smol_push p s).
Proof. unfold smol_push, ren_sys, ren_net, set_net, set_buf. cbn. now rewrite map_app. Qed.
Lemma reply_ren rt x s : reply_now rt (option_map r x) (R s) = R (reply_now rt x s).
Proof. destruct rt, x; try reflexivity. cbn [reply_now option_map]. now rewrite push_ren. Qed.
Lemma connected_ren s : connected (R s) = R (connected s).
Proof. unfold connected. now rewrite <- (end_connect_ren None). Qed.
Lemma connected_last s : connected (set_net (set_last (y_now (R s)) (y_net (R s))) (R s)) = R (connected (set_net (set_last (y_now s) (y_net s)) s)).
Proof. exact (connected_ren (set_net (set_last (y_now s) (y_net s)) s)). Qed.
Lemma tokio_ren o ps : forall oks, tokio_writes o (map r ps) oks = map ro (tokio_writes o ps oks).
Proof.
  induction ps as [|p ps IH]; intros oks; [reflexivity|]. cbn [map tokio_writes]. destruct (match oks with [] => (true, []) | b :: q => (b, q) end) as [b q].
  rewrite result_ren, IH. now destruct (write_result Tokio p b).
Qed.
Lemma smol_ren o ps ok : smol_writes o (map r ps) ok = map ro (smol_writes o ps ok).
Proof. unfold smol_writes. rewrite all_ren, !map_map. now destruct (smol_write_all ps ok). Qed.
Lemma pick_ren {A} (h : A -> A) i l : pick i (map h l) = option_map (fun x => (h (fst x), map h (snd x))) (pick i l).
Proof. revert i. induction l as [|y l IH]; intros [|i]; try reflexivity. cbn [map pick]. rewrite IH. now destruct (pick i l) as [[o q]|]. Qed.
Lemma answer_ren c p s : connect_answer c (r p) (R s) = R (connect_answer c p s).
Proof.
  unfold connect_answer. cbv zeta. rewrite (log_ren1 (OAnswer p)) by reflexivity. set (s1 := log [OAnswer p] s).
  assert (end_connect (Some (NotConnAck (r p))) (R s1) = R (end_connect (Some (NotConnAck p)) s1)) as X by exact (end_connect_ren (Some (NotConnAck p)) s1).
  destruct p; try exact X. cbn [ren]. clear X. destruct (ca_rc c0) eqn:ER; try (now apply end_connect_r).
  change (y_now (R s1)) with (y_now s1). replace (set_net (apply_connack (cf_rt c) (y_now s1) c0 (y_net (R s1))) (R s1)) with (R (set_net (apply_connack (cf_rt c) (y_now s1) c0 (y_net s1)) s1))
    by (unfold apply_connack; destruct (cf_rt c); reflexivity).
  set (s2 := set_net _ s1). change (y_state (R s2)) with (rs (y_state s2)). rewrite com_connack. destruct (handle_incoming_connack _ _ (y_state s2)) as [st [re|e|]].
  - change (set_pc (PConnHandle (option_map (map r) re)) (set_state (rs st) (R s2))) with (R (set_pc (PConnHandle re) (set_state st s2))). now apply log_ren1.
  - change (set_state (rs st) (R s2)) with (R (set_state st s2)). now apply end_connect_r.
  - exact (crash_ren (set_state st s2)).
Qed.
Lemma incoming_ren rt p s : incoming rt (r p) (R s) = R (incoming rt p s).
Proof.
  unfold incoming. cbv zeta. rewrite (log_ren1 (ORead p)) by reflexivity. set (s1 := log [ORead p] s). change (y_state (R s1)) with (rs (y_state s1)).
  assert ((let (st, x) := handle_incoming_packet (r p) (rs (y_state s1)) in match x with HErr e => end_run rt (inr (HandlerErr e)) (set_state st (R s1)) | HPanic => crash_now (set_state st (R s1))
         | HOk (reply, true) => log [OHandle (r p)] (set_pc (PHandle (AfterPacket reply)) (set_state st (R s1))) | HOk (reply, false) => reply_now rt reply (set_state st (R s1)) end) =
    R (let (st, x) := handle_incoming_packet p (y_state s1) in match x with HErr e => end_run rt (inr (HandlerErr e)) (set_state st s1) | HPanic => crash_now (set_state st s1)
         | HOk (reply, true) => log [OHandle p] (set_pc (PHandle (AfterPacket reply)) (set_state st s1)) | HOk (reply, false) => reply_now rt reply (set_state st s1) end)) as X.
  { rewrite com_incoming. destruct (handle_incoming_packet p (y_state s1)) as [st [[reply b]|e|]]; cbn [fst snd]; change (set_state (rs st) (R s1)) with (R (set_state st s1)).
    - destruct b; [|apply reply_ren]. change (set_pc (PHandle (AfterPacket (option_map r reply))) (R (set_state st s1))) with (R (set_pc (PHandle (AfterPacket reply)) (set_state st s1))). now apply log_ren1.
    - now apply end_run_r.
    - apply crash_ren. }
  destruct p; try exact X.
  - exact (log_ren1 (OHandle PPingResp) _ (set_pc (PHandle AfterPing) s1) eq_refl).
  - exact (log_ren1 (OHandle (PDisconnect d)) _ (set_pc (PHandle AfterDisconnect) s1) eq_refl).
Qed.
Lemma err_fix x e : option_map (ren_err f g) x = x -> x = Some e -> ren_err f g e = e.
Proof. intros H ->. cbn in H. congruence. Qed.
Lemma request_ren rt p ok s : request_written rt (r p) ok (R s) = R (request_written rt p ok s).
Proof.
  unfold request_written. rewrite result_ren. destruct (write_result rt p ok) as [e|] eqn:EW.
  - rewrite (log_ren1 (OWriteFail FromClient p)) by reflexivity. apply end_run_r. exact (err_fix _ _ (result_err rt p ok) EW).
  - cbv zeta. rewrite (log_ren1 (OWrite FromClient p)) by reflexivity. set (s1 := log _ s). change (y_state (R s1)) with (rs (y_state s1)). rewrite com_outgoing.
    destruct (handle_outgoing_packet p (y_state s1)) as [st [u|e|]]; change (set_state (rs st) (R s1)) with (R (set_state st s1)).
    + replace (type_of (r p)) with (type_of p) by now destruct p. destruct (type_of p); first [reflexivity|exact (end_run_l rt OutgoingDisconnect (set_net (set_last (y_now (set_state st s1)) (y_net (set_state st s1))) (set_state st s1)))].
    + now apply end_run_r.
    + apply crash_ren.
Qed.

Lemma step_ren c e s : step c (ren_event f g e) (R s) = option_map R (step c e s).
Proof.
  destruct e; cbn [step ren_event].
  - reflexivity.
  - unfold begin_call. change (st_pool (y_state (R s))) with (st_pool (y_state s)). destruct (pl_open _); [|reflexivity]. rewrite call_ren. destruct (client_call _ _ _) as [[p' [[pkt e]|pkt]]|]; [| |reflexivity]; cbn [option_map]; f_equal.
    + rewrite <- log_ren. reflexivity.
    + rewrite <- log_ren. cbn [map ren_out]. f_equal. unfold ren_sys, set_wait, set_state. cbn. now rewrite map_app.
  - unfold send_call. change (y_wait (R s)) with (map r (y_wait s)). rewrite pick_ren. destruct (pick i (y_wait s)) as [[p rest]|]; [|reflexivity]. cbn [option_map fst snd].
    change (y_chan (R s)) with (map r (y_chan s)). replace (len (map r (y_chan s))) with (len (y_chan s)) by (unfold len; now rewrite map_length). destruct (_ <? _); [|reflexivity].
    cbn [option_map]. f_equal. rewrite <- log_ren. cbn [map ren_out]. f_equal. unfold ren_sys, set_chan, set_wait. cbn. now rewrite map_app.
  - unfold give_up. change (y_wait (R s)) with (map r (y_wait s)). rewrite pick_ren. destruct (pick i (y_wait s)) as [[p rest]|]; [|reflexivity]. cbn [option_map fst snd]. f_equal. now rewrite <- log_ren.
  - unfold drop_clients. change (y_wait (R s)) with (map r (y_wait s)). destruct (y_wait s); [|reflexivity]. cbn [map option_map]. f_equal. now rewrite <- log_ren.
  - change (y_pc (R s)) with (ren_pc f g (y_pc s)). destruct (y_pc s) as [| | | | | |[]| | | | | |]; try reflexivity. cbn [ren_pc option_map]. f_equal. now rewrite <- log_ren.
  - change (y_pc (R s)) with (ren_pc f g (y_pc s)). destruct (y_pc s) as [| | | | | |[]| | | | | |]; try reflexivity. cbn [ren_pc option_map]. f_equal. unfold start_run.
    change (nt_connected (y_net (R s))) with (nt_connected (y_net s)). destruct (nt_connected _); [|now rewrite <- log_ren].
    change (again (log [ORun] (set_net (match cf_rt c with Tokio => set_await None (y_net (R s)) | Smol => y_net (R s) end) (R s))) = R (again (log [ORun] (set_net (match cf_rt c with Tokio => set_await None (y_net s) | Smol => y_net s end) s)))).
    replace (set_net (match cf_rt c with Tokio => set_await None (y_net (R s)) | Smol => y_net (R s) end) (R s)) with (R (set_net (match cf_rt c with Tokio => set_await None (y_net s) | Smol => y_net s end) s)) by (destruct (cf_rt c); reflexivity).
    rewrite (log_ren1 ORun) by reflexivity. reflexivity.
  - change (y_pc (R s)) with (ren_pc f g (y_pc s)). destruct (y_pc s) as [| | | | | |[]| | | | | |]; try reflexivity; cbn [ren_pc option_map]; f_equal; [apply answer_ren|apply incoming_ren].
  - change (y_pc (R s)) with (ren_pc f g (y_pc s)). destruct (y_pc s) as [| | | | | |[]| | | | | |]; try reflexivity. cbn [ren_pc option_map]. f_equal. now destruct (cf_rt c).
  - change (y_pc (R s)) with (ren_pc f g (y_pc s)). destruct (y_pc s) as [| | | | | |[]| | | | | |]; try reflexivity; cbn [ren_pc option_map]; f_equal; [exact (end_connect_ren (Some e) s)|exact (end_run_ren _ (inr e) s)].
  - change (y_pc (R s)) with (ren_pc f g (y_pc s)). destruct (y_pc s) as [| | | | | |[]| | | | | |]; try reflexivity; cbn [ren_pc option_map]. unfold outgoing. change (y_chan (R s)) with (map r (y_chan s)).
    destruct (y_chan s); cbn [map]; [|reflexivity]. change (st_pool (y_state (R s))) with (st_pool (y_state s)). destruct (pl_open _); [reflexivity|]. cbn [option_map]. f_equal. now apply end_run_r.
  - change (y_pc (R s)) with (ren_pc f g (y_pc s)). destruct (y_pc s) as [| | | | | |[]| | | | | |]; try reflexivity; cbn [ren_pc option_map]. unfold timer, tokio_timer, smol_timer, tokio_deadline, smol_deadline. cbn [ren_sys ren_net y_net y_now nt_await nt_perform nt_opts nt_last nt_keep].
    destruct (cf_rt c), (_ <? _), (nt_await (y_net s)), (nt_perform (y_net s)); reflexivity.
  - change (y_pc (R s)) with (ren_pc f g (y_pc s)). destruct (y_pc s) as [| | |re| | |a| | | | | |]; try reflexivity; cbn [ren_pc option_map].
    + f_equal. rewrite (log_ren1 OHandled) by reflexivity. destruct re; [reflexivity|apply connected_ren].
    + destruct a; cbn [option_map]; f_equal; unfold handled; cbv zeta; rewrite (log_ren1 OHandled) by reflexivity; [now destruct (cf_rt c)|exact (end_run_l _ _ _)|apply reply_ren].
  - change (y_pc (R s)) with (ren_pc f g (y_pc s)). destruct (y_pc s) as [| | |re| | |[]| | | | | |]; try reflexivity; cbn [ren_pc option_map]; f_equal.
    + change (nt_opts (y_net (R s))) with (nt_opts (y_net s)). set (p := create_connect _). assert (r p = p) as EP by reflexivity. destruct (write_result _ p ok) as [e|] eqn:EW.
      * rewrite (log_ren1 (OWriteFail FromConnect p)) by reflexivity. apply end_connect_r. exact (err_fix _ _ (result_err _ p ok) EW).
      * exact (log_ren1 (OWrite FromConnect p) _ (set_pc PConnRead s) eq_refl).
    + unfold reply_written. rewrite result_ren. destruct (write_result _ p ok) as [e|] eqn:EW.
      * rewrite (log_ren1 (OWriteFail FromReply p)) by reflexivity. apply end_run_r. exact (err_fix _ _ (result_err _ p ok) EW).
      * cbv zeta. rewrite (log_ren1 (OWrite FromReply p)) by reflexivity. reflexivity.
    + unfold flushed. rewrite smol_ren, log_ren, all_ren. destruct (smol_write_all ps ok) as [e|] eqn:EW; [|reflexivity]. apply end_run_r. exact (err_fix _ _ (all_err ps ok) EW).
    + apply request_ren.
    + unfold ping_written. destruct (write_result _ _ ok) as [e|] eqn:EW.
      * rewrite (log_ren1 (OWriteFail FromTimer PPingReq)) by reflexivity. apply end_run_r. exact (err_fix _ _ (result_err _ PPingReq ok) EW).
      * cbv zeta. rewrite (log_ren1 (OWrite FromTimer PPingReq)) by reflexivity. reflexivity.
    + unfold bye_written. destruct (write_result _ _ ok) as [e|] eqn:EW.
      * rewrite (log_ren1 (OWriteFail FromTimer bye)) by reflexivity. apply end_run_r. exact (err_fix _ _ (result_err _ bye ok) EW).
      * rewrite (log_ren1 (OWrite FromTimer bye)) by reflexivity. apply end_run_l.
  - change (y_pc (R s)) with (ren_pc f g (y_pc s)). destruct (y_pc s) as [| | |re| | |[]| | | | | |]; try reflexivity; cbn [ren_pc option_map]; f_equal. unfold connect_resend. destruct (cf_rt c).
    + cbv zeta. rewrite tokio_ren, log_ren. destruct ok; [exact (connected_last _)|now apply end_connect_r].
    + cbv zeta. rewrite smol_ren, log_ren, all_ren. destruct (smol_write_all _ ok) as [e|] eqn:EW; [|exact (connected_last _)]. apply end_connect_r. exact (err_fix _ _ (all_err _ ok) EW).
Qed.
Lemma exec_ren c : forall es s, exec c (map (ren_event f g) es) (R s) = option_map R (exec c es s).
Proof.
  induction es as [|e es IH]; intros s; [reflexivity|]. cbn [map exec]. rewrite step_ren. destruct (step c e s) as [t|]; [apply IH|reflexivity].
Qed.
Lemma init_ren c : R (init c) = init c.
Proof. unfold ren_sys, init, ren_state, new_state. cbn. f_equal. f_equal. induction (N.to_nat _); [reflexivity|]. cbn. congruence. Qed.
Lemma opaque c es : exec c (map (ren_event f g) es) (init c) = option_map R (exec c es (init c)).
Proof. rewrite <- exec_ren. now rewrite init_ren. Qed.
End Rename.
