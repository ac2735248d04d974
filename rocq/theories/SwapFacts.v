(* C86 *)
From Verif Require Import Base VarInt Prims Props Codes Packets BaseFacts Options Session Client System SpecSession SpecNet SpecTrace SpecSwap SessionFacts SystemFacts Cases IdMore BlindFacts.

(* --- the session when an identifier has been taken from the pool --- *)
Definition cut (b : bool) (p : pool) : pool := Pool (if b then tl (pl_ids p) else pl_ids p) (pl_cap p) (pl_open p).
Definition pop (b : bool) (st : state) : state := set_pool (cut b (st_pool st)) st.
Definition longer (p q : pool) : Prop := exists l, q = Pool (pl_ids p ++ l) (pl_cap p) (pl_open p).
Lemma longer_refl p : longer p p.
Proof. exists []. destruct p. cbn. now rewrite app_nil_r. Qed.
Lemma longer_trans p q r : longer p q -> longer q r -> longer p r.
Proof. intros [l ->] [k ->]. exists (l ++ k). cbn. now rewrite app_assoc. Qed.
Lemma longer_some b p q : longer p q -> (b = true -> pl_ids p <> []) -> b = true -> pl_ids q <> [].
Proof. intros [l ->] H E. cbn. specialize (H E). now destruct (pl_ids p). Qed.

Definition grows {A} (m : M A) : Prop := forall st, longer (st_pool st) (st_pool (fst (m st))).
Definition free {A} (m : M A) : Prop := forall b st, m (pop b st) = (pop b (fst (m st)), snd (m st)).
Definition keeps {A} (m : M A) : Prop := forall b st, (b = true -> pl_ids (st_pool st) <> []) -> snd (m st) <> HPanic -> m (pop b st) = (pop b (fst (m st)), snd (m st)).

Lemma free_keeps {A} (m : M A) : free m -> keeps m.
Proof. intros H b st _ _. apply H. Qed.
Lemma grows_bind {A B} (m : M A) (k : A -> M B) : grows m -> (forall a, grows (k a)) -> grows (mbind m k).
Proof.
  intros H K st. unfold mbind. specialize (H st). destruct (m st) as [t [a|e|]]; cbn [fst] in *; try exact H.
  exact (longer_trans _ _ _ H (K a t)).
Qed.
Lemma free_bind {A B} (m : M A) (k : A -> M B) : free m -> (forall a, free (k a)) -> free (mbind m k).
Proof. intros H K b st. unfold mbind. rewrite H. destruct (m st) as [t [a|e|]]; cbn [fst snd]; [apply K|reflexivity|reflexivity]. Qed.
Lemma keeps_bind {A B} (m : M A) (k : A -> M B) : grows m -> keeps m -> (forall a, keeps (k a)) -> keeps (mbind m k).
Proof.
  intros G H K b st HN. unfold mbind. intros HP. specialize (G st). specialize (H b st HN). destruct (m st) as [t [a|e|]]; cbn [fst snd] in *.
  - rewrite H by discriminate. apply K; [|exact HP]. exact (longer_some b _ _ G HN).
  - now rewrite H by discriminate.
  - congruence.
Qed.
Lemma grows_ret {A} (a : A) : grows (ret a). Proof. intros st. apply longer_refl. Qed.
Lemma grows_fail {A} e : grows (fail e : M A). Proof. intros st. apply longer_refl. Qed.
Lemma grows_panic {A} : grows (panic : M A). Proof. intros st. apply longer_refl. Qed.
Lemma free_ret {A} (a : A) : free (ret a). Proof. intros b st. reflexivity. Qed.
Lemma free_fail {A} e : free (fail e : M A). Proof. intros b st. reflexivity. Qed.
Lemma free_panic {A} : free (panic : M A). Proof. intros b st. reflexivity. Qed.
Lemma grows_mark i : grows (make_pkid_available i).
Proof.
  intros st. unfold make_pkid_available, mark_available. destruct (negb _) eqn:E; [apply longer_refl|]. destruct (_ <=? _); [apply longer_refl|]. exists [i]. reflexivity.
Qed.
Lemma tl_app {A} (l k : list A) : l <> [] -> tl (l ++ k) = tl l ++ k.
Proof. now destruct l. Qed.
Lemma keeps_mark i : keeps (make_pkid_available i).
Proof.
  intros b st HN. unfold make_pkid_available, mark_available. cbn [pop set_pool st_pool cut pl_open pl_cap pl_ids]. destruct (negb _) eqn:E; [reflexivity|]. destruct (_ <=? len (pl_ids _)) eqn:EL; [intros X; exfalso; now apply X|]. intros _.
  assert (pl_cap (st_pool st) <=? len (if b then tl (pl_ids (st_pool st)) else pl_ids (st_pool st)) = false) as ->.
  { destruct b; [|exact EL]. destruct (pl_ids (st_pool st)); [exact EL|]. cbn [tl]. unfold len in *. cbn [length] in EL. lia. }
  cbn [fst snd]. unfold pop, set_pool, cut. cbn. destruct b; [|reflexivity]. now rewrite tl_app by now apply HN.
Qed.
Ltac flat := intros st; cbn; repeat match goal with |- context[let (_, _) := ?x in _] => destruct x end; apply longer_refl.
Ltac flatf := intros b st; cbn; repeat match goal with |- context[let (_, _) := ?x in _] => destruct x end; reflexivity.
Lemma grows_add_in i : grows (add_incoming_pub i). Proof. intros st. unfold add_incoming_pub. destruct (set_insert _ _). apply longer_refl. Qed.
Lemma free_add_in i : free (add_incoming_pub i). Proof. intros b st. unfold add_incoming_pub. cbn [pop set_pool st_in]. now destruct (set_insert _ _). Qed.
Lemma grows_rem_in i : grows (remove_incoming_pub i). Proof. intros st. unfold remove_incoming_pub. destruct (set_remove _ _). apply longer_refl. Qed.
Lemma free_rem_in i : free (remove_incoming_pub i). Proof. intros b st. unfold remove_incoming_pub. cbn [pop set_pool st_in]. now destruct (set_remove _ _). Qed.
Lemma grows_add_rel i : grows (add_outgoing_rel i). Proof. intros st. unfold add_outgoing_rel. destruct (set_insert _ _). apply longer_refl. Qed.
Lemma free_add_rel i : free (add_outgoing_rel i). Proof. intros b st. unfold add_outgoing_rel. cbn [pop set_pool st_rel]. now destruct (set_insert _ _). Qed.
Lemma grows_rem_rel i : grows (remove_outgoing_rel i). Proof. intros st. unfold remove_outgoing_rel. destruct (set_remove _ _). apply longer_refl. Qed.
Lemma free_rem_rel i : free (remove_outgoing_rel i). Proof. intros b st. unfold remove_outgoing_rel. cbn [pop set_pool st_rel]. now destruct (set_remove _ _). Qed.
Lemma grows_add_sub i : grows (add_outgoing_sub i). Proof. intros st. unfold add_outgoing_sub. destruct (set_insert _ _). apply longer_refl. Qed.
Lemma free_add_sub i : free (add_outgoing_sub i). Proof. intros b st. unfold add_outgoing_sub. cbn [pop set_pool st_sub]. now destruct (set_insert _ _). Qed.
Lemma grows_rem_sub i : grows (remove_outgoing_sub i). Proof. intros st. unfold remove_outgoing_sub. destruct (set_remove _ _). apply longer_refl. Qed.
Lemma free_rem_sub i : free (remove_outgoing_sub i). Proof. intros b st. unfold remove_outgoing_sub. cbn [pop set_pool st_sub]. now destruct (set_remove _ _). Qed.
Lemma grows_add_unsub i : grows (add_outgoing_unsub i). Proof. intros st. unfold add_outgoing_unsub. destruct (set_insert _ _). apply longer_refl. Qed.
Lemma free_add_unsub i : free (add_outgoing_unsub i). Proof. intros b st. unfold add_outgoing_unsub. cbn [pop set_pool st_unsub]. now destruct (set_insert _ _). Qed.
Lemma grows_rem_unsub i : grows (remove_outgoing_unsub i). Proof. intros st. unfold remove_outgoing_unsub. destruct (set_remove _ _). apply longer_refl. Qed.
Lemma free_rem_unsub i : free (remove_outgoing_unsub i). Proof. intros b st. unfold remove_outgoing_unsub. cbn [pop set_pool st_unsub]. now destruct (set_remove _ _). Qed.
Lemma grows_add_pub i p : grows (add_outgoing_pub i p).
Proof. intros st. unfold add_outgoing_pub. destruct (_ =? _); [apply longer_refl|]. destruct (vec_at _ _ _) as [[old v]|]; [|apply longer_refl]. destruct (is_some old); apply longer_refl. Qed.
Lemma free_add_pub i p : free (add_outgoing_pub i p).
Proof. intros b st. unfold add_outgoing_pub. cbn [pop set_pool st_pub]. destruct (_ =? _); [reflexivity|]. destruct (vec_at _ _ _) as [[old v]|]; [|reflexivity]. now destruct (is_some old). Qed.
Lemma grows_rem_pub i : grows (remove_outgoing_pub i).
Proof. intros st. unfold remove_outgoing_pub. cbn [st_pub]. destruct (_ =? _); [apply longer_refl|]. destruct (vec_at _ _ _) as [[old v]|]; apply longer_refl. Qed.
Lemma free_rem_pub i : free (remove_outgoing_pub i).
Proof. intros b st. unfold remove_outgoing_pub. cbn [pop set_pool st_pub]. destruct (_ =? _); [reflexivity|]. now destruct (vec_at _ _ _) as [[old v]|]. Qed.
Lemma grows_reset r : grows (reset r).
Proof. intros st. unfold reset. destruct r; [destruct (resend _ _)|]; apply longer_refl. Qed.
Lemma free_reset r : free (reset r).
Proof. intros b st. unfold reset. cbn [pop set_pool st_pub st_order]. destruct r; [destruct (resend _ _)|]; reflexivity. Qed.

Create HintDb swap.
#[global] Hint Resolve grows_ret grows_fail grows_panic free_ret free_fail free_panic grows_mark keeps_mark grows_add_in free_add_in grows_rem_in free_rem_in grows_add_rel free_add_rel
  grows_rem_rel free_rem_rel grows_add_sub free_add_sub grows_rem_sub free_rem_sub grows_add_unsub free_add_unsub grows_rem_unsub free_rem_unsub grows_add_pub free_add_pub grows_rem_pub free_rem_pub grows_reset free_reset : swap.
Ltac walk := repeat first
  [ progress auto with swap
  | match goal with
    | |- grows (mbind _ _) => apply grows_bind; [|intros]
    | |- free (mbind _ _) => apply free_bind; [|intros]
    | |- keeps (mbind _ _) => apply keeps_bind; [| |intros]
    | |- keeps (ret _) => apply free_keeps
    | |- keeps (fail _) => apply free_keeps
    | |- keeps (remove_outgoing_pub _) => apply free_keeps
    | |- keeps (remove_outgoing_rel _) => apply free_keeps
    | |- keeps (remove_outgoing_sub _) => apply free_keeps
    | |- keeps (remove_outgoing_unsub _) => apply free_keeps
    | |- keeps (remove_incoming_pub _) => apply free_keeps
    | |- keeps (add_incoming_pub _) => apply free_keeps
    | |- keeps (add_outgoing_rel _) => apply free_keeps
    | |- keeps (reset _) => apply free_keeps
    | |- _ (if ?x then _ else _) => destruct x
    | |- _ (match ?x with _ => _ end) => destruct x
    end ].
Lemma grows_incoming p : grows (handle_incoming_packet p).
Proof.
  destruct p; cbn [handle_incoming_packet]; unfold handle_incoming_publish, handle_incoming_puback, handle_incoming_pubrec, handle_incoming_pubrel, handle_incoming_pubcomp, handle_incoming_suback, handle_incoming_unsuback; walk.
Qed.
Lemma keeps_incoming p : keeps (handle_incoming_packet p).
Proof.
  destruct p; cbn [handle_incoming_packet]; unfold handle_incoming_publish, handle_incoming_puback, handle_incoming_pubrec, handle_incoming_pubrel, handle_incoming_pubcomp, handle_incoming_suback, handle_incoming_unsuback; walk.
Qed.
Lemma grows_all l : grows (make_all_available l).
Proof. induction l; cbn [make_all_available]; walk. Qed.
Lemma keeps_all l : keeps (make_all_available l).
Proof. induction l; cbn [make_all_available]; walk. Qed.
#[global] Hint Resolve grows_all keeps_all : swap.
Lemma grows_connack cl a : grows (handle_incoming_connack cl a).
Proof. unfold handle_incoming_connack. destruct (ca_rc a); walk. Qed.
Lemma keeps_connack cl a : keeps (handle_incoming_connack cl a).
Proof. unfold handle_incoming_connack. destruct (ca_rc a); walk. Qed.
Lemma grows_outgoing p : grows (handle_outgoing_packet p).
Proof. destruct p; cbn [handle_outgoing_packet]; unfold handle_outgoing_publish; walk. Qed.
Lemma free_outgoing p : free (handle_outgoing_packet p).
Proof. destruct p; cbn [handle_outgoing_packet]; unfold handle_outgoing_publish; walk. Qed.
(* an acknowledgement whose identifier is outside the session's vector *)
Lemma bad_incoming n p st sent rel : R n st sent rel -> fine sent rel -> bad_ack n p = true ->
  forall b, handle_incoming_packet p (pop b st) = (pop b (fst (handle_incoming_packet p st)), snd (handle_incoming_packet p st)).
Proof.
  intros HR HF HB b. destruct p; try discriminate HB; cbn [bad_ack] in HB; pose proof (remove_pub_spec _ _ _ _ (ak_id a) HR HF) as H; rewrite HB in H;
  cbn [handle_incoming_packet]; unfold handle_incoming_puback, handle_incoming_pubrec, mbind; rewrite free_rem_pub, H; reflexivity.
Qed.

(* --- the program when a client handle has made a step --- *)
Definition cl (b : bool) (w l : list packet) (s : sys) : sys := Sys (pop b (y_state s)) w (y_chan s ++ l) (y_net s) (y_pc s) (y_now s) (y_log s).
Definition calm (s : sys) : Prop := match y_pc s with
  | PSelect _ => forall b p, (b = true -> pl_ids (st_pool (y_state s)) <> []) -> handle_incoming_packet p (pop b (y_state s)) = (pop b (fst (handle_incoming_packet p (y_state s))), snd (handle_incoming_packet p (y_state s)))
  | _ => True end.
Lemma calm_reach c s : config_ok c -> reachable c s -> calm s.
Proof.
  intros HC HR. unfold calm. destruct (y_pc s) eqn:EP; try exact I. intros b p HN.
  pose proof (v_inv _ _ (inv_reachable _ _ HC HR)) as HV. rewrite EP in HV.
  destruct (bad_ack (receive_max (cf_opts c)) p) eqn:EB.
  - exact (bad_incoming _ _ _ _ _ (i_R _ _ _ _ _ HV eq_refl) (Inv_fine _ _ _ _ _ HV) EB b).
  - apply keeps_incoming; [exact HN|]. destruct (handle_incoming_packet p (y_state s)) as [st r] eqn:EH. pose proof (inv_read _ _ _ _ _ _ _ HV EH) as X. rewrite EB in X. apply X.
Qed.
Definition fresh_answer (c : config) (s : sys) : Prop := y_pc s = PConnRead -> forall a, snd (handle_incoming_connack (op_clean_start (cf_opts c)) a (y_state s)) <> HPanic.

Lemma cl_log b w l k s : log k (cl b w l s) = cl b w l (log k s). Proof. reflexivity. Qed.
Lemma cl_end b w l rt r s : end_run rt r (cl b w l s) = cl b w l (end_run rt r s). Proof. reflexivity. Qed.
Lemma step_cl c e s b w l : network_event e -> calm s -> fresh_answer c s -> (b = true -> pl_ids (st_pool (y_state s)) <> []) -> (l <> [] -> pl_open (st_pool (y_state s)) = true) ->
  forall t, step c e s = Some t -> step c e (cl b w l s) = Some (cl b w l t).
Proof.
  intros HE HQ HA HN HL t. unfold calm in HQ. unfold fresh_answer in HA. destruct e; try (destruct HE; fail); cbn [step]; change (y_pc (cl b w l s)) with (y_pc s);
  destruct (y_pc s) eqn:EP; try discriminate; try (intros [= <-]; reflexivity).
  - intros [= <-]. f_equal. unfold start_run. change (y_net (cl b w l s)) with (y_net s). now destruct (nt_connected _).
  - intros [= <-]. f_equal. unfold connect_answer. rewrite cl_log. set (s1 := log _ s). destruct p; try reflexivity. destruct (ca_rc c0); try reflexivity.
    change (y_state (set_net (apply_connack (cf_rt c) (y_now (cl b w l s1)) c0 (y_net (cl b w l s1))) (cl b w l s1))) with (pop b (y_state s)).
    change (y_state (set_net (apply_connack (cf_rt c) (y_now s1) c0 (y_net s1)) s1)) with (y_state s).
    rewrite (keeps_connack _ _ b (y_state s) HN (HA eq_refl c0)). destruct (handle_incoming_connack _ _ _) as [st [re|e|]]; reflexivity.
  - intros [= <-]. f_equal. unfold incoming. rewrite cl_log. set (s1 := log _ s). change (y_state (cl b w l s1)) with (pop b (y_state s)). change (y_state s1) with (y_state s).
    rewrite (HQ b p HN). destruct (handle_incoming_packet p (y_state s)) as [st [[reply [|]]|e|]]; cbn [fst snd]; destruct p; try reflexivity; destruct (cf_rt c), reply; reflexivity.
  - intros [= <-]. now destruct (cf_rt c).
  - unfold outgoing. cbn [cl y_chan y_state]. change (pl_open (st_pool (pop b (y_state s)))) with (pl_open (st_pool (y_state s))). destruct (y_chan s) as [|p rest] eqn:EC; cbn [app].
    + destruct (pl_open _) eqn:EO; [discriminate|]. intros [= <-]. destruct l as [|x l]; [|specialize (HL ltac:(discriminate)); discriminate]. unfold cl, end_run, log, set_pc, set_net. cbn [y_state y_wait y_chan y_net y_pc y_now y_log]. now rewrite EC.
    + intros [= <-]. reflexivity.
  - unfold timer, tokio_timer, smol_timer. change (y_net (cl b w l s)) with (y_net s). change (y_now (cl b w l s)) with (y_now s).
    destruct (cf_rt c), (_ <? _), (nt_await (y_net s)), (nt_perform (y_net s)); try discriminate; intros [= <-]; reflexivity.
  - intros [= <-]. now destruct re.
  - intros [= <-]. f_equal. unfold handled. rewrite cl_log. destruct a as [| |r]; [now destruct (cf_rt c)|reflexivity|now destruct (cf_rt c), r].
  - intros [= <-]. f_equal. change (y_net (cl b w l s)) with (y_net s). now destruct (write_result _ _ _).
  - intros [= <-]. f_equal. unfold reply_written. now destruct (write_result _ _ _).
  - intros [= <-]. f_equal. unfold flushed. now destruct (smol_write_all _ _).
  - intros [= <-]. f_equal. unfold request_written. destruct (write_result _ _ _); [reflexivity|]. rewrite cl_log. set (s1 := log _ s). change (y_state (cl b w l s1)) with (pop b (y_state s)). change (y_state s1) with (y_state s).
    rewrite (free_outgoing p b (y_state s)). destruct (handle_outgoing_packet p (y_state s)) as [st [[]|e|]]; cbn [fst snd]; [|reflexivity|reflexivity]. now destruct (type_of p).
  - intros [= <-]. f_equal. unfold ping_written. now destruct (write_result _ _ _).
  - intros [= <-]. f_equal. unfold bye_written. now destruct (write_result _ _ _).
  - intros [= <-]. f_equal. unfold connect_resend. destruct (cf_rt c); [destruct ok|destruct (smol_write_all _ _)]; reflexivity.
Qed.

(* what a network step leaves alone *)
Lemma step_rest c e s t : network_event e -> step c e s = Some t ->
  y_wait t = y_wait s /\ y_now t = y_now s /\ len (y_chan t) <= len (y_chan s) /\ longer (st_pool (y_state s)) (st_pool (y_state t)).
Proof.
  intros HE HS.
  assert (forall u, y_state u = y_state s -> y_wait u = y_wait s -> y_chan u = y_chan s -> y_now u = y_now s -> y_wait u = y_wait s /\ y_now u = y_now s /\ len (y_chan u) <= len (y_chan s) /\ longer (st_pool (y_state s)) (st_pool (y_state u))) as Z.
  { intros u E1 E2 E3 E4. rewrite E1, E2, E3, E4. repeat split; auto; [lia|apply longer_refl]. }
  assert (forall st u, longer (st_pool (y_state s)) (st_pool st) -> y_state u = st -> y_wait u = y_wait s -> y_chan u = y_chan s -> y_now u = y_now s -> y_wait u = y_wait s /\ y_now u = y_now s /\ len (y_chan u) <= len (y_chan s) /\ longer (st_pool (y_state s)) (st_pool (y_state u))) as Y.
  { intros st u G E1 E2 E3 E4. rewrite E1, E2, E3, E4. repeat split; auto. lia. }
  revert HS. destruct e; try (destruct HE; fail); cbn [step]; destruct (y_pc s) eqn:EP; try discriminate; try (intros [= <-]; now apply Z).
  - intros [= <-]. unfold start_run. destruct (nt_connected _); now apply Z.
  - intros [= <-]. unfold connect_answer. destruct p; try (now apply Z). destruct (ca_rc c0); try (now apply Z). cbv zeta.
    change (y_state (set_net _ _)) with (y_state s). pose proof (grows_connack (op_clean_start (cf_opts c)) c0 (y_state s)) as G. destruct (handle_incoming_connack _ _ _) as [st [re|e|]]; now apply (Y st).
  - intros [= <-]. unfold incoming. pose proof (grows_incoming p (y_state s)) as G. cbv zeta. change (y_state (log _ s)) with (y_state s).
    destruct (handle_incoming_packet p (y_state s)) as [st [[reply [|]]|e|]]; cbn [fst] in G; destruct p; first [now apply Z|now apply (Y st)|destruct (cf_rt c), reply; now apply (Y st)].
  - intros [= <-]. destruct (cf_rt c); now apply Z.
  - unfold outgoing. destruct (y_chan s) as [|p rest] eqn:EC; [destruct (pl_open _); [discriminate|]|]; intros [= <-].
    + rewrite <- EC in *. now apply Z.
    + cbn. repeat split; [unfold len; cbn [length]; lia|apply longer_refl].
  - unfold timer, tokio_timer, smol_timer. destruct (cf_rt c), (_ <? _), (nt_await (y_net s)), (nt_perform (y_net s)); try discriminate; intros [= <-]; now apply Z.
  - intros [= <-]. destruct re; now apply Z.
  - intros [= <-]. unfold handled. destruct a as [| |r]; [destruct (cf_rt c)| |destruct (cf_rt c), r]; now apply Z.
  - intros [= <-]. destruct (write_result _ _ _); now apply Z.
  - intros [= <-]. unfold reply_written. destruct (write_result _ _ _); now apply Z.
  - intros [= <-]. unfold flushed. destruct (smol_write_all _ _); now apply Z.
  - intros [= <-]. unfold request_written. destruct (write_result _ _ _); [now apply Z|]. pose proof (grows_outgoing p (y_state s)) as G. cbv zeta. change (y_state (log _ s)) with (y_state s).
    destruct (handle_outgoing_packet p (y_state s)) as [st [[]|e|]]; [destruct (type_of p)| |]; now apply (Y st).
  - intros [= <-]. unfold ping_written. destruct (write_result _ _ _); now apply Z.
  - intros [= <-]. unfold bye_written. destruct (write_result _ _ _); now apply Z.
  - intros [= <-]. unfold connect_resend. destruct (cf_rt c); [destruct ok|destruct (smol_write_all _ _)]; now apply Z.
Qed.

(* no call waits once the handles are gone *)
Lemma gone_waits c s : reachable c s -> pl_open (st_pool (y_state s)) = false -> y_wait s = [].
Proof.
  intros HR. pattern s. revert s HR. apply reachable_ind2; [reflexivity|]. intros s e t _ IH HS HO.
  assert (network_event e \/ ~ network_event e) as [HE|HE] by (destruct e; cbn; tauto).
  - destruct (step_rest _ _ _ _ HE HS) as (-> & _ & _ & [l E]). apply IH. now rewrite E in HO.
  - destruct e; try (exfalso; apply HE; exact I); cbn [step] in HS.
    + injection HS as <-. now apply IH.
    + unfold begin_call in HS. destruct (pl_open _) eqn:EO; [|discriminate]. unfold client_call in HS.
      destruct (needs_id _); [destruct (pl_ids _); [discriminate|]|]; destruct (validate _ _); injection HS as <-; cbn in HO; congruence.
    + unfold send_call in HS. destruct (pick _ _) as [[p rest]|] eqn:EK; [|discriminate]. destruct (_ <? _); [|discriminate]. injection HS as <-. rewrite IH in EK by exact HO. now destruct i.
    + unfold give_up in HS. destruct (pick _ _) as [[p rest]|] eqn:EK; [|discriminate]. injection HS as <-. rewrite IH in EK by exact HO. now destruct i.
    + unfold drop_clients in HS. destruct (y_wait s) eqn:EW; [|discriminate]. injection HS as <-. exact EW.
Qed.

(* what a step of a client handle is *)
Lemma handle_step c a s sa : handle_event a -> step c a s = Some sa -> exists b w l k,
  sa = log k (cl b w l s) /\ (b = true -> pl_ids (st_pool (y_state s)) <> []) /\ (l <> [] -> y_wait s <> []) /\ forallb handle_out k = true /\
  forall t, y_wait t = y_wait s -> y_now t = y_now s -> len (y_chan t) <= len (y_chan s) -> longer (st_pool (y_state s)) (st_pool (y_state t)) -> step c a t = Some (log k (cl b w l t)).
Proof.
  intros HE HS. destruct a; try (destruct HE; fail); cbn [step] in *.
  - unfold begin_call in *. destruct (pl_open _) eqn:EO; [|discriminate]. unfold client_call in HS. destruct (needs_id c0) eqn:EI.
    + destruct (pl_ids (st_pool (y_state s))) as [|i ids] eqn:ED; [discriminate|].
      destruct (validate _ _) as [e|] eqn:EV; injection HS as <-.
      * exists true, (y_wait s), [], [OBegin (build c0 i); ORefuse (build c0 i) e]. repeat split; try congruence.
        -- unfold cl, pop, cut. rewrite ED. cbn [tl]. now rewrite app_nil_r.
        -- intros t E1 E2 E3 [x E4]. rewrite E4. cbn [pl_open pl_ids pl_cap]. rewrite EO. unfold client_call. rewrite EI. cbn [pl_ids]. rewrite ED. cbn [app]. rewrite EV. unfold cl, pop, cut. rewrite E4, ED, <- E1. cbn. now rewrite app_nil_r, EO.
      * exists true, (y_wait s ++ [build c0 i]), [], [OBegin (build c0 i)]. repeat split; try congruence.
        -- unfold cl, pop, cut. rewrite ED. cbn [tl]. now rewrite app_nil_r.
        -- intros t E1 E2 E3 [x E4]. rewrite E4. cbn [pl_open pl_ids pl_cap]. rewrite EO. unfold client_call. rewrite EI. cbn [pl_ids]. rewrite ED. cbn [app]. rewrite EV. unfold cl, pop, cut. rewrite E4, ED, <- E1. cbn. now rewrite app_nil_r, EO.
    + destruct (validate _ _) as [e|] eqn:EV; injection HS as <-.
      * exists false, (y_wait s), [], [OBegin (build c0 0); ORefuse (build c0 0) e]. repeat split; try congruence.
        -- unfold cl, pop, cut. rewrite app_nil_r. destruct (st_pool (y_state s)). reflexivity.
        -- intros t E1 E2 E3 [x E4]. rewrite E4. cbn [pl_open pl_ids pl_cap]. rewrite EO. unfold client_call. rewrite EI, EV. unfold cl, pop, cut. rewrite E4, <- E1. cbn. now rewrite app_nil_r, EO.
      * exists false, (y_wait s ++ [build c0 0]), [], [OBegin (build c0 0)]. repeat split; try congruence.
        -- unfold cl, pop, cut. rewrite app_nil_r. destruct (st_pool (y_state s)). reflexivity.
        -- intros t E1 E2 E3 [x E4]. rewrite E4. cbn [pl_open pl_ids pl_cap]. rewrite EO. unfold client_call. rewrite EI, EV. unfold cl, pop, cut. rewrite E4, <- E1. cbn. now rewrite app_nil_r, EO.
  - unfold send_call in *. destruct (pick i (y_wait s)) as [[p rest]|] eqn:EK; [|discriminate]. destruct (_ <? _) eqn:EL; [|discriminate]. injection HS as <-.
    exists false, rest, [p], [OAccept p]. repeat split; try congruence.
    + unfold cl, pop, cut. destruct s as [st w ch n q t0 lg]. cbn. destruct st as [[ids cap op] ? ? ? ? ? ?]. reflexivity.
    + intros _ E. rewrite E in EK. now destruct i.
    + intros t E1 E2 E3 E4. rewrite E1, EK. assert (len (y_chan t) <? CHANNEL_SIZE = true) as -> by (revert EL; rewrite !N.ltb_lt; lia).
      unfold cl, pop, cut. destruct t as [st w ch n q t0 lg]. cbn. destruct st as [[ids cap op] ? ? ? ? ? ?]. reflexivity.
  - unfold give_up in *. destruct (pick i (y_wait s)) as [[p rest]|] eqn:EK; [|discriminate]. injection HS as <-.
    exists false, rest, [], [OGiveUp p]. repeat split; try congruence.
    + unfold cl, pop, cut. rewrite app_nil_r. destruct s as [st w ch n q t0 lg]. cbn. destruct st as [[ids cap op] ? ? ? ? ? ?]. reflexivity.
    + intros t E1 E2 E3 E4. rewrite E1, EK. unfold cl, pop, cut. rewrite app_nil_r. destruct t as [st w ch n q t0 lg]. cbn. destruct st as [[ids cap op] ? ? ? ? ? ?]. reflexivity.
Qed.

Lemma step_core c e s t : step c e s = Some t -> exists u, step c e (core s) = Some u /\ t = onto (y_log s) u.
Proof. intros H. rewrite <- (core_onto s), step_onto in H. destruct (step c e (core s)) as [u|]; [|discriminate]. injection H as <-. exists u. auto. Qed.


Lemma tokio_view o ps : forall oks, forallb (fun x => negb (handle_out x)) (tokio_writes o ps oks) = true.
Proof. induction ps as [|p ps IH]; intros oks; [reflexivity|]. cbn [tokio_writes]. destruct oks as [|b oks]; destruct (write_result _ _ _); cbn; apply IH. Qed.
Lemma smol_view o ps ok : forallb (fun x => negb (handle_out x)) (smol_writes o ps ok) = true.
Proof. unfold smol_writes. destruct (smol_write_all _ _); induction ps; cbn; auto. Qed.
Lemma network_seen c s e l st w ch n q t : network_event e -> tcase c s e l st w ch n q t -> forallb (fun x => negb (handle_out x)) l = true.
Proof. intros HE HT. destruct HT; try (destruct HE; fail); try reflexivity; rewrite ?forallb_app, ?tokio_view, ?smol_view; reflexivity. Qed.

Lemma filter_timed (f : out -> bool) (n : N) l : filter (fun x => f (snd x)) (map (pair n) l) = map (pair n) (filter f l).
Proof. induction l as [|a l IH]; [reflexivity|]. cbn. rewrite IH. now destruct (f a). Qed.
Lemma filter_true {A} (f : A -> bool) l : forallb f l = true -> filter f l = l.
Proof. induction l as [|a l IH]; [reflexivity|]. cbn. intros H. apply andb_true_iff in H as [-> H]. now rewrite IH. Qed.
Lemma filter_false {A} (f : A -> bool) l : forallb (fun x => negb (f x)) l = true -> filter f l = [].
Proof. induction l as [|a l IH]; [reflexivity|]. cbn. intros H. apply andb_true_iff in H as [H1 H]. destruct (f a); [discriminate|]. now apply IH. Qed.

Lemma swap_core c a b s sa sb : config_ok c -> reachable c s -> handle_event a -> network_event b -> step c a s = Some sa -> step c b s = Some sb ->
  exists t t' la lb, step c b sa = Some t /\ step c a sb = Some t' /\ core t = core t' /\
    forallb (fun x => handle_out (snd x)) la = true /\ forallb (fun x => negb (handle_out (snd x))) lb = true /\
    y_log t = y_log s ++ la ++ lb /\ y_log t' = y_log s ++ lb ++ la.
Proof.
  intros HC HR Ha Hb Sa Sb. destruct (handle_step _ _ _ _ Ha Sa) as (d & w & l & k & -> & HN & HW & HK & HT).
  destruct (step_rest _ _ _ _ Hb Sb) as (R1 & R2 & R3 & R4).
  destruct (step_tcase _ _ _ _ HR Sb) as (l1 & st1 & w1 & ch1 & n1 & q1 & t1 & HT1 & EB). pose proof (network_seen _ _ _ _ _ _ _ _ _ _ Hb HT1) as HV.
  destruct (step_core _ _ _ _ Sb) as (u & SU & EU).
  assert (step c b (cl d w l (core s)) = Some (cl d w l u)) as SC.
  { apply step_cl; [exact Hb| | |exact HN| |exact SU].
    - exact (calm_reach _ _ HC HR).
    - intros EP x. exact (connack_never_panics _ _ _ HC HR EP).
    - intros HL. change (y_state (core s)) with (y_state s). destruct (pl_open _) eqn:EO; [reflexivity|]. destruct (HW HL). exact (gone_waits _ _ HR EO). }
  set (kk := map (pair (y_now s)) k).
  assert (y_log u = map (pair (y_now s)) l1) as EL.
  { apply (f_equal y_log) in EB. rewrite EU in EB. unfold onto, set_log, next in EB. cbn in EB. exact (app_inv_head _ _ _ EB). }
  exists (onto (y_log s ++ kk) (cl d w l u)), (log k (cl d w l sb)), kk, (y_log u). repeat apply conj.
  - replace (log k (cl d w l s)) with (onto (y_log s ++ kk) (cl d w l (core s))); [now rewrite step_onto, SC|]. unfold onto, set_log, cl, core, log, kk. cbn. now rewrite app_nil_r.
  - exact (HT sb R1 R2 R3 R4).
  - clear EB. subst sb. reflexivity.
  - unfold kk. clear -HK. induction k; [reflexivity|]. cbn in *. apply andb_true_iff in HK as [-> HK]. now apply IHk.
  - rewrite EL. clear -HV. induction l1; [reflexivity|]. cbn in *. apply andb_true_iff in HV as [-> HV]. now apply IHl1.
  - unfold onto, set_log. cbn. now rewrite app_assoc.
  - clear EB. subst sb. cbn in R2. unfold kk. cbn. rewrite R2. now rewrite app_assoc.
Qed.
Lemma core_fields s t : core s = core t -> y_state s = y_state t /\ y_wait s = y_wait t /\ y_chan s = y_chan t /\ y_net s = y_net t /\ y_pc s = y_pc t /\ y_now s = y_now t.
Proof. destruct s, t. unfold core, set_log. cbn. intros [=]. subst. auto 10. Qed.
Lemma fields_core s t : y_state s = y_state t -> y_wait s = y_wait t -> y_chan s = y_chan t -> y_net s = y_net t -> y_pc s = y_pc t -> y_now s = y_now t -> core s = core t.
Proof. destruct s, t. unfold core, set_log. cbn. intros. now subst. Qed.
Lemma views s t p la lb : core s = core t -> forallb (fun x => handle_out (snd x)) la = true -> forallb (fun x => negb (handle_out (snd x))) lb = true ->
  y_log s = p ++ la ++ lb -> y_log t = p ++ lb ++ la -> alike s t.
Proof.
  intros EC HA HB ES ET. destruct (core_fields _ _ EC) as (? & ? & ? & ? & ? & ?). unfold alike, handles_view, network_view. rewrite ES, ET, !filter_app.
  rewrite (filter_true _ _ HA), (filter_false _ _ HB), (filter_true _ _ HB).
  assert (filter (fun x => negb (handle_out (snd x))) la = []) as ->.
  { apply filter_false. rewrite <- HA. clear. induction la; [reflexivity|]. cbn. now rewrite negb_involutive, IHla. }
  rewrite !app_nil_r. auto 10.
Qed.
Lemma swap c a b s sa sb : config_ok c -> reachable c s -> handle_event a -> network_event b -> step c a s = Some sa -> step c b s = Some sb ->
  exists t t', step c b sa = Some t /\ step c a sb = Some t' /\ alike t t'.
Proof.
  intros HC HR Ha Hb Sa Sb. destruct (swap_core _ _ _ _ _ _ HC HR Ha Hb Sa Sb) as (t & t' & la & lb & H1 & H2 & H3 & H4 & H5 & H6 & H7).
  exists t, t'. split; [exact H1|]. split; [exact H2|]. exact (views _ _ _ _ _ H3 H4 H5 H6 H7).
Qed.

(* --- from one step to many --- *)
Lemma alike_refl s : alike s s.
Proof. repeat split. Qed.
Lemma alike_sym s t : alike s t -> alike t s.
Proof. unfold alike. intros (? & ? & ? & ? & ? & ? & ? & ?). repeat split; congruence. Qed.
Lemma alike_trans s t u : alike s t -> alike t u -> alike s u.
Proof. unfold alike. intros (? & ? & ? & ? & ? & ? & ? & ?) (? & ? & ? & ? & ? & ? & ? & ?). repeat split; congruence. Qed.
Lemma alike_core s t : alike s t -> core s = core t.
Proof. intros (? & ? & ? & ? & ? & ? & _). now apply fields_core. Qed.
Lemma alike_step c e s s' t : alike s s' -> step c e s = Some t -> exists t', step c e s' = Some t' /\ alike t t'.
Proof.
  intros HA HS. pose proof (alike_core _ _ HA) as EC. destruct (step_core _ _ _ _ HS) as (u & SU & ->).
  exists (onto (y_log s') u). split.
  - pose proof (step_onto c e (y_log s') (core s')) as X. rewrite core_onto, <- EC, SU in X. exact X.
  - destruct HA as (_ & _ & _ & _ & _ & _ & V1 & V2). unfold alike, handles_view, network_view in *. cbn. rewrite !filter_app, V1, V2. repeat split.
Qed.
Lemma alike_exec c es : forall s s' t, alike s s' -> exec c es s = Some t -> exists t', exec c es s' = Some t' /\ alike t t'.
Proof.
  induction es as [|e es IH]; intros s s' t HA; cbn [exec]; [intros [= <-]; eauto|]. destruct (step c e s) as [s1|] eqn:E; [|discriminate].
  destruct (alike_step _ _ _ _ _ HA E) as (s1' & -> & HA'). now apply IH.
Qed.
Lemma reach_step c e s t : reachable c s -> step c e s = Some t -> reachable c t.
Proof. intros [es H] HS. exists (es ++ [e]). rewrite exec_app, H. cbn [exec]. now rewrite HS. Qed.
Lemma delay_one c a bs : config_ok c -> handle_event a -> Forall network_event bs -> forall s sa sb, reachable c s -> step c a s = Some sa -> exec c bs s = Some sb ->
  exists t t', exec c bs sa = Some t /\ step c a sb = Some t' /\ alike t t'.
Proof.
  intros HC Ha. induction 1 as [|b bs Hb _ IH]; intros s sa sb HR Sa; cbn [exec].
  - intros [= <-]. exists sa, sa. split; [reflexivity|]. split; [exact Sa|apply alike_refl].
  - destruct (step c b s) as [s1|] eqn:E; [|discriminate]. intros SB. destruct (swap _ _ _ _ _ _ HC HR Ha Hb Sa E) as (t1 & t1' & H1 & H2 & H3).
    destruct (IH s1 t1' sb (reach_step _ _ _ _ HR E) H2 SB) as (t & t' & K1 & K2 & K3).
    destruct (alike_exec _ _ _ _ _ (alike_sym _ _ H3) K1) as (t2 & L1 & L2). exists t2, t'. rewrite H1. split; [exact L1|]. split; [exact K2|].
    exact (alike_trans t2 t t' (alike_sym _ _ L2) K3).
Qed.
Lemma delay c a es bs fs s t : config_ok c -> handle_event a -> Forall network_event bs ->
  exec c (es ++ a :: bs ++ fs) (init c) = Some t -> exec c (es ++ bs) (init c) = Some s ->
  exists t', exec c (es ++ bs ++ a :: fs) (init c) = Some t' /\ alike t t'.
Proof.
  intros HC Ha Hb HT HS. rewrite exec_app in *. destruct (exec c es (init c)) as [s0|] eqn:E0; [|discriminate]. rewrite exec_app, HS.
  cbn [exec] in HT. destruct (step c a s0) as [sa|] eqn:Ea; [|discriminate]. rewrite exec_app in HT. destruct (exec c bs sa) as [sb|] eqn:Eb; [|discriminate].
  destruct (delay_one c a bs HC Ha Hb s0 sa s (ex_intro _ es E0) Ea HS) as (t1 & t2 & H1 & H2 & H3). rewrite Eb in H1. injection H1 as <-.
  cbn [exec]. rewrite H2. exact (alike_exec _ _ _ _ _ H3 HT).
Qed.
Lemma advance c a es bs fs s t : config_ok c -> handle_event a -> Forall network_event bs ->
  exec c (es ++ bs ++ a :: fs) (init c) = Some t -> exec c (es ++ [a]) (init c) = Some s ->
  exists t', exec c (es ++ a :: bs ++ fs) (init c) = Some t' /\ alike t t'.
Proof.
  intros HC Ha Hb HT HS. rewrite exec_app in *. destruct (exec c es (init c)) as [s0|] eqn:E0; [|discriminate]. rewrite exec_app in HT.
  cbn [exec] in HS. destruct (step c a s0) as [sa|] eqn:Ea; [|discriminate]. destruct (exec c bs s0) as [sb|] eqn:Eb; [|discriminate].
  destruct (delay_one c a bs HC Ha Hb s0 sa sb (ex_intro _ es E0) Ea Eb) as (t1 & t2 & H1 & H2 & H3). cbn [exec] in HT. rewrite H2 in HT.
  cbn [exec]. rewrite Ea, exec_app, H1. exact (alike_exec _ _ _ _ _ (alike_sym _ _ H3) HT).
Qed.
