(* Facts about time and keep-alive, for P_Time.v. *)
From Verif Require Import Base VarInt Prims Props Codes Packets BaseFacts Options Session Client System SpecSession SpecNet SpecTrace SpecTime SessionFacts SystemFacts AckFacts IdFacts Cases LoopMore.

Definition in_run (q : pc) : bool :=
  match q with PSelect _ | PHandle _ | PReply _ | PFlush _ | PRequest _ | PPing | PBye => true | _ => false end.
Definition answered (q : pc) : bool := match q with PConnHandle _ | PConnResend _ => true | _ => false end.
Definition own_of (rt : runtime) (n : net) : N := match rt with Tokio => op_keep_alive (nt_opts n) | Smol => nt_keep n end.
Definition set_w (w : N) (k : clock) : clock := Clock (ck_run k) w (ck_read k) (ck_ping k) (ck_promise k) (ck_own k) (ck_zero k).

Lemma clock_app keep l1 l2 : clock_of keep (l1 ++ l2) = fold_left clock_step l2 (clock_of keep l1).
Proof. unfold clock_of. apply fold_left_app. Qed.
Lemma set_w_same k : set_w (ck_write k) k = k.
Proof. now destruct k. Qed.
Lemma set_w_twice w v k : set_w w (set_w v k) = set_w w k.
Proof. reflexivity. Qed.
Lemma writes_clock org t (l : list out) k : org = FromResend \/ org = FromReply -> (forall x, In x l -> exists p, attempt org p x) ->
  exists w, (w = ck_write k \/ w = t) /\ fold_left clock_step (map (pair t) l) k = set_w w k.
Proof.
  intros HO. revert k. induction l as [|o l IH]; intros k H; [exists (ck_write k); split; [now left|]; cbn; now rewrite set_w_same|].
  cbn [map fold_left]. assert (exists v, (v = ck_write k \/ v = t) /\ clock_step k (t, o) = set_w v k) as (v & HV & EV).
  { destruct (H o (or_introl eq_refl)) as (p & [-> | ->]).
    - exists t. split; [now right|]. destruct HO as [-> | ->]; reflexivity.
    - exists (ck_write k). split; [now left|]. rewrite set_w_same. destruct HO as [-> | ->]; reflexivity. }
  rewrite EV. destruct (IH (set_w v k)) as (w & HW & EW); [intros x Hx; apply H; now right|].
  exists w. rewrite EW. split; [|reflexivity]. cbn [set_w ck_write] in HW. destruct HW as [-> | ->]; [exact HV|now right].
Qed.
Lemma tokio_clock t ps oks k : exists w, (w = ck_write k \/ w = t) /\ fold_left clock_step (map (pair t) (tokio_writes FromResend ps oks)) k = set_w w k.
Proof. apply (writes_clock FromResend); [now left|]. intros x Hx. apply tokio_writes_origin in Hx as (y & _ & H). eauto. Qed.
Lemma smol_clock org t ps ok k : org = FromResend \/ org = FromReply -> exists w, (w = ck_write k \/ w = t) /\ fold_left clock_step (map (pair t) (smol_writes org ps ok)) k = set_w w k.
Proof. intros HO. apply (writes_clock org); [exact HO|]. intros x Hx. apply smol_writes_origin in Hx as (y & _ & H). eauto. Qed.

Record tinv (c : config) (n : net) (q : pc) (now : N) (k : clock) : Prop := {
  ti_write : ck_write k <= now;
  ti_read : ck_read k <= now;
  ti_last : nt_last n <= now;
  ti_own : own_of (cf_rt c) n = ck_own k;
  ti_perform : nt_perform n = negb (ck_zero k);
  ti_zero : nt_connected n = true \/ in_run q = true \/ answered q = true -> ck_own k = 0 -> ck_zero k = true;
  ti_run : in_run q = true -> exists r, ck_run k = Some r /\ r <= now /\ (cf_rt c = Tokio -> nt_last n <= N.max r (ck_write k));
  ti_idle : in_run q = false -> ck_run k = None /\ ck_ping k = None /\ (cf_rt c = Smol -> nt_await n = None \/ q = PCrash);
  ti_await : in_run q = true -> q <> PHandle AfterPing -> nt_await n = ck_ping k;
  ti_ping : in_run q = true -> match nt_await n with Some i => i <= nt_last n /\ i <= ck_write k | None => True end;
  ti_ponged : q = PHandle AfterPing -> ck_ping k = None;
  ti_rt : match q with PReply _ => cf_rt c = Tokio | PFlush _ => cf_rt c = Smol | _ => True end;
  ti_pz : ck_ping k <> None -> ck_zero k = false;
  ti_asked : q = PPing -> ck_zero k = false /\ ck_ping k = None /\ nt_last n + ck_own k <= now;
  ti_bye : q = PBye -> (exists p, ck_ping k = Some p /\ p + ck_own k <= now) \/ (cf_rt c = Smol /\ ck_zero k = true) }.

Lemma clock_client keep l t o : by_client o = true -> clock_of keep (l ++ map (pair t) [o]) = clock_of keep l.
Proof. intros H. rewrite clock_app. destruct o; try discriminate H; reflexivity. Qed.

Lemma tinv_later c n q now k d : tinv c n q now k -> tinv c n q (now + d) k.
Proof.
  intros [H1 H2 H3 H4 H5 H6 H7 H8 H9 H10 H13 H14 H15 H11 H12]. constructor; auto; try lia.
  - intros H. destruct (H7 H) as (r & E1 & E2 & E3). exists r. repeat split; auto; lia.
  - intros H. destruct (H11 H) as (E1 & E2 & E3). repeat split; auto; lia.
  - intros H. destruct (H12 H) as [(p & E1 & E2)|E]; [left; exists p; split; auto; lia|now right].
Qed.
Lemma clock_refused k t p e : answer_err p = Some e -> clock_step k (t, OAnswer p) = k.
Proof. destruct p; try reflexivity. cbn. destruct (ca_rc c); try reflexivity. discriminate. Qed.
Lemma keep_clock c s e l st w ch n q t keep : tcase c s e l st w ch n q t -> tinv c (y_net s) (y_pc s) (y_now s) (clock_of keep (y_log s)) ->
  tinv c n q t (clock_of keep (y_log (next s l st w ch n q t))).
Proof.
  intros HT HI. cbn [next y_log]. rewrite clock_app. set (k := clock_of keep (y_log s)) in *. clearbody k. clear keep.
  destruct HT; try (apply tinv_later; exact HI); try exact HI; destruct HI as [T1 T2 T3 T4 T5 T6 T7 T8 T9 T10 T13 T14 T15 T11 T12].
  all: rewrite ?map_app, ?fold_left_app.
  all: try (destruct (tokio_clock (y_now s) ps oks k) as (w & HW & EW); rewrite EW).
  all: try (destruct (smol_clock FromResend (y_now s) ps ok k (or_introl eq_refl)) as (w & HW & EW); rewrite EW).
  all: try (destruct (smol_clock FromReply (y_now s) ps ok k (or_intror eq_refl)) as (w & HW & EW); rewrite EW).
  all: try (match goal with E : y_pc _ = _ |- _ => rewrite E in T6, T7, T8, T9, T10, T13, T14, T11, T12 end).
  all: cbn [map fold_left].
  all: try (erewrite clock_refused by eassumption).
  all: try unfold create_connect.
  all: unfold bye; cbn [clock_step].
  all: try match goal with E : ca_rc _ = RSuccess |- _ => rewrite E end.

  all: cbn [in_run answered] in *.
  all: repeat match goal with H : true = true -> _ |- _ => specialize (H eq_refl) | H : false = true -> _ |- _ => clear H | H : true = false -> _ |- _ => clear H | H : false = false -> _ |- _ => specialize (H eq_refl)
    | H : ?p = ?p -> _ |- _ => specialize (H eq_refl) end.
  all: repeat match goal with H : PSelect _ <> _ -> _ |- _ => specialize (H ltac:(discriminate)) | H : PReply _ <> _ -> _ |- _ => specialize (H ltac:(discriminate)) 
    | H : PFlush _ <> _ -> _ |- _ => specialize (H ltac:(discriminate)) | H : PRequest _ <> _ -> _ |- _ => specialize (H ltac:(discriminate)) 
    | H : PPing <> _ -> _ |- _ => specialize (H ltac:(discriminate)) | H : PBye <> _ -> _ |- _ => specialize (H ltac:(discriminate)) end.
  all: repeat match goal with H : exists r, ck_run _ = _ /\ _ |- _ => destruct H as (r & HR1 & HR2 & HR3) | H : ck_run _ = None /\ _ |- _ => destruct H as (HR1 & HR2 & HR3) end.
  all: unfold end_net, with_last.
  all: try match goal with |- context [reply_pc _ ?r _] => is_var r; destruct r end.
  all: destruct (cf_rt c) eqn:RT; cbn [reply_pc opt_list own_of] in *.
  all: unfold apply_connack, set_last, set_await, set_connected, set_buf, set_w.
  all: constructor; rewrite ?RT; cbn [in_run answered own_of nt_connected nt_opts nt_keep nt_last nt_await nt_perform nt_buf ck_run ck_write ck_read ck_ping ck_promise ck_own ck_zero op_keep_alive with_keep_alive].
  all: try solve [auto | lia | intros; discriminate | intros; congruence | intros; intuition congruence ].
  all: try solve [intros; eexists; repeat split; [first [reflexivity|eassumption]|lia|intros; first [lia|discriminate]]].
  all: try solve [destruct (server_keep_alive (ca_props a)); auto].
  all: try solve [rewrite T5; destruct (server_keep_alive (ca_props a)); cbn [with_keep_alive op_keep_alive]; rewrite ?T4; destruct (_ =? 0); rewrite ?orb_true_r, ?orb_false_r; reflexivity].
  all: try solve [intros _ HN; destruct p; try exact T9; match goal with E : loop_packet _ = _ |- _ => cbn in E; congruence end].
  all: try solve [intros _; destruct (nt_await (y_net s)); [|exact I]; lia].
  all: try solve [intros HN; apply T15; destruct p; congruence].
  all: try solve [intros _; tauto].
  - intros _. exists (y_now s). repeat split; lia.
  - intros _. exists (y_now s). repeat split; [lia|discriminate].
  - intros _. destruct (HR3 eq_refl) as [-> |X]; [exact I|discriminate X].
  - intros E. destruct p; try reflexivity; match goal with E : loop_packet _ = _ |- _ => cbn in E; congruence end.
  - intros E. destruct p; try reflexivity; match goal with E : loop_packet _ = _ |- _ => cbn in E; congruence end.
  - intros _. match goal with E1 : nt_await _ = None, E2 : nt_perform _ = true, E3 : _ <= y_now s |- _ => rewrite <- T9; unfold tokio_deadline in E3; rewrite E1, T4 in E3; rewrite T5 in E2; apply negb_true_iff in E2; auto end.
  - intros _. match goal with E1 : nt_await _ = None, E2 : nt_perform _ = true, E3 : _ <= y_now s |- _ => rewrite <- T9; unfold smol_deadline in E3; rewrite E1, E2, T4 in E3; rewrite T5 in E2; apply negb_true_iff in E2; auto end.
  - intros _. match goal with E1 : nt_await _ <> None \/ _, E3 : _ <= y_now s |- _ => destruct E1 as [E1|[E1 _]]; [|discriminate E1]; rewrite <- T9; unfold tokio_deadline in E3; destruct (nt_await (y_net s)) as [i|]; [|congruence]; rewrite T4 in E3; left; eauto end.
  - intros _. match goal with E1 : nt_await _ <> None \/ _, E3 : _ <= y_now s |- _ => unfold smol_deadline in E3; rewrite T5 in *; rewrite negb_involutive in E3; destruct (ck_zero k); [now right|];
      destruct E1 as [E1|[_ E1]]; [|discriminate E1]; rewrite <- T9; destruct (nt_await (y_net s)) as [i|]; [|congruence]; rewrite T4 in E3; left; eauto end.
Qed.

Lemma time_inv c s : config_ok c -> reachable c s -> tinv c (y_net s) (y_pc s) (y_now s) (now_clock c s).
Proof.
  intros HC. revert s. apply sys_ind; [exact HC| |].
  - constructor; cbn; try lia; try discriminate; auto; try (intros [X|[X|X]]; discriminate X). now destruct (cf_rt c).
  - intros s e l st w ch n q t HR HI IH HT _. exact (keep_clock _ _ _ _ _ _ _ _ _ _ _ HT IH).
Qed.
