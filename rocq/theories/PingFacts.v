(* A PINGREQ is not sent before the connection was silent for the interval. *)
From Verif Require Import Base VarInt Prims Props Codes Packets Options Session Client System SpecSession SpecNet SpecTrace SpecTime SpecPing.
From Verif Require Import Cases SystemFacts LoopMore TimeFacts TimeMore KeepMore.

Definition at_work (rt : runtime) (q : pc) : bool :=
  match q with PCrash => true | PHandle _ | PFlush _ => match rt with Smol => true | Tokio => false end | _ => false end.
Record uinv (rt : runtime) (n : net) (q : pc) (now u : N) : Prop := {
  ui_now : u <= now;
  ui_last : nt_connected n = true \/ in_run q = true \/ answered q = true -> at_work rt q = false -> u <= nt_last n }.

Lemma last_use_app rt l1 l2 : last_use rt (l1 ++ l2) = fold_left (use_step rt) l2 (last_use rt l1).
Proof. apply fold_left_app. Qed.
Lemma resend_use rt t (l : list out) u : (forall x, In x l -> exists p, attempt FromResend p x) -> fold_left (use_step rt) (map (pair t) l) u = u.
Proof.
  revert u. induction l as [|x l IH]; intros u H; [reflexivity|]. cbn [map fold_left]. rewrite IH by (intros y Hy; apply H; now right).
  destruct (H x (or_introl eq_refl)) as (p & [-> | ->]); reflexivity.
Qed.
Lemma reply_use rt t (l : list out) u : (forall x, In x l -> exists p, attempt FromReply p x) ->
  fold_left (use_step rt) (map (pair t) l) u = u \/ fold_left (use_step rt) (map (pair t) l) u = t.
Proof.
  revert u. induction l as [|x l IH]; intros u H; [now left|]. cbn [map fold_left].
  destruct (IH (use_step rt u (t, x)) (fun y Hy => H y (or_intror Hy))) as [E|E]; [|now right]. rewrite E.
  destruct (H x (or_introl eq_refl)) as (p & [-> | ->]); cbn; auto.
Qed.
Lemma tokio_use rt t ps oks u : fold_left (use_step rt) (map (pair t) (tokio_writes FromResend ps oks)) u = u.
Proof. apply resend_use. intros x Hx. apply tokio_writes_origin in Hx. destruct Hx as (y & _ & Hy). eauto. Qed.
Lemma smol_use rt t ps ok u : fold_left (use_step rt) (map (pair t) (smol_writes FromResend ps ok)) u = u.
Proof. apply resend_use. intros x Hx. apply smol_writes_origin in Hx. destruct Hx as (y & _ & Hy). eauto. Qed.
Lemma flush_use rt t ps ok u : let v := fold_left (use_step rt) (map (pair t) (smol_writes FromReply ps ok)) u in v = u \/ v = t.
Proof. apply reply_use. intros x Hx. apply smol_writes_origin in Hx. destruct Hx as (y & _ & Hy). eauto. Qed.
Lemma refused_use rt u t p e : answer_err p = Some e -> use_step rt u (t, OAnswer p) = u.
Proof. destruct p; try reflexivity. cbn. destruct (ca_rc c); try reflexivity. discriminate. Qed.

Lemma use_inv c s : config_ok c -> reachable c s -> uinv (cf_rt c) (y_net s) (y_pc s) (y_now s) (last_use (cf_rt c) (y_log s)).
Proof.
  intros HC. revert s. apply sys_ind; [exact HC| |].
  - constructor; cbn; [lia|]. intros [X|[X|X]]; discriminate X.
  - intros s e l st w ch n q t HR HI IH HT _. pose proof (time_inv c s HC HR) as TI. pose proof (ti_last _ _ _ _ _ TI) as TL. cbn [next y_log y_net y_pc y_now]. rewrite last_use_app.
    set (u := last_use (cf_rt c) (y_log s)) in *. clearbody u.
    assert (y_pc s <> PConnHandle None) as HX. { intros X. pose proof (v_expects _ _ (inv_reachable _ _ HC HR)) as Y. rewrite X in Y. exact Y. }
    clear TI HR HI.
    destruct IH as [U1 U2].
    destruct HT; try congruence; clear HX; try match goal with E : y_pc _ = _ |- _ => rewrite E in U2 end.
    all: rewrite ?map_app, ?fold_left_app.
    all: rewrite ?tokio_use, ?smol_use.
    all: try (destruct (flush_use (cf_rt c) (y_now s) ps ok u) as [EW|EW]; rewrite EW).
    all: cbn [map fold_left].
    all: try (erewrite refused_use by eassumption).
    all: try unfold create_connect.
    all: unfold bye; cbn [use_step].
    all: try match goal with E : ca_rc _ = RSuccess |- _ => rewrite E end.
    all: unfold end_net, with_last.
    all: try match goal with |- context [reply_pc _ ?r _] => is_var r; destruct r end.
    all: destruct (cf_rt c) eqn:RT; cbn [reply_pc opt_list] in *.
    all: try discriminate.
    all: unfold apply_connack, set_last, set_await, set_connected, set_buf.
    all: constructor; cbn [in_run answered at_work nt_connected nt_opts nt_keep nt_last nt_await nt_perform nt_buf] in *.
    all: try solve [lia | intros; lia | intros; discriminate | intros [X|[X|X]]; discriminate | intros X Y; apply U2; auto].
Qed.

Lemma not_early c s l1 t o l2 : config_ok c -> reachable c s -> y_log s = l1 ++ (t, o) :: l2 -> attempt FromTimer PPingReq o ->
  ck_ping (clock_of (op_keep_alive (cf_opts c)) l1) = None /\
  last_use (cf_rt c) l1 + ck_own (clock_of (op_keep_alive (cf_opts c)) l1) <= t.
Proof.
  intros HC HR HL HA. destruct (timer_at c s l1 t _ o l2 HR HL HA) as (s1 & R1 & R2 & R3 & [(R4 & _)|(_ & X & _)]); [|discriminate X].
  pose proof (time_inv c s1 HC R1) as HI. unfold now_clock in HI. rewrite R2 in HI.
  destruct (ti_asked _ _ _ _ _ HI R4) as (_ & H1 & H2). split; [exact H1|].
  pose proof (use_inv c s1 HC R1) as HU. rewrite R2 in HU. pose proof (ui_last _ _ _ _ _ HU) as HL1. rewrite R4 in HL1. specialize (HL1 (or_intror (or_introl eq_refl)) eq_refl). lia.
Qed.
