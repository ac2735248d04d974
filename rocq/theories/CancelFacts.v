(* Proof of C61: a dropped future is like a connection that broke. *)
From Verif Require Import Base VarInt Prims Props Codes Packets BaseFacts Options Session Client System SpecSession Cancel SpecCancel Cases.

Definition running (q : pc) : bool := match q with PSelect _ | PHandle _ | PReply _ | PFlush _ | PRequest _ | PPing | PBye => true | _ => false end.
Record alike (rt : runtime) (stale : bool) (q : pc) (n1 n2 : net) : Prop := {
  al_opts : nt_opts n1 = nt_opts n2;
  al_keep : nt_keep n1 = nt_keep n2;
  al_last : nt_last n1 = nt_last n2;
  al_perf : nt_perform n1 = nt_perform n2;
  al_buf1 : nt_buf n1 = [];
  al_buf2 : nt_buf n2 = [];
  al_conn : stale = false -> nt_connected n1 = nt_connected n2;
  al_wait : rt = Smol \/ running q = true -> nt_await n1 = nt_await n2;
  al_run : stale = true -> running q = false }.
Definition sim (c : config) (stale : bool) (s1 s2 : sys) : Prop :=
  exists n l, s2 = Sys (y_state s1) (y_wait s1) (y_chan s1) n (y_pc s1) (y_now s1) l /\
    alike (cf_rt c) stale (y_pc s1) (y_net s1) n /\ shown (y_log s1) = shown l.

Lemma shown_app a b : shown (a ++ b) = shown a ++ shown b.
Proof. apply filter_app. Qed.
Lemma shown_none t m : existsb visible m = false -> shown (map (pair t) m) = [].
Proof. induction m as [|o m IH]; [reflexivity|]. cbn [existsb map]. intros H. apply orb_false_elim in H as [H1 H2]. unfold shown. cbn [filter snd]. rewrite H1. now apply IH. Qed.
Lemma opened_log s s' m : y_log s' = y_log s ++ m -> opened s s' = existsb is_open (map snd m).
Proof. intros H. unfold opened, trace. rewrite H, map_app. now rewrite skipn_app, skipn_all, Nat.sub_diag. Qed.

Ltac unf_in H := unfold begin_call, send_call, give_up, drop_clients, start_run, connect_answer, incoming, outgoing, timer, tokio_timer, smol_timer, tokio_deadline, smol_deadline, handled, connect_resend, connected,
  reply_written, flushed, request_written, ping_written, bye_written, apply_connack, end_connect, end_run, crash_now, reply_now, smol_flush, smol_push in H.
Ltac unf := unfold begin_call, send_call, give_up, drop_clients, start_run, connect_answer, incoming, outgoing, timer, tokio_timer, smol_timer, tokio_deadline, smol_deadline, handled, connect_resend, connected,
  reply_written, flushed, request_written, ping_written, bye_written, apply_connack, end_connect, end_run, crash_now, reply_now, smol_flush, smol_push.
Ltac rd := cbv beta iota zeta delta [step y_state y_wait y_chan y_net y_pc y_now y_log set_state set_wait set_chan set_net set_pc set_now log again st_pool
  nt_connected nt_opts nt_keep nt_last nt_await nt_perform nt_buf set_connected set_last set_await set_buf negb] in *.
Ltac fields n2 A := destruct n2 as [c2 o k la a2 pf b2]; destruct A as [A1 A2 A3 A4 A5 A6 A7 A8 A9];
  cbn [nt_connected nt_opts nt_keep nt_last nt_await nt_perform nt_buf y_state y_wait y_chan y_net y_pc y_now y_log] in *; subst.

Lemma shown_same t a b m : shown a = shown b -> shown (a ++ map (pair t) m) = shown (b ++ map (pair t) m).
Proof. intros H. now rewrite !shown_app, H. Qed.

(* the same transition from the other state *)
Lemma sim_done c stale st w ch n q t lg l st' w' ch' n1 q' t' m n2 : shown lg = shown l -> alike (cf_rt c) (stale && negb (existsb is_open m)) q' n1 n2 ->
  sim c (stale && negb (opened (Sys st w ch n q t lg) (Sys st' w' ch' n1 q' t' (lg ++ map (pair t) m))))
    (Sys st' w' ch' n1 q' t' (lg ++ map (pair t) m)) (Sys st' w' ch' n2 q' t' (l ++ map (pair t) m)).
Proof.
  intros L A. rewrite (opened_log (Sys st w ch n q t lg) _ (map (pair t) m)) by reflexivity. rewrite map_map. cbn [snd]. rewrite map_id.
  exists n2, (l ++ map (pair t) m). split; [reflexivity|]. split; [exact A|]. cbn [y_log]. now apply shown_same.
Qed.
Lemma sim_done0 c stale st w ch n q t lg l st' w' ch' n1 q' t' n2 : shown lg = shown l -> alike (cf_rt c) stale q' n1 n2 ->
  sim c (stale && negb (opened (Sys st w ch n q t lg) (Sys st' w' ch' n1 q' t' lg))) (Sys st' w' ch' n1 q' t' lg) (Sys st' w' ch' n2 q' t' l).
Proof.
  intros L A. pose proof (sim_done c stale st w ch n q t lg l st' w' ch' n1 q' t' [] n2 L) as K. cbn [map existsb negb] in K. rewrite !app_nil_r, andb_true_r in K. exact (K A).
Qed.
Lemma tokio_open o ps oks : existsb is_open (tokio_writes o ps oks) = false.
Proof. revert oks. induction ps as [|p ps IH]; intros oks; [reflexivity|]. cbn [tokio_writes]. destruct oks as [|b oks]; destruct (write_result _ _ _); cbn; apply IH. Qed.
Lemma smol_open o ps ok : existsb is_open (smol_writes o ps ok) = false.
Proof. unfold smol_writes. destruct (smol_write_all ps ok); induction ps as [|p ps IH]; cbn; auto. Qed.
Ltac go H := repeat match type of H with
  | None = Some _ => discriminate H
  | context[match ?x with _ => _ end] => destruct x eqn:?; rd
  end.
Ltac pairs := repeat match goal with |- context[[(?t, ?x); (?t, ?y)]] => change [(t, x); (t, y)] with (map (pair t) [x; y]) | |- context[[(?t, ?x)]] => change [(t, x)] with (map (pair t) [x]) end.
Ltac close L := rd; pairs; eexists; (split; [reflexivity|]); rewrite <- ?app_assoc, <- ?map_app; (apply sim_done0 || apply sim_done); [exact L|];
  rewrite ?existsb_app, ?tokio_open, ?smol_open; cbn [existsb is_open orb negb]; rewrite ?andb_true_r, ?andb_false_r; constructor; cbn [nt_connected nt_opts nt_keep nt_last nt_await nt_perform nt_buf running];
  try assumption; try reflexivity; try discriminate; try tauto; try congruence; 
  try (let X := fresh in intros X; match goal with A8 : _ \/ _ -> ?a = ?b |- ?a = ?b => apply A8; destruct X; [left; congruence|discriminate] end).

Ltac run_case := match goal with A7 : _ = false -> _, A8 : _ \/ _ -> _, A9 : ?stale = true -> _ |- _ =>
  destruct stale; [discriminate (A9 eq_refl)|]; specialize (A7 eq_refl); specialize (A8 (or_intror eq_refl)); subst end.
Lemma sim_step c stale e s1 s2 s1' : sim c stale s1 s2 -> (stale = true -> e <> ERun) -> step c e s1 = Some s1' ->
  exists s2', step c e s2 = Some s2' /\ sim c (stale && negb (opened s1 s1')) s1' s2'.
Proof.
  intros (n & l & -> & A & L) NR H.
  destruct s1 as [st0 w0 ch0 [c1 o1 k1 l1 a1 p1 b1] q0 t0 lg]. fields n A.
  destruct e; rd.
  - injection H as <-. close L.
  - unf_in H; unf; rd. go H. all: injection H as <-; close L.
  - unf_in H; unf; rd. go H. all: injection H as <-; close L.
  - unf_in H; unf; rd. go H. all: injection H as <-; close L.
  - unf_in H; unf; rd. go H. all: injection H as <-; close L.
  - unf_in H; unf; rd. go H. all: injection H as <-; close L.
  - destruct stale; [now elim NR|]. rewrite <- (A7 eq_refl) in *. unf_in H; unf; rd. go H. all: injection H as <-; close L.
  - destruct q0; try discriminate H.
    + destruct (cf_rt c) eqn:ER; unf_in H; unf; rd; rewrite ?ER in H |- *; go H. all: injection H as <-; rewrite <- ?ER; close L.
    + run_case. unf_in H; unf; rd; go H. all: injection H as <-; close L.
  - destruct q0; try discriminate H. run_case. unf_in H; unf; rd; go H. all: injection H as <-; close L.
  - destruct q0; try discriminate H.
    + unf_in H; unf; rd; go H. all: injection H as <-; close L.
    + run_case. unf_in H; unf; rd; go H. all: injection H as <-; close L.
  - destruct q0; try discriminate H. run_case. unf_in H; unf; rd; go H. all: injection H as <-; close L.
  - destruct q0; try discriminate H. run_case. unf_in H; unf; rd; go H. all: injection H as <-; close L.
  - destruct q0; try discriminate H.
    + unf_in H; unf; rd; go H. all: injection H as <-; close L.
    + run_case. unf_in H; unf; rd; go H. all: injection H as <-; close L.
  - destruct q0; try discriminate H; try run_case; unf_in H; unf; rd; go H. all: injection H as <-; close L.
  - destruct q0; try discriminate H. unf_in H; unf; rd; go H. all: injection H as <-; close L.
Qed.

(* ---- dropping the future: what a failing connection would do ---- *)
Lemma write_fails rt p : exists e, write_result rt p false = Some e.
Proof. unfold write_result. destruct (ser_err rt p); eauto. Qed.
Lemma write_all_fails ps : exists e, smol_write_all ps false = Some e.
Proof. unfold smol_write_all. destruct (find _ ps) as [p|] eqn:E; [|eauto]. apply find_some in E as [_ E]. destruct (ser_err Smol p); eauto. discriminate E. Qed.
Lemma smol_hidden o ps : existsb visible (smol_writes o ps false) = false.
Proof. unfold smol_writes. destruct (write_all_fails ps) as [e ->]. induction ps; cbn; auto. Qed.
Lemma tokio_hidden o ps : existsb visible (tokio_writes o ps (repeat false (length ps))) = false.
Proof. induction ps as [|p ps IH]; [reflexivity|]. cbn [tokio_writes length repeat]. destruct (write_fails Tokio p) as [e ->]. exact IH. Qed.

Definition failing (rt : runtime) (q : pc) : list event :=
  match q with
  | PIdle | PCrash => []
  | PConnWrite => [EWrite false]
  | PConnRead => [EReadErr Io]
  | PConnHandle (Some ps) => [EHandled; EWrites (repeat false (length ps)) false]
  | PConnHandle None => [EHandled; ERun; EReadErr Io]
  | PConnResend ps => [EWrites (repeat false (length ps)) false]
  | PSelect _ => [EReadErr Io]
  | PHandle AfterDisconnect => [EHandled]
  | PHandle (AfterPacket (Some _)) => [EHandled; EWrite false]
  | PHandle _ => match rt with Tokio => [EHandled; EReadErr Io] | Smol => [EHandled; EWrite false] end
  | _ => [EWrite false]
  end.

Lemma sim_dropped c st w ch n1 t lg l m n2 : shown lg = shown l -> existsb visible m = false -> alike (cf_rt c) true PIdle n1 n2 ->
  sim c true (Sys st w ch n1 PIdle t lg) (Sys st w ch n2 PIdle t (l ++ map (pair t) m)).
Proof.
  intros L M A. exists n2, (l ++ map (pair t) m). split; [reflexivity|]. split; [exact A|]. cbn [y_log set_pc]. now rewrite shown_app, shown_none, app_nil_r.
Qed.

Lemma sim_drop c stale s1 s2 s1' : sim c stale s1 s2 -> drop_task s1 = Some s1' -> (cf_rt c = Smol -> nt_await (y_net s1) = None) ->
  exists es s2', exec c es s2 = Some s2' /\ sim c true s1' s2'.
Proof.
  intros (n & l & -> & A & L) H W. exists (failing (cf_rt c) (y_pc s1)).
  destruct s1 as [st0 w0 ch0 [c1 o1 k1 l1 a1 p1 b1] q0 t0 lg]. fields n A.
  assert (HQ : s1' = set_pc PIdle (Sys st0 w0 ch0 (Net c1 o k la a1 pf []) q0 t0 lg)) by (destruct q0; try discriminate H; now injection H as <-). subst s1'.
  destruct q0; try discriminate H; clear H.
  all: destruct (cf_rt c) eqn:ER.
  all: try match goal with re : option (list packet) |- _ => destruct re end.
  all: try match goal with a : after |- _ => destruct a as [| |[]] end.
  all: cbn [failing exec]; rd; rewrite ?ER; rd.
  all: repeat (unf; rd; rewrite ?ER; rd).
  all: repeat match goal with
    | |- context[write_result ?rt ?p false] => let e := fresh "e" in let E := fresh "E" in destruct (write_fails rt p) as [e E]; rewrite E; clear E; rd
    | |- context[match smol_write_all ?ps false with _ => _ end] => let e := fresh "e" in let E := fresh "E" in destruct (write_all_fails ps) as [e E]; rewrite E; clear E; rd
    end.
  all: pairs; eexists; (split; [reflexivity|]); rewrite <- ?app_assoc, <- ?map_app; (apply sim_dropped; [exact L|rewrite ?existsb_app, ?tokio_hidden, ?smol_hidden; reflexivity|]).
  all: rewrite ER; constructor; cbn [nt_connected nt_opts nt_keep nt_last nt_await nt_perform nt_buf running]; try reflexivity; try discriminate.
  all: try (intros [?|?]; [discriminate|discriminate]).
  all: try (intros _; rewrite (W eq_refl) in *; auto).
Qed.

Lemma careful_sim c s stale : careful c s stale -> exists es s2, exec c es (init c) = Some s2 /\ sim c stale s s2.
Proof.
  induction 1 as [|s stale e s' HC IH HS HN|s stale s' HC IH HD HW].
  - exists [], (init c). split; [reflexivity|]. exists (y_net (init c)), []. split; [reflexivity|]. split; [|reflexivity]. now constructor.
  - destruct IH as (es & s2 & HE & S). destruct (sim_step _ _ _ _ _ _ S HN HS) as (s2' & HE' & S'). exists (es ++ [e]), s2'. split; [|exact S'].
    rewrite exec_app, HE. cbn [exec]. now rewrite HE'.
  - destruct IH as (es & s2 & HE & S). destruct (sim_drop _ _ _ _ _ S HD HW) as (es' & s2' & HE' & S'). exists (es ++ es'), s2'. split; [|exact S'].
    now rewrite exec_app, HE.
Qed.
