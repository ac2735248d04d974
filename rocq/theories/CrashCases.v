(* C43, C54: examples. *)
From Verif Require Import Base VarInt Prims Props Codes Packets Options Session Client System SpecCodec SpecRead SpecWire SmolStream TokioRead Wire SpecAnswer SpecPanic SpecCrash Scenario LoopCases ReadCases WireCases CrashFacts.

(* three of the four bytes of a PUBACK *)
Definition cr_run : list wevent := wc_open wc_connack ++ [WArrive false [64; 2; 0]].
Definition cr_connect : list wevent := [WEvent EConnect; WEvent (EWrite true); WArrive true [32; 3]; WRead; WArrive true [0; 0]].
Definition cr_facts (chk : bool) (xs : list wevent) :=
  match wexec (lc_cfg Smol) chk xs (winit (lc_cfg Smol) chk) with
  | Some w => match wread (lc_cfg Smol) chk w with Some w' => Some (y_pc (w_sys w), sr_buf (w_net w), sr_in (w_net w), sr_in (w_new w), w_dead w') | None => None end
  | None => None
  end.
Lemma cr_found chk xs v : cr_facts chk xs = Some v -> exists w w', wexec (lc_cfg Smol) chk xs (winit (lc_cfg Smol) chk) = Some w /\ wread (lc_cfg Smol) chk w = Some w' /\
  (y_pc (w_sys w), sr_buf (w_net w), sr_in (w_net w), sr_in (w_new w), w_dead w') = v.
Proof.
  unfold cr_facts. destruct (wexec _ _ _ _) as [w|]; [|discriminate]. destruct (wread _ _ _) as [w'|] eqn:E; [|discriminate]. intros [= <-]. eauto.
Qed.
Lemma run_case chk : exists w w' k, Forall wbytes cr_run /\ wexec (lc_cfg Smol) chk cr_run (winit (lc_cfg Smol) chk) = Some w /\ y_pc (w_sys w) = PSelect k /\
  sr_buf (w_net w) = [] /\ sr_in (w_net w) = [[64; 2; 0]] /\ wread (lc_cfg Smol) chk w = Some w' /\ w_dead w' = chk.
Proof.
  destruct (cr_found chk cr_run (PSelect 0, [], [[64; 2; 0]], [], chk)) as (w & w' & H1 & H2 & H3); [destruct chk; vm_compute; reflexivity|].
  exists w, w', 0. split; [repeat constructor|]. split; [exact H1|]. repeat apply conj; congruence.
Qed.
Lemma connect_case chk : exists w w', Forall wbytes cr_connect /\ wexec (lc_cfg Smol) chk cr_connect (winit (lc_cfg Smol) chk) = Some w /\ y_pc (w_sys w) = PConnRead /\
  answer_chunks cr_connect = [[32; 3]; [0; 0]] /\ sr_in (w_new w) = [[0; 0]] /\ wread (lc_cfg Smol) chk w = Some w' /\ w_dead w' = true.
Proof.
  destruct (cr_found chk cr_connect (PConnRead, [], [], [[0; 0]], true)) as (w & w' & H1 & H2 & H3); [destruct chk; vm_compute; reflexivity|].
  exists w, w'. split; [repeat constructor|]. split; [exact H1|]. repeat apply conj; first [reflexivity|congruence].
Qed.
