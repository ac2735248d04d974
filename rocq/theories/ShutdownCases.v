(* Cases for C76 *)
From Verif Require Import Base VarInt Prims Props Codes Packets Options Session Client System SpecSession Shutdown SpecShutdown Scenario LoopCases ShutdownFacts.

Definition sd_cfg (rt : runtime) : config := sc rt 1 10 false.
(* a publish that has the only identifier and waits to send, a subscribe that waits for an identifier *)
Definition sd_calls : list levent :=
  map LNet (sc_connect false) ++ [LCall (sc_pub AtLeastOnce); LCall sc_sub; LBegin 0; LCall (CPublish AtMostOnce false [116] [112] no_props); LBegin 1; LSend 1].
Definition sd_gone : list levent := sd_calls ++ [LDropSession; LDropRequests].
Definition lrun (c : config) (xs : list levent) : lsys := match lexec c xs (linit c) with Some g => g | None => linit c end.
Lemma lrun_is c xs : is_some (lexec c xs (linit c)) = true -> lexec c xs (linit c) = Some (lrun c xs).
Proof. unfold lrun. destruct (lexec c xs (linit c)); [reflexivity|discriminate]. Qed.
Lemma gone_case : forall rt, config_ok (sd_cfg rt) /\ exists g g', lexec (sd_cfg rt) sd_gone (linit (sd_cfg rt)) = Some g /\ gone g /\ map fst (l_need g) = [1] /\ l_send g = [0] /\ l_ends g = [(2, CrOk)] /\
  lstep (sd_cfg rt) (LBegin 0) (lrun (sd_cfg rt) sd_calls) = None /\
  Forall goes_on [LBegin 0; LSend 0] /\ lexec (sd_cfg rt) [LBegin 0; LSend 0] g = Some g' /\ l_ends g' = [(2, CrOk); (1, CrNoNetworkChannel); (0, CrNoNetworkChannel)].
Proof.
  intros rt. split; [destruct rt; now split|]. exists (lrun (sd_cfg rt) sd_gone), (lrun (sd_cfg rt) (sd_gone ++ [LBegin 0; LSend 0])).
  split; [apply lrun_is; destruct rt; vm_compute; reflexivity|]. split; [destruct rt; split; vm_compute; reflexivity|].
  split; [destruct rt; vm_compute; reflexivity|]. split; [destruct rt; vm_compute; reflexivity|]. split; [destruct rt; vm_compute; reflexivity|]. split; [destruct rt; vm_compute; reflexivity|].
  split; [repeat constructor|]. split; [destruct rt; vm_compute; reflexivity|]. destruct rt; vm_compute; reflexivity.
Qed.
(* the caller is told Ok while the network is being dropped; nothing can be written any more *)
Lemma late_ok : forall rt, config_ok (sd_cfg rt) /\ exists g g' n, lexec (sd_cfg rt) (sd_calls ++ [LDropSession]) (linit (sd_cfg rt)) = Some g /\ l_ids g = false /\
  lexec (sd_cfg rt) [LSend 0] g = Some g' /\ l_ends g' = l_ends g ++ [(n, CrOk)].
Proof.
  intros rt. split; [destruct rt; now split|]. exists (lrun (sd_cfg rt) (sd_calls ++ [LDropSession])), (lrun (sd_cfg rt) ((sd_calls ++ [LDropSession]) ++ [LSend 0])), 0.
  split; [apply lrun_is; destruct rt; vm_compute; reflexivity|]. split; [destruct rt; vm_compute; reflexivity|]. split; destruct rt; vm_compute; reflexivity.
Qed.
(* a call that is refused although the network is gone *)
Lemma invalid_case : exists g e, lexec sc_small [LCall sc_sub; LDropSession; LDropRequests; LBegin 0] (linit sc_small) = Some g /\ In (0, CrInvalid e) (l_ends g) /\ gone g.
Proof.
  exists (lrun sc_small [LCall sc_sub; LDropSession; LDropRequests; LBegin 0]). eexists. split; [apply lrun_is; vm_compute; reflexivity|]. split; [vm_compute; left; reflexivity|split; vm_compute; reflexivity].
Qed.
Lemma late_ok_any : forall rt, exists c xs g g' n, cf_rt c = rt /\ config_ok c /\ lexec c xs (linit c) = Some g /\ l_ids g = false /\
  lexec c [LSend 0] g = Some g' /\ l_ends g' = l_ends g ++ [(n, CrOk)].
Proof. intros rt. destruct (late_ok rt) as (HC & g & g' & n & H1 & H2 & H3 & H4). exists (sd_cfg rt), (sd_calls ++ [LDropSession]), g, g', n. repeat split; try assumption; apply HC. Qed.
