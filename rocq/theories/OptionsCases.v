(* Concrete options for P_Options.v. *)
From Verif Require Import Base VarInt Prims Props Codes Packets SpecCodec Check Options SpecOptions CodecMore CodecFacts FrameMore Witness OptionsMore Session Client System SpecSession Scenario IdMore LoopCases TimeCases.

Definition op_will_case : will := Will AtLeastOnce false no_props [119] [1; 2].
Definition op_settings : list setting :=
  [SetKeepAlive 10500000000; SetUsername [117]; SetWill op_will_case; SetCleanStart false; SetUsername [118]; SetPassword [112]; SetReceiveMax 20; SetMaxPacket 268435456; SetMaxPacket 500; SetMaxPacket 300000000; SetSessionExpiry 3600].
(* client identifier "c" *)
Definition op_bytes : bytes :=
  [16; 41; 0; 4; 77; 81; 84; 84; 5; 204; 0; 10; 13; 17; 0; 0; 14; 16; 33; 0; 20; 39; 0; 0; 1; 244; 0; 1; 99; 0; 0; 1; 119; 0; 2; 1; 2; 0; 1; 118; 0; 1; 112].
Lemma setting_b x : match x with SetClientId a | SetUsername a | SetPassword a => strb a | SetWill w => willb w | SetSessionExpiry n | SetMaxPacket n => n <? 4294967296
  | SetReceiveMax n | SetSendMax n => n <? 65536 | _ => true end = true -> setting_ok x.
Proof. destruct x; cbn; intros H; auto using strb_ok, willb_ok; lia. Qed.
Lemma settings_case : str_ok [99] /\ Forall setting_ok op_settings /\ get for_keep 60000000000 op_settings < 65536 * 1000000000 /\
  last_set for_user op_settings = Some [118] /\ last_set for_packet op_settings = Some 500 /\
  w_bytes (write_packet (create_connect (configure [99] op_settings))) = op_bytes.
Proof.
  split; [apply strb_ok; reflexivity|]. split; [|repeat apply conj; vm_compute; reflexivity].
  unfold op_settings. repeat (apply Forall_cons; [apply setting_b; vm_compute; reflexivity|]). apply Forall_nil.
Qed.
Definition op_cfg (rt : runtime) : config := Config rt (configure [99] (op_settings ++ [SetSendMax 5])).
Definition op_connect : packet := create_connect (configure [99] op_settings).
Lemma wire_case : forall rt, config_ok (op_cfg rt) /\ exists s l2, reachable (op_cfg rt) s /\ trace s = [OConnect] ++ OWrite FromConnect op_connect :: l2 /\
  (cf_rt (op_cfg rt) = Smol \/ no_imposed [OConnect]) /\ forall w, FrameMore.accepted w op_connect.
Proof.
  intros rt. split; [destruct rt; cfg|]. exists (run_to (op_cfg rt) [EConnect; EWrite true]), []. split; [apply run_reachable; destruct rt; calc|]. split; [destruct rt; calc|].
  split; [right; intros a [X|[]]; discriminate X|]. intros []; repeat apply conj; vm_compute; reflexivity.
Qed.
Lemma wraps_case : exists id l c, str_ok id /\ Forall setting_ok l /\ create_connect (configure id l) = PConnect c /\
  get for_keep 60000000000 l = 65546 * 1000000000 /\ cn_keep_alive c = 10 /\ ~ says id l c.
Proof.
  exists [99], [SetKeepAlive (65546 * 1000000000)]. destruct (keep_wraps [99] [SetKeepAlive (65546 * 1000000000)]) as (c & E & _ & HS); [vm_compute; discriminate|].
  exists c. split; [apply strb_ok; reflexivity|]. split; [repeat constructor|]. split; [exact E|]. split; [reflexivity|]. split; [|exact HS].
  rewrite create_is in E. injection E as <-. reflexivity.
Qed.
(* tokio: the broker asks for 30 s; the next CONNECT says 30 s although the options say 60 s *)
Definition leak_settings : list setting := [SetCleanStart true; SetReceiveMax 10; SetSendMax 10].
Lemma leak_case : exists s l1 q l2, config_ok (tc_cfg Tokio) /\ cf_opts (tc_cfg Tokio) = configure [] leak_settings /\ reachable (tc_cfg Tokio) s /\
  trace s = l1 ++ OWrite FromConnect (PConnect q) :: l2 /\ get for_keep 60000000000 leak_settings = 60000000000 /\ cn_keep_alive q = 30 /\ ~ says [] leak_settings q.
Proof.
  set (es := tc_open (tc_keep 30) ++ [EReadErr Io; EConnect; EWrite true]).
  set (q := match create_connect (with_keep_alive (from_secs 30) (cf_opts (tc_cfg Tokio))) with PConnect q => q | _ => connect_of [] [] end).
  exists (run_to (tc_cfg Tokio) es), (trace (run_to (tc_cfg Tokio) (tc_open (tc_keep 30) ++ [EReadErr Io; EConnect]))), q, [].
  split; [cfg|]. split; [reflexivity|]. split; [apply run_reachable; calc|]. split; [calc|]. split; [reflexivity|]. split; [reflexivity|].
  intros (_ & _ & _ & _ & _ & E & _). discriminate E.
Qed.
