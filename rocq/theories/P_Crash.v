(* C43, C54: exactly which bytes panic the smol client.  (The tokio client does not panic: C54_tokio.) *)
From Verif Require Import Base VarInt Prims Props Codes Packets Options Session Client System SpecCodec SpecRead SpecWire SmolStream TokioRead Wire SpecAnswer SpecPanic SpecCrash LoopCases CrashFacts CrashCases.

(* run, when the next chunk is taken.  [run_panics] (SpecCrash.v) *)
Theorem C54_run_exact : forall c chk xs w w' k ch rest, cf_rt c = Smol -> Forall wbytes xs -> wexec c chk xs (winit c chk) = Some w ->
  y_pc (w_sys w) = PSelect k -> sr_in (w_net w) = ch :: rest -> ch <> [] -> wread c chk w = Some w' ->
  (w_dead w' = true <-> run_panics chk (sr_buf (w_net w) ++ ch)).
Proof. exact smol_run_exact. Qed.
Print Assumptions C54_run_exact.
(* the second and third byte of PUBACK arrive before the last one: debug builds panic, release builds do not *)
Example C54_run_case : forall chk, exists w w' k, Forall wbytes cr_run /\ wexec (lc_cfg Smol) chk cr_run (winit (lc_cfg Smol) chk) = Some w /\ y_pc (w_sys w) = PSelect k /\
  sr_buf (w_net w) = [] /\ sr_in (w_net w) = [[64; 2; 0]] /\ wread (lc_cfg Smol) chk w = Some w' /\ w_dead w' = chk.
Proof. exact run_case. Qed.
(* connect, whatever the broker answers.  The chunks [taken] have been read, [ch] is taken now.  [connect_panics] (SpecCrash.v) *)
Theorem C54_connect_exact : forall c chk xs w w' taken ch rest, cf_rt c = Smol -> Forall wbytes xs -> wexec c chk xs (winit c chk) = Some w -> len (concat (answer_chunks xs)) < 2 ^ 64 ->
  y_pc (w_sys w) = PConnRead -> answer_chunks xs = taken ++ ch :: rest -> sr_in (w_new w) = ch :: rest -> ch <> [] -> wread c chk w = Some w' ->
  (w_dead w' = true <-> connect_panics chk (taken ++ [ch])).
Proof. exact smol_connect_exact. Qed.
Print Assumptions C54_connect_exact.
(* a CONNACK of five bytes: two, then two *)
Example C54_connect_case : forall chk, exists w w', Forall wbytes cr_connect /\ wexec (lc_cfg Smol) chk cr_connect (winit (lc_cfg Smol) chk) = Some w /\ y_pc (w_sys w) = PConnRead /\
  answer_chunks cr_connect = [[32; 3]; [0; 0]] /\ sr_in (w_new w) = [[0; 0]] /\ wread (lc_cfg Smol) chk w = Some w' /\ w_dead w' = true.
Proof. exact connect_case. Qed.
(* the reading function of connect, for any chunks *)
Theorem C43_panics_exact : forall chk chunks, chunks_ok chunks -> all_bytes (concat chunks) -> len (concat chunks) < 2 ^ 64 ->
  (read_answer chk chunks = Broken Panic <-> connect_panics chk chunks).
Proof. exact connect_exact. Qed.
Print Assumptions C43_panics_exact.
