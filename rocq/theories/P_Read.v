(* C41 - C43: from bytes to packets. *)
From Verif Require Import Base VarInt Prims Props Codes Packets SpecCodec SpecRead SmolStream TokioRead ReadFacts ReadMore ReadCases.

(* C41.  Full statement: C41_prompt_partial without its last hypothesis, for both values of chk, and
   C41_order without the panic.  Missing: chunks that complete several packets (C41_refuted) and, in
   debug builds, the chunks of C41_panic_refuted. *)
Theorem C41_order_partial : forall chk chunks ps bs buf fut, Forall2 sent ps bs -> chunks_ok chunks -> buf ++ concat chunks ++ fut = concat bs ->
  exists ps1 ps2 bs1 bs2, ps = ps1 ++ ps2 /\ bs = bs1 ++ bs2 /\ length bs1 = length ps1 /\ Forall2 sent ps2 bs2 /\
  ((exists buf', smol_reads chk buf chunks = (ps1, Reading buf') /\ buf ++ concat chunks = concat bs1 ++ buf') \/
   (chk = true /\ smol_reads chk buf chunks = (ps1, Panic))).
Proof. exact smol_order. Qed.
Print Assumptions C41_order_partial.
Example C41_order_case : Forall2 sent [rc_ack 7; rc_pub; rc_ack 8] [[64; 2; 0; 7]; [48; 8; 0; 1; 116; 0; 64; 2; 0; 7]; [64; 2; 0; 8]] /\
  chunks_ok [[64; 2; 0; 7; 48]; [8; 0; 1; 116; 0]; [64; 2; 0; 7; 64]] /\
  smol_reads true [] [[64; 2; 0; 7; 48]; [8; 0; 1; 116; 0]; [64; 2; 0; 7; 64]] = ([rc_ack 7; rc_pub], Reading [64]).
Proof. exact order_case. Qed.
(* exactly how many packets have been handed over *)
Theorem C41_count_partial : forall chunks ch ps bs fut, Forall2 sent ps bs -> chunks_ok (chunks ++ [ch]) -> concat (chunks ++ [ch]) ++ fut = concat bs ->
  length (fst (smol_reads false [] (chunks ++ [ch]))) =
  Nat.min (S (length (fst (smol_reads false [] chunks)))) (complete bs (len (concat (chunks ++ [ch])))).
Proof. exact smol_count. Qed.
Print Assumptions C41_count_partial.
Theorem C41_prompt_partial : forall chunks ps bs fut, Forall2 sent ps bs -> chunks_ok chunks -> concat chunks ++ fut = concat bs ->
  (forall c1 ch c2, chunks = c1 ++ ch :: c2 -> (complete bs (len (concat (c1 ++ [ch]))) <= S (complete bs (len (concat c1))))%nat) ->
  length (fst (smol_reads false [] chunks)) = complete bs (len (concat chunks)).
Proof. exact smol_prompt. Qed.
Print Assumptions C41_prompt_partial.
Example C41_prompt_case : let bs := [[64; 2; 0; 7]; [64; 2; 0; 8]] in let chunks := [[64; 2]; [0; 7; 64]; [2; 0; 8]] in
  Forall2 sent [rc_ack 7; rc_ack 8] bs /\ chunks_ok chunks /\ concat chunks = concat bs /\
  (forall c1 ch c2, chunks = c1 ++ ch :: c2 -> (complete bs (len (concat (c1 ++ [ch]))) <= S (complete bs (len (concat c1))))%nat) /\
  complete bs (len (concat chunks)) = 2%nat.
Proof. exact prompt_case. Qed.
(* Of any two packets that arrive together the second is not handed over. *)
Theorem C41_stall_refuted : forall chk p q b b', sent p b -> sent q b' -> smol_reads chk [] [b ++ b'] = ([p], Reading b').
Proof. exact smol_stall. Qed.
Print Assumptions C41_stall_refuted.
Theorem C41_refuted : exists ps bs chunks, Forall2 sent ps bs /\ chunks_ok chunks /\ concat chunks = concat bs /\ complete bs (len (concat chunks)) = 2%nat /\
  forall chk, length (fst (smol_reads chk [] chunks)) = 1%nat.
Proof. exact stall_witness. Qed.
Print Assumptions C41_refuted.
(* Debug builds panic when the last byte of a packet arrives alone. *)
Theorem C41_panic_refuted : forall p b, sent p b -> 2 < len b -> exists pre x, b = pre ++ [x] /\ pre <> [] /\ smol_reads true [] [pre; [x]] = ([], Panic).
Proof. exact smol_panic. Qed.
Print Assumptions C41_panic_refuted.
Example C41_panic_case : sent (rc_ack 7) [64; 2; 0; 7] /\ 2 < len [64; 2; 0; 7].
Proof. exact panic_case. Qed.

(* C42.  Full statement: without the hypothesis gentle. *)
Theorem C42_partial : forall xs ps bs fut, Forall2 sent ps bs -> gentle (TReader [] []) xs -> arrived xs ++ fut = concat bs ->
  exists ps1 ps2 bs1 bs2 r, ps = ps1 ++ ps2 /\ bs = bs1 ++ bs2 /\ length bs1 = length ps1 /\
    tokio_reads (TReader [] []) xs = (ps1, Some r) /\ arrived xs = concat bs1 ++ tr_got r ++ tr_in r /\ part_of (tr_got r) bs2.
Proof. exact tokio_gentle. Qed.
Print Assumptions C42_partial.
Example C42_case : let xs := [TArrive [64; 2]; TPoll; TArrive [0; 7; 64; 2]; TPoll; TDrop; TPoll; TArrive [0; 8]; TPoll] in
  gentle (TReader [] []) xs /\ tokio_reads (TReader [] []) xs = ([rc_ack 7; rc_ack 8], Some (TReader [] [])).
Proof. exact gentle_case. Qed.
(* Whatever packet is interrupted, and wherever: the client goes on as if the part had never been sent. *)
Theorem C42_loss_refuted : forall p pre t xs, sent p (pre ++ t) -> t <> [] ->
  tokio_reads (TReader [] []) (TArrive pre :: TPoll :: TDrop :: xs) = tokio_reads (TReader [] []) xs.
Proof. exact tokio_loses. Qed.
Print Assumptions C42_loss_refuted.
Theorem C42_refuted : exists p pre t, sent p (pre ++ t) /\
  tokio_reads (TReader [] []) [TArrive pre; TPoll; TDrop; TArrive t; TPoll] = ([], None).
Proof. exact (ex_intro _ _ (ex_intro _ _ (ex_intro _ _ torn))). Qed.
Print Assumptions C42_refuted.
(* A PUBLISH is sent; a PUBACK that was never sent is received. *)
Theorem C42_invented_refuted : exists p q pre t, sent p (pre ++ t) /\ p <> q /\
  tokio_reads (TReader [] []) [TArrive pre; TPoll; TDrop; TArrive t; TPoll] = ([q], Some (TReader [] [])).
Proof. exact invented_witness. Qed.
Print Assumptions C42_invented_refuted.

(* C43.  Full statement: the first alternative of C43_sound_partial whenever the whole of b has arrived.  Missing:
   the chunks of C43_refuted.  C43_partial: the chunk that completes the fixed header completes the packet. *)
Theorem C43_sound_partial : forall chk p b tail chunks, sent p b -> chunks_ok chunks -> concat chunks = b ++ tail ->
  (exists buf rest, read_answer chk chunks = GotPacket p buf rest /\ buf ++ concat rest = tail) \/
  read_answer chk chunks = Broken Panic \/ read_answer chk chunks = Pending.
Proof. exact answer_only. Qed.
Print Assumptions C43_sound_partial.
Theorem C43_partial : forall chk p b tail c1 ch rest f v body, sent p b -> b = f :: v ++ body -> is_varint v ->
  chunks_ok (c1 ++ [ch]) -> concat c1 ++ ch = b ++ tail -> len (concat c1) <= len v ->
  read_answer chk (c1 ++ ch :: rest) = GotPacket p tail rest.
Proof. exact answer_got. Qed.
Print Assumptions C43_partial.
Example C43_case : sent rc_connack [32; 3; 0; 0; 0] /\ chunks_ok [[32]; [3; 0; 0; 0; 64]] /\ is_varint [3] /\
  forall chk, read_answer chk [[32]; [3; 0; 0; 0; 64]; [2]] = GotPacket rc_connack [64] [[2]].
Proof. exact answer_case. Qed.
(* Every CONNACK (it has at least 5 bytes) can be cut so that connect panics, in all builds. *)
Theorem C43_refuted : forall chk a b, sent (PConnAck a) b -> exists c1 c2 c3, b = c1 ++ c2 ++ c3 /\ c1 <> [] /\ c2 <> [] /\ c3 <> [] /\
  read_answer chk [c1; c2; c3] = Broken Panic.
Proof. exact connack_panics. Qed.
Print Assumptions C43_refuted.
(* Release builds may wait for ever although the CONNACK has arrived. *)
Theorem C43_hang_refuted : exists a b c1 c2, sent (PConnAck a) b /\ b = c1 ++ c2 /\ c1 <> [] /\ c2 <> [] /\ read_answer false [c1; c2] = Pending.
Proof. exact hangs. Qed.
Print Assumptions C43_hang_refuted.
