(* C41 - C43: exactly what the clients make of chunks of any size *)
From Verif Require Import Base VarInt Prims Props Codes Packets SpecCodec SpecRead SmolStream TokioRead SpecAnswer ReadCases AnswerFacts.

(* C41: run.  What happens depends on the sizes of the packets and of the chunks only ([handed], SpecAnswer.v). *)
Theorem C41_exact : forall chk chunks ps bs sizes buf fut, Forall2 sent ps bs -> Forall2 frame_sizes bs sizes -> chunks_ok chunks ->
  buf ++ concat chunks ++ fut = concat bs ->
  let (k, o) := handed chk (len buf) sizes chunks in
  match o with
  | None => smol_reads chk buf chunks = (firstn k ps, Panic)
  | Some n => exists kept, smol_reads chk buf chunks = (firstn k ps, Reading kept) /\ len kept = n /\
      concat (firstn k bs) ++ kept = buf ++ concat chunks
  end.
Proof. exact smol_exact. Qed.
Print Assumptions C41_exact.
Example C41_exact_case : let bs := [[64; 2; 0; 7]; [64; 2; 0; 8]] in let chunks := [[64; 2]; [0; 7; 64; 2; 0; 8]; [64]] in
  Forall2 sent [rc_ack 7; rc_ack 8] bs /\ Forall2 frame_sizes bs [(2, 2); (2, 2)] /\ chunks_ok chunks /\
  handed true 0 [(2, 2); (2, 2)] [[64; 2]; [0; 7; 64; 2; 0; 8]] = (1%nat, Some 4) /\
  handed true 0 [(2, 2); (2, 2)] [[64; 2; 0]; [7]] = (O, None) /\ handed false 0 [(2, 2); (2, 2)] [[64; 2; 0]; [7]] = (1%nat, Some 0).
Proof. exact handed_case. Qed.

(* C42: tokio.  [course_of] says from the sizes how many packets are read, and whether a drop loses bytes:
   then the client goes on with what it has not taken, as if the bytes it had taken had never been sent. *)
Theorem C42_exact : forall xs ps bs fut, Forall2 sent ps bs -> arrived xs ++ fut = concat bs ->
  match course_of 0 0 (map (@len N) bs) xs with
  | Reads k n m => exists g i, tokio_reads (TReader [] []) xs = (firstn k ps, Some (TReader g i)) /\ len g = n /\ len i = m /\
      concat (firstn k bs) ++ g ++ i = arrived xs
  | Loses k n m later => exists g i, len g = n /\ len i = m /\ g <> [] /\ concat (firstn k bs) ++ g ++ i ++ arrived later = arrived xs /\
      let (qs, o) := tokio_reads (TReader [] i) later in tokio_reads (TReader [] []) xs = (firstn k ps ++ qs, o)
  end.
Proof. exact course_exact. Qed.
Print Assumptions C42_exact.
Example C42_exact_case : let bs := [[64; 2; 0; 7]; [64; 2; 0; 8]] in let sizes := [4; 4] in
  Forall2 sent [rc_ack 7; rc_ack 8] bs /\ map (@len N) bs = sizes /\
  course_of 0 0 sizes [TArrive [64; 2; 0]; TDrop; TPoll; TArrive [7; 64]; TPoll; TDrop] = Reads 1 0 1 /\
  course_of 0 0 sizes [TArrive [64; 2; 0; 7; 64]; TPoll; TPoll; TArrive [2]; TDrop; TArrive [0; 8]] = Loses 1 1 1 [TArrive [0; 8]].
Proof. exact course_case. Qed.

(* C43: the answer to CONNECT.  [fate_of] says from the sizes whether it is read, and with which chunk. *)
Theorem C43_exact : forall chk p b f v body chunks fut tail, sent p b -> b = f :: v ++ body -> is_varint v -> chunks_ok chunks ->
  concat chunks ++ fut = b ++ tail -> len (concat chunks) < 2 ^ 64 ->
  match fate_of chk (1 + len v) (len body) chunks with
  | Received rest => exists buf, read_answer chk chunks = GotPacket p buf rest /\ b ++ buf ++ concat rest = concat chunks
  | Panics => read_answer chk chunks = Broken Panic
  | Waits => read_answer chk chunks = Pending
  end.
Proof. exact answer_exact. Qed.
Print Assumptions C43_exact.
Example C43_exact_case : sent rc_connack [32; 3; 0; 0; 0] /\ is_varint [3] /\
  (forall chk, fate_of chk 2 3 [[32]; [3; 0; 0; 0]; [1]] = Received [[1]]) /\ (forall chk, fate_of chk 2 3 [[32; 3]; [0; 0; 0]] = Received []) /\
  (forall chk, fate_of chk 2 3 [[32; 3]; [0; 0]; [0]] = Panics) /\ fate_of true 2 3 [[32; 3; 0; 0]; [0]] = Panics /\ fate_of false 2 3 [[32; 3; 0; 0]; [0]] = Waits.
Proof. exact fate_case. Qed.
