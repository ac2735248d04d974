(* C07 - C12: totality of decoding, framing, fragmentation, injectivity *)
From Verif Require Import Base VarInt Prims Props Codes Packets SpecCodec Check Witness FrameMore.

(* C07.  Full statement: the first conjunct for both decoders.  The only panics of the buffer decoder
   are in CONNECT, whose first byte is 16.  Running out of fuel would mean a loop. *)
Theorem C07_decode_total_partial : forall s, all_bytes s ->
  (forall c, aread_packet s <> ACrash c) /\
  read_packet s <> RCrash OutOfFuel /\
  (forall c, read_packet s = RCrash c -> exists r, s = 16 :: r).
Proof. exact decode_total. Qed.
Print Assumptions C07_decode_total_partial.
Example C07_case : all_bytes [224; 2; 0; 9; 1] /\ read_packet [224; 2; 0; 9; 1] = RBad (InsufficientData 0 9) [1].
Proof. split; [apply bytesb_ok; reflexivity|vm_compute; reflexivity]. Qed.
Theorem C07_refuted : exists s, all_bytes s /\ read_packet s = RCrash Panicked.
Proof. exact (ex_intro _ [16; 8; 0; 4; 77; 81; 84; 84; 5; 0] connect_panics). Qed.
Print Assumptions C07_refuted.

(* C08.  Full statement: without the exclusion of empty authentication data.  The second theorem is
   about every MQTT 5 encoding. *)
Theorem C08_truncated_partial : forall p pre t, well_formed p -> no_empty_auth p -> t <> [] ->
  (w_err (write_packet p) = None -> w_bytes (write_packet p) = pre ++ t ->
     exists n, read_packet pre = RMore n pre /\ 1 <= n <= len t) /\
  (no_assigned_id p -> w_err (awrite_packet p) = None -> w_bytes (awrite_packet p) = pre ++ t ->
     exists n, read_packet pre = RMore n pre /\ 1 <= n <= len t).
Proof. exact truncated_written. Qed.
Print Assumptions C08_truncated_partial.
Example C08_case : exists pre t, well_formed s_publish /\ no_empty_auth s_publish /\ t <> [] /\
  w_err (write_packet s_publish) = None /\ w_bytes (write_packet s_publish) = pre ++ t /\ len pre = 5.
Proof. exact truncated_case. Qed.
Theorem C08_every_encoding : forall p b pre t, packet_ok p -> encodes p b -> b = pre ++ t -> t <> [] ->
  exists n, read_packet pre = RMore n pre /\ 1 <= n <= len t.
Proof. exact CodecMore.truncated. Qed.
Print Assumptions C08_every_encoding.
Theorem C08_refuted : exists p pre t, well_formed p /\ t <> [] /\ w_err (write_packet p) = None /\
  w_bytes (write_packet p) = pre ++ t /\ ~ exists n, read_packet pre = RMore n pre.
Proof. exact truncated_refuted. Qed.
Print Assumptions C08_refuted.

(* C09 *)
Theorem C09_one_frame : forall buf, all_bytes buf ->
  (forall p rest, read_packet buf = RPacket p rest ->
     exists f, buf = f ++ rest /\ is_frame f /\ forall r, read_packet (f ++ r) = RPacket p r) /\
  (forall e rest, read_packet buf = RBad e rest ->
     (rest = buf /\ forall r, read_packet (buf ++ r) = RBad e (buf ++ r)) \/
     (exists f, buf = f ++ rest /\ is_frame f /\ forall r, read_packet (f ++ r) = RBad e r)) /\
  (forall n rest, read_packet buf = RMore n rest ->
     rest = buf /\ 1 <= n /\ (forall f r, buf = f ++ r -> ~ is_frame f) /\ (forall t, is_frame (buf ++ t) -> n <= len t)).
Proof. exact one_frame. Qed.
Print Assumptions C09_one_frame.
Example C09_case1 : read_packet ([64; 2; 0; 7] ++ [1; 2; 3]) = RPacket (PPubAck (Ack 7 RSuccess no_props)) [1; 2; 3].
Proof. vm_compute. reflexivity. Qed.
Example C09_case2 : exists e, read_packet ([64; 3; 0; 7; 5] ++ [1; 2; 3]) = RBad e [1; 2; 3].
Proof. eexists. vm_compute. reflexivity. Qed.
Example C09_case3 : read_packet [64; 3; 0] = RMore 2 [64; 3; 0].
Proof. vm_compute. reflexivity. Qed.

(* C10.  [feed [] chunks] appends each chunk to the buffer and reads packets until more data is asked
   for.  The first theorem is about arbitrary bytes: chunking is irrelevant.  The second is about
   written packets followed by a part of one more. *)
Theorem C10_chunks_irrelevant : forall chunks chunks', all_bytes (concat chunks) -> concat chunks = concat chunks' ->
  feed [] chunks = feed [] chunks'.
Proof. exact chunks_irrelevant. Qed.
Print Assumptions C10_chunks_irrelevant.
Theorem C10_fragmentation_partial : forall ps q pre t chunks,
  Forall (fun p => well_formed p /\ w_err (write_packet p) = None /\ no_empty_auth p /\ not_short_ack p /\ no_will_pfi p) (q :: ps) ->
  w_bytes (write_packet q) = pre ++ t -> t <> [] ->
  concat chunks = concat (map (fun p => w_bytes (write_packet p)) ps) ++ pre ->
  feed [] chunks = (ps, Waiting pre).
Proof. exact fragmentation. Qed.
Print Assumptions C10_fragmentation_partial.
Example C10_case :
  Forall (fun p => well_formed p /\ w_err (write_packet p) = None /\ no_empty_auth p /\ not_short_ack p /\ no_will_pfi p)
    [s_publish; s_connack; s_subscribe2] /\
  let b := w_bytes (write_packet s_connack) ++ w_bytes (write_packet s_subscribe2) ++ take 5 (w_bytes (write_packet s_publish)) in
  feed [] [take 1 b; take 17 (drop 1 b); []; drop 18 b] = ([s_connack; s_subscribe2], Waiting (take 5 (w_bytes (write_packet s_publish)))).
Proof. exact fragmentation_case. Qed.
Theorem C10_refuted : exists p, well_formed p /\ w_err (write_packet p) = None /\
  feed [] [w_bytes (write_packet p)] <> ([p], Waiting []).
Proof. exact fragmentation_refuted. Qed.
Print Assumptions C10_refuted.

(* C11 *)
Theorem C11_decoded_well_formed : forall s, all_bytes s ->
  (forall p rest, read_packet s = RPacket p rest -> packet_ok p) /\
  (forall p n rest, aread_packet s = AOk p n rest -> packet_ok p).
Proof. exact decoded_ok. Qed.
Print Assumptions C11_decoded_well_formed.
Example C11_case : let s := w_bytes (write_packet s_connect) in
  all_bytes s /\ read_packet s = RPacket s_connect [] /\ aread_packet s = AOk s_connect (body_len s_connect) [].
Proof. exact decoded_case. Qed.

(* C12.  [bytes_of w p] are the bytes either writer produces.  Full statement: without the exclusion
   of empty authentication data. *)
Theorem C12_injective_partial : forall w w' p q r,
  well_formed p -> no_empty_auth p -> accepted w p -> well_formed q -> no_empty_auth q -> accepted w' q ->
  bytes_of w' q = bytes_of w p ++ r -> p = q /\ r = [].
Proof. exact injective_written. Qed.
Print Assumptions C12_injective_partial.
Example C12_case : forall w, In w [Buffer; Stream] -> accepted w s_connack /\ well_formed s_connack /\ no_empty_auth s_connack.
Proof. exact injective_case. Qed.
Theorem C12_refuted : exists p q, well_formed p /\ well_formed q /\ p <> q /\ accepted Buffer p /\ accepted Buffer q /\
  bytes_of Buffer p = bytes_of Buffer q.
Proof. exact injective_refuted. Qed.
Print Assumptions C12_refuted.
