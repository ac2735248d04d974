(* C07, C10, C12, C17, C18: exactly when *)
From Verif Require Import Base VarInt Prims Props Codes Packets SpecCodec Check Witness SpecLenient SpecPanic FrameFacts FrameMore LimitMore ExactFacts PanicFacts ExactMore.

(* C07.  [panics] (SpecPanic.v): a CONNECT whose frame ends inside the keep alive, or whose property
   section ends inside an integer of a fixed size. *)
Theorem C07_exact : forall s c, all_bytes s -> (read_packet s = RCrash c <-> c = Panicked /\ panics s).
Proof. exact decode_panics. Qed.
Print Assumptions C07_exact.
Example C07_exact_case : all_bytes panic_bytes /\ read_packet panic_bytes = RCrash Panicked /\ panics panic_bytes /\
  all_bytes [192; 0] /\ ~ panics [192; 0].
Proof. exact panic_case. Qed.

(* C10: the exclusions of C10_fragmentation_partial are exact *)
Theorem C10_exact : forall p, well_formed p -> w_err (write_packet p) = None ->
  ((forall chunks, concat chunks = w_bytes (write_packet p) -> feed [] chunks = ([p], Waiting [])) <->
   no_empty_auth p /\ not_short_ack p /\ no_will_pfi p).
Proof. exact fragmentation_exact. Qed.
Print Assumptions C10_exact.
Example C10_exact_case : well_formed s_connack /\ w_err (write_packet s_connack) = None /\
  well_formed w_short /\ w_err (write_packet w_short) = None /\ ~ not_short_ack w_short.
Proof. exact exact_case. Qed.

(* C12.  [plain p] is p without its authentication data if these are empty, p otherwise.  The stream
   writer leaves empty authentication data out; the buffer writer does so in AUTH only. *)
Theorem C12_stream_exact : forall p q, well_formed p -> well_formed q -> accepted Stream p -> accepted Stream q ->
  (bytes_of Stream p = bytes_of Stream q <-> plain p = plain q).
Proof. exact stream_same. Qed.
Print Assumptions C12_stream_exact.
Theorem C12_buffer_exact : forall p q, well_formed p -> well_formed q -> accepted Buffer p -> accepted Buffer q ->
  (bytes_of Buffer p = bytes_of Buffer q <-> p = q \/ type_of p = TAuth /\ plain p = plain q).
Proof. exact buffer_same. Qed.
Print Assumptions C12_buffer_exact.
Example C12_exact_case : well_formed w_empty_auth /\ well_formed (plain w_empty_auth) /\ plain w_empty_auth <> w_empty_auth /\
  (forall w, In w [Buffer; Stream] -> accepted w w_empty_auth /\ accepted w (plain w_empty_auth)) /\ type_of w_empty_auth = TAuth.
Proof. exact plain_case. Qed.

(* C17: the check accepts a request if and only if its topics fit and the packet without its fixed
   header - as MQTT 5 defines it - is no longer than the maximum. *)
Theorem C17_exact : forall max r body, rq_ok r -> spec_body (rq_packet r) body ->
  (rq_valid max r = None <-> Forall (fun t => len t <= 65535) (rq_topics r) /\ len body <= max).
Proof. exact valid_exact. Qed.
Print Assumptions C17_exact.
Example C17_exact_case : rq_ok w_pub_max /\ exists body, spec_body (rq_packet w_pub_max) body /\ len body = 10.
Proof. exact valid_case. Qed.

(* C18: an accepted request is read back if and only if it has a topic *)
Theorem C18_exact : forall max r, rq_ok r -> rq_valid max r = None -> max <= 268435455 ->
  let p := rq_packet r in
  ((forall rest, read_packet (w_bytes (write_packet p) ++ rest) = RPacket p rest) <-> rq_topics r <> []) /\
  ((forall rest, read_packet (w_bytes (awrite_packet p) ++ rest) = RPacket p rest) <-> rq_topics r <> []).
Proof. exact transmit_exact. Qed.
Print Assumptions C18_exact.
Example C18_exact_case : rq_ok w_pub_max /\ rq_valid 10 w_pub_max = None /\ rq_topics w_pub_max <> [] /\
  rq_ok no_topics /\ rq_valid 10 no_topics = None /\ rq_topics no_topics = [].
Proof. exact transmit_case. Qed.
