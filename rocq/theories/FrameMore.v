(* Framing lemmas in the form of the properties *)
From Verif Require Import Base VarInt Prims Props Codes Packets SpecCodec BaseFacts PacketFacts EncFacts CodecFacts GoodFacts FrameFacts InjFacts CodecMore Check Witness.

Lemma decode_total s : all_bytes s ->
  (forall c, aread_packet s <> ACrash c) /\ read_packet s <> RCrash OutOfFuel /\
  (forall c, read_packet s = RCrash c -> exists r, s = 16 :: r).
Proof.
  intros Hs. pose proof (good_packet s Hs) as G. unfold good_at in G. pose proof (read_packet_det s Hs) as D. split; [|split].
  - intros c E. rewrite E in G. contradiction.
  - intros E. rewrite E in D. destruct D as [D _]. discriminate.
  - intros c E. rewrite E in D. apply D.
Qed.
Lemma connect_panics : all_bytes [16; 8; 0; 4; 77; 81; 84; 84; 5; 0] /\
  read_packet [16; 8; 0; 4; 77; 81; 84; 84; 5; 0] = RCrash Panicked.
Proof. split; [apply bytesb_ok; reflexivity|vm_compute; reflexivity]. Qed.

Lemma truncated_written p pre t : well_formed p -> no_empty_auth p -> t <> [] ->
  (w_err (write_packet p) = None -> w_bytes (write_packet p) = pre ++ t ->
     exists n, read_packet pre = RMore n pre /\ 1 <= n <= len t) /\
  (no_assigned_id p -> w_err (awrite_packet p) = None -> w_bytes (awrite_packet p) = pre ++ t ->
     exists n, read_packet pre = RMore n pre /\ 1 <= n <= len t).
Proof.
  intros HW HN HT. split.
  - intros HE EB. eapply truncated; [apply HW|apply (sync_encodes p HW HE HN)|exact EB|exact HT].
  - intros HI HE EB. eapply truncated; [apply HW|apply (async_encodes p HW HE HN HI)|exact EB|exact HT].
Qed.
Lemma truncated_case : exists pre t, well_formed s_publish /\ no_empty_auth s_publish /\ t <> [] /\
  w_err (write_packet s_publish) = None /\ w_bytes (write_packet s_publish) = pre ++ t /\ len pre = 5.
Proof.
  exists (take 5 (w_bytes (write_packet s_publish))), (drop 5 (w_bytes (write_packet s_publish))).
  split; [ctriv|]. split; [ctriv|]. split; [vm_compute; discriminate|]. split; [ctriv|]. split; vm_compute; reflexivity.
Qed.
Lemma truncated_refuted : exists p pre t, well_formed p /\ t <> [] /\ w_err (write_packet p) = None /\
  w_bytes (write_packet p) = pre ++ t /\ ~ exists n, read_packet pre = RMore n pre.
Proof.
  exists w_empty_auth_connack, (take 9 (w_bytes (write_packet w_empty_auth_connack))), [22; 0; 0].
  split; [ctriv|]. split; [discriminate|]. split; [ctriv|]. split; [vm_compute; reflexivity|].
  intros (n & E). vm_compute in E. discriminate E.
Qed.

Lemma one_frame buf : all_bytes buf ->
  (forall p rest, read_packet buf = RPacket p rest ->
     exists f, buf = f ++ rest /\ is_frame f /\ forall r, read_packet (f ++ r) = RPacket p r) /\
  (forall e rest, read_packet buf = RBad e rest ->
     (rest = buf /\ forall r, read_packet (buf ++ r) = RBad e (buf ++ r)) \/
     (exists f, buf = f ++ rest /\ is_frame f /\ forall r, read_packet (f ++ r) = RBad e r)) /\
  (forall n rest, read_packet buf = RMore n rest ->
     rest = buf /\ 1 <= n /\ (forall f r, buf = f ++ r -> ~ is_frame f) /\ (forall t, is_frame (buf ++ t) -> n <= len t)).
Proof.
  intros Hb. pose proof (read_packet_det buf Hb) as D. split; [|split]; intros a b E; rewrite E in D.
  - destruct D as (f & A & B & _ & C). exists f. auto.
  - exact D.
  - destruct D as (A & B & C & F). split; [assumption|]. split; [assumption|]. split; [|assumption]. intros f r Ef Hf. eapply C; eassumption.
Qed.

Lemma chunks_irrelevant chunks chunks' : all_bytes (concat chunks) -> concat chunks = concat chunks' ->
  feed [] chunks = feed [] chunks'.
Proof. intros Hb E. rewrite !feed_concat; congruence. Qed.
Lemma fragmentation ps q pre t chunks :
  Forall (fun p => well_formed p /\ w_err (write_packet p) = None /\ no_empty_auth p /\ not_short_ack p /\ no_will_pfi p) (q :: ps) ->
  w_bytes (write_packet q) = pre ++ t -> t <> [] ->
  concat chunks = concat (map (fun p => w_bytes (write_packet p)) ps) ++ pre ->
  feed [] chunks = (ps, Waiting pre).
Proof.
  intros HF EB HT EC. inversion HF as [|? ? (A & B & C & D & E) HF']; subst.
  apply (feed_readable ps (map (fun p => w_bytes (write_packet p)) ps) chunks q (w_bytes (write_packet q)) pre t); auto.
  - clear - HF'. induction HF' as [|p ps (A & B & C & D & E) HF IH]; constructor; auto. now apply readable_written.
  - now apply readable_written.
Qed.
Lemma fragmentation_case :
  Forall (fun p => well_formed p /\ w_err (write_packet p) = None /\ no_empty_auth p /\ not_short_ack p /\ no_will_pfi p)
    [s_publish; s_connack; s_subscribe2] /\
  let b := w_bytes (write_packet s_connack) ++ w_bytes (write_packet s_subscribe2) ++ take 5 (w_bytes (write_packet s_publish)) in
  feed [] [take 1 b; take 17 (drop 1 b); []; drop 18 b] = ([s_connack; s_subscribe2], Waiting (take 5 (w_bytes (write_packet s_publish)))).
Proof.
  split; [|vm_compute; reflexivity]. apply Forall_forall. intros p H. pose proof (samples_sync p) as S. cbn [In] in *. intuition.
Qed.
Lemma fragmentation_refuted : exists p, well_formed p /\ w_err (write_packet p) = None /\
  feed [] [w_bytes (write_packet p)] <> ([p], Waiting []).
Proof. exists w_short. split; [ctriv|]. split; [ctriv|]. vm_compute. discriminate. Qed.

Lemma decoded_ok s : all_bytes s ->
  (forall p rest, read_packet s = RPacket p rest -> packet_ok p) /\
  (forall p n rest, aread_packet s = AOk p n rest -> packet_ok p).
Proof.
  intros Hs. pose proof (good_packet s Hs) as G. unfold good_at in G. pose proof (read_packet_det s Hs) as D. split.
  - intros p rest E. rewrite E in D. destruct D as (f & _ & _ & D & _). exact D.
  - intros p n rest E. rewrite E in G. apply G.
Qed.
Lemma decoded_case : let s := w_bytes (write_packet s_connect) in
  all_bytes s /\ read_packet s = RPacket s_connect [] /\ aread_packet s = AOk s_connect (body_len s_connect) [].
Proof. cbv zeta. split; [apply bytesb_ok; vm_compute; reflexivity|]. split; vm_compute; reflexivity. Qed.

(* the two writers *)
Inductive writer := Buffer | Stream.
Definition bytes_of (w : writer) (p : packet) : bytes := w_bytes (match w with Buffer => write_packet p | Stream => awrite_packet p end).
(* the writer accepts the packet; the stream writer only without an assigned client identifier (see C06) *)
Definition accepted (w : writer) (p : packet) : Prop :=
  match w with Buffer => w_err (write_packet p) = None | Stream => w_err (awrite_packet p) = None /\ no_assigned_id p end.
Lemma accepted_encodes w p : well_formed p -> no_empty_auth p -> accepted w p -> encodes p (bytes_of w p).
Proof. intros HW HN HA. destruct w; [now apply sync_encodes|destruct HA; now apply async_encodes]. Qed.
Lemma injective_written w w' p q r :
  well_formed p -> no_empty_auth p -> accepted w p -> well_formed q -> no_empty_auth q -> accepted w' q ->
  bytes_of w' q = bytes_of w p ++ r -> p = q /\ r = [].
Proof.
  intros HP NP AP HQ NQ AQ E. apply (encodes_inj p q (bytes_of w p)); [apply HP|apply HQ|now apply accepted_encodes|].
  rewrite <- E. now apply accepted_encodes.
Qed.
Lemma injective_case w : In w [Buffer; Stream] -> accepted w s_connack /\ well_formed s_connack /\ no_empty_auth s_connack.
Proof. intros [<-|[<-|[]]]; (split; [|split; [ctriv|ctriv]]); [vm_compute; reflexivity|split; vm_compute; reflexivity]. Qed.
Lemma injective_refuted : exists p q, well_formed p /\ well_formed q /\ p <> q /\ accepted Buffer p /\ accepted Buffer q /\
  bytes_of Buffer p = bytes_of Buffer q.
Proof.
  exists w_empty_auth, (PAuth (Disconnect RContinueAuthentication (mkp auth_cfg [(AuthenticationMethod, VStr [109])]))).
  split; [ctriv|]. split; [ctriv|]. split; [vm_compute; discriminate|]. split; [vm_compute; reflexivity|].
  split; vm_compute; reflexivity.
Qed.
