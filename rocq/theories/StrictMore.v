(* Strictness lemmas in the form of the properties *)
From Verif Require Import Base VarInt Prims Props Codes Packets SpecCodec SpecCodes BaseFacts Utf8Facts VarIntFacts PrimFacts PropsFacts PacketFacts EncFacts FrameFacts InjFacts SectionFacts CodeFacts Check Witness.

Lemma strict_sections s its first body rest :
  carries s its first body -> Forall spec_typed its -> len body <= 268435455 ->
  let b := first :: spec_varint (len body) ++ body ++ rest in
  let foreign := exists t v, In (t, v) its /\ spec_allowed s t = false /\ ~ (s = SSubAck /\ t = SubscriptionIdentifier) in
  let repeated t := spec_repeatable s t = false /\ (2 <= length (vals t its))%nat in
  (foreign \/ (exists t, repeated t) -> exists e, read_packet b = RBad e rest) /\
  (foreign \/ (exists t, repeated t /\ t <> SubscriptionIdentifier) -> exists e, aread_packet b = AErr e).
Proof. intros HC HT HL. cbv zeta. split; intros H; [eapply packet_refused|eapply packet_arefused]; eassumption. Qed.
Lemma strict_case : exists first body, carries SConnAck [(ReceiveMaximum, V16 3); (ReceiveMaximum, V16 3)] first body /\
  Forall spec_typed [(ReceiveMaximum, V16 3); (ReceiveMaximum, V16 3)] /\
  spec_repeatable SConnAck ReceiveMaximum = false /\ spec_allowed SConnAck ReceiveMaximum = true.
Proof.
  exists 32, ([0; 0] ++ spec_section [(ReceiveMaximum, V16 3); (ReceiveMaximum, V16 3)] ++ []).
  split; [constructor; reflexivity|]. split; [repeat constructor|]. split; reflexivity.
Qed.
Lemma strict_refuted_suback : exists its first body, carries SSubAck its first body /\ Forall spec_typed its /\
  (exists t v, In (t, v) its /\ spec_allowed SSubAck t = false) /\
  let b := first :: spec_varint (len body) ++ body in
  (exists p, read_packet b = RPacket p []) /\ (exists p n, aread_packet b = AOk p n []).
Proof.
  exists [(SubscriptionIdentifier, VVar 3)], 144, (spec_u16 7 ++ spec_section [(SubscriptionIdentifier, VVar 3)] ++ [0]).
  split; [constructor; reflexivity|]. split; [repeat constructor; vm_compute; discriminate|].
  split; [exists SubscriptionIdentifier, (VVar 3); split; [now left|reflexivity]|]. cbv zeta. split.
  - eexists. vm_compute. reflexivity.
  - eexists _, _. vm_compute. reflexivity.
Qed.
Lemma strict_refuted_subscribe : exists its first body, carries SSubscribe its first body /\ Forall spec_typed its /\
  spec_repeatable SSubscribe SubscriptionIdentifier = false /\ (2 <= length (vals SubscriptionIdentifier its))%nat /\
  (exists p n, aread_packet (first :: spec_varint (len body) ++ body) = AOk p n []).
Proof.
  pose (its := [(SubscriptionIdentifier, VVar 3); (SubscriptionIdentifier, VVar 4)]).
  exists its, 130, (spec_u16 7 ++ spec_section its ++ [0; 1; 97; 0]).
  split; [constructor; reflexivity|]. split; [repeat constructor; vm_compute; discriminate|].
  split; [reflexivity|]. split; [vm_compute; auto|]. eexists _, _. vm_compute. reflexivity.
Qed.

Definition tableb (s : section) (t : ptype) : bool := Bool.eqb (inb t (c_decl (cfg_of s))) (spec_allowed s t).
Lemma inb_in t l : In t l -> inb t l = true.
Proof. intros H. unfold inb. rewrite existsb_exists. exists t. split; [assumption|]. now apply ptype_eqb_eq. Qed.
Lemma tables_ok s t : s <> SSubAck -> (In t (c_decl (cfg_of s)) <-> spec_allowed s t = true).
Proof.
  intros HS. assert (E : tableb s t = true) by (destruct s; try contradiction; destruct t; reflexivity).
  apply eqb_prop in E. rewrite <- E. split; [apply inb_in|apply inb_ok].
Qed.
Lemma tables_refuted :
  (spec_allowed SSubAck ReasonString = true /\ ~ In ReasonString (c_decl (cfg_of SSubAck))) /\
  (spec_allowed SSubAck SubscriptionIdentifier = false /\ In SubscriptionIdentifier (c_decl (cfg_of SSubAck))) /\
  (exists its first body, carries SSubAck its first body /\ Forall spec_typed its /\
     (forall t v, In (t, v) its -> spec_allowed SSubAck t = true) /\
     exists e, read_packet (first :: spec_varint (len body) ++ body) = RBad e []).
Proof.
  split; [|split].
  - split; [reflexivity|]. intros H. apply inb_in in H. discriminate.
  - split; [reflexivity|]. apply inb_ok. reflexivity.
  - exists [(ReasonString, VStr s_abc)], 144, (spec_u16 7 ++ spec_section [(ReasonString, VStr s_abc)] ++ [0]).
    split; [constructor; reflexivity|]. split; [repeat constructor; apply strb_ok; reflexivity|]. split.
    + intros t v [E|[]]. injection E as <- <-. reflexivity.
    + eexists. vm_compute. reflexivity.
Qed.

Lemma write_rc_spec c : write_rc c = w_put [spec_rc c].
Proof. unfold write_rc. now rewrite rc_spec. Qed.
Lemma reason_codes t :
  (forall c rest, In c (codes_of t) -> exists v, v < 256 /\ write_rc c = w_put [v] /\
     read_rc (codes_of t) (v :: rest) = Ok (c, rest) /\ aread_rc (codes_of t) (v :: rest) = AOk c 1 rest) /\
  (forall c c', In c (codes_of t) -> In c' (codes_of t) -> write_rc c = write_rc c' -> c = c') /\
  (forall v rest, ~ In v (spec_codes t) -> exists e,
     read_rc (codes_of t) (v :: rest) = Err e /\ aread_rc (codes_of t) (v :: rest) = AErr e) /\
  (forall v first body rest, carries_code t v first body -> ~ In v (spec_codes t) -> len body <= 268435455 ->
     (exists e, read_packet (first :: spec_varint (len body) ++ body ++ rest) = RBad e rest) /\
     (exists e, aread_packet (first :: spec_varint (len body) ++ body ++ rest) = AErr e)).
Proof.
  split; [|split; [|split]].
  - intros c rest H. exists (spec_rc c). split; [apply rc_byte|]. now apply code_roundtrip.
  - intros c c' H H' E. rewrite !write_rc_spec in E. injection E as E. eapply code_inj; eassumption.
  - intros v rest H. exists (UnknownProperty v). now apply code_unknown.
  - intros v first body rest HC HN HL. now apply (code_packet t v).
Qed.
Lemma reason_case : In RQuotaExceeded (codes_of TPubRec) /\ ~ In 5 (spec_codes TPubRec) /\
  carries_code TPubRec 5 80 [0; 7; 5; 0].
Proof.
  split; [cbn; tauto|]. split; [cbn; intuition discriminate|]. apply (CcPubRec 7 5 [0]). reflexivity.
Qed.
Lemma reason_values t :
  (forall c, write_rc c = w_put [spec_rc c]) /\
  (forall v, In v (spec_codes t) <-> exists c rest, read_rc (codes_of t) (v :: rest) = Ok (c, rest) /\ spec_rc c = v) /\
  (forall v, In v (spec_codes t) <-> exists c rest, aread_rc (codes_of t) (v :: rest) = AOk c 1 rest /\ spec_rc c = v).
Proof.
  split; [exact write_rc_spec|]. split; intros v; split.
  - intros H. destruct (code_known t v [] H) as (c & _ & E & R & _). eauto.
  - intros (c & rest & R & E). destruct (in_dec N.eq_dec v (spec_codes t)) as [H|H]; [assumption|].
    destruct (code_unknown t v rest H) as [U _]. congruence.
  - intros H. destruct (code_known t v [] H) as (c & _ & E & _ & R). eauto.
  - intros (c & rest & R & E). destruct (in_dec N.eq_dec v (spec_codes t)) as [H|H]; [assumption|].
    destruct (code_unknown t v rest H) as [_ U]. congruence.
Qed.

Lemma fixed_headers :
  (forall b, b < 256 ->
     match spec_type (b / 16) with
     | Some t => if legal_first b then from_first_byte b = Ok (t, if b / 16 =? 3 then b mod 16 else 0)
                 else from_first_byte b = Err (UnknownFixedHeader b)
     | None => legal_first b = false /\ from_first_byte b = Err (UnknownFixedHeader b)
     end) /\
  (forall b rest, b < 256 -> legal_first b = false ->
     (1 <= len rest -> read_packet (b :: rest) = RBad (UnknownFixedHeader b) (b :: rest)) /\
     aread_packet (b :: rest) = AErr (UnknownFixedHeader b)) /\
  (forall p, (exists r, w_bytes (write_packet p) = spec_first p :: r) /\ (exists r, w_bytes (awrite_packet p) = spec_first p :: r) /\
     legal_first (spec_first p) = true /\ spec_type (spec_first p / 16) = Some (type_of p)) /\
  (forall p, type_of p = TPublish -> forall q, type_of q = TPublish -> spec_first p = spec_first q ->
     match p, q with
     | PPublish p, PPublish q => pb_dup p = pb_dup q /\ pb_qos p = pb_qos q /\ pb_retain p = pb_retain q
     | _, _ => False
     end).
Proof.
  split; [exact header_exact|]. split; [exact illegal_refused|]. split.
  - intros p. destruct (written_first p) as [A B]. auto using spec_first_legal, first_type.
  - intros [] H [] H' E; try discriminate. cbn in E.
    destruct (pb_dup p), (pb_dup p0), (pb_qos p), (pb_qos p0), (pb_retain p), (pb_retain p0); try discriminate E; auto.
Qed.

Lemma strings_utf8 s rest : len s <= 65535 ->
  (utf8 s -> read_str (spec_data s ++ rest) = Ok (s, rest) /\ aread_str (spec_data s ++ rest) = AOk s (2 + len s) rest) /\
  (~ utf8 s -> read_str (spec_data s ++ rest) = Err Utf8Error /\ aread_str (spec_data s ++ rest) = AErr Utf8Error).
Proof.
  intros L. split.
  - intros U. rewrite <- spec_data_len. split; [apply read_str_ok|apply aread_str_ok]; split; assumption.
  - intros U. assert (V : utf8_valid s = false) by (destruct (utf8_valid s) eqn:E; [exfalso; apply U; now apply utf8_spec|reflexivity]).
    unfold read_str, aread_str. rewrite read_bin_ok, aread_bin_ok by assumption. cbn [bind abind]. rewrite V. auto.
Qed.
Lemma utf8_case : utf8 [116; 47; 195; 169] /\ ~ utf8 [237; 160; 128].
Proof. split; [now apply utf8_spec|]. intros H. apply utf8_spec in H. discriminate. Qed.
