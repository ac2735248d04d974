(* Reason codes and fixed headers *)
From Verif Require Import Base VarInt Prims Props Codes Packets SpecCodec SpecCodes BaseFacts VarIntFacts PrimFacts PropsFacts PacketFacts EncFacts GoodFacts FrameFacts SectionFacts.

(* the crate's reason-code enum of a packet type *)
Definition codes_of (t : pkt_type) : list rc :=
  match t with
  | TConnAck => connack_codes | TPubAck => puback_codes | TPubRec => pubrec_codes | TPubRel => pubrel_codes
  | TPubComp => pubcomp_codes | TSubAck => suback_codes | TUnsubAck => unsuback_codes
  | TDisconnect => disconnect_codes | TAuth => auth_codes
  | _ => []
  end.

Lemma codes_spec t : map spec_rc (codes_of t) = spec_codes t.
Proof. now destruct t. Qed.
Lemma codes_nd t : NoDup (map spec_rc (codes_of t)).
Proof. apply nodupb_ok. now destruct t. Qed.

Lemma code_roundtrip t c r : In c (codes_of t) ->
  write_rc c = w_put [spec_rc c] /\
  read_rc (codes_of t) (spec_rc c :: r) = Ok (c, r) /\ aread_rc (codes_of t) (spec_rc c :: r) = AOk c 1 r.
Proof.
  intros H. split; [reflexivity|]. split; [apply read_rc_ok|apply aread_rc_ok]; auto using codes_nd.
Qed.
Lemma code_inj t c c' : In c (codes_of t) -> In c' (codes_of t) -> spec_rc c = spec_rc c' -> c = c'.
Proof.
  intros H H' E. pose proof (code_roundtrip t c [] H) as (_ & A & _). pose proof (code_roundtrip t c' [] H') as (_ & B & _).
  rewrite E in A. congruence.
Qed.
Lemma code_unknown t v r : ~ In v (spec_codes t) ->
  read_rc (codes_of t) (v :: r) = Err (UnknownProperty v) /\ aread_rc (codes_of t) (v :: r) = AErr (UnknownProperty v).
Proof.
  intros H. rewrite <- codes_spec in H. destruct (rc_from_u8_cases (codes_of t) v) as [(c & _ & Hin & E)|[E _]].
  - exfalso. apply H. rewrite <- E. now apply in_map.
  - split.
    + unfold read_rc. rewrite (@len_cons N). match goal with |- context [?a <? 1] => replace (a <? 1) with false by lia end.
      cbn [get_u8 bind]. now rewrite E.
    + unfold aread_rc. rewrite aread_u8_ok. cbn [abind]. now rewrite E.
Qed.
Lemma code_known t v r : In v (spec_codes t) -> exists c, In c (codes_of t) /\ spec_rc c = v /\
  read_rc (codes_of t) (v :: r) = Ok (c, r) /\ aread_rc (codes_of t) (v :: r) = AOk c 1 r.
Proof.
  intros H. rewrite <- codes_spec in H. apply in_map_iff in H as (c & E & Hin). exists c.
  split; [assumption|]. split; [assumption|]. subst v. now apply code_roundtrip.
Qed.

Lemma codes_ge_bad t c post : ~ In c (spec_codes t) -> forall cs fuel rem read, (length cs < fuel)%nat ->
  read + len cs < rem -> exists e, read_codes_ge fuel (codes_of t) rem read (cs ++ c :: post) = Err e.
Proof.
  intros HC. induction cs as [|x cs IH]; intros fuel rem read Hf Hr; (destruct fuel as [|fuel]; [lia|]); cbn [read_codes_ge app].
  - rewrite (@len_nil N) in Hr. replace (rem <=? read) with false by lia. rewrite (proj1 (code_unknown t c post HC)). cbn [bind]. eauto.
  - rewrite (@len_cons N) in Hr. replace (rem <=? read) with false by lia.
    destruct (read_rc_cases (codes_of t) x (cs ++ c :: post)) as [[y ->]|[e ->]]; cbn [bind]; [|eauto].
    destruct (IH fuel rem (read + 1)) as [e ->]; [cbn in Hf; lia|lia|]. cbn [bind]. eauto.
Qed.
Lemma codes_eq_bad t c post : ~ In c (spec_codes t) -> forall cs fuel rem read, (length cs < fuel)%nat ->
  read + len cs < rem -> exists e, read_codes_eq fuel (codes_of t) rem read (cs ++ c :: post) = Err e.
Proof.
  intros HC. induction cs as [|x cs IH]; intros fuel rem read Hf Hr; (destruct fuel as [|fuel]; [lia|]); cbn [read_codes_eq app].
  - rewrite (@len_nil N) in Hr. replace (read =? rem) with false by lia. rewrite (proj1 (code_unknown t c post HC)). cbn [bind]. eauto.
  - rewrite (@len_cons N) in Hr. replace (read =? rem) with false by lia.
    destruct (read_rc_cases (codes_of t) x (cs ++ c :: post)) as [[y ->]|[e ->]]; cbn [bind]; [|eauto].
    destruct (IH fuel rem (read + 1)) as [e ->]; [cbn in Hf; lia|lia|]. cbn [bind]. eauto.
Qed.
Lemma acodes_ge_bad t c post : ~ In c (spec_codes t) -> forall cs fuel rem read, (length cs < fuel)%nat ->
  read + len cs < rem -> exists e, aread_codes_ge fuel (codes_of t) rem read (cs ++ c :: post) = AErr e.
Proof.
  intros HC. induction cs as [|x cs IH]; intros fuel rem read Hf Hr; (destruct fuel as [|fuel]; [lia|]); cbn [aread_codes_ge app].
  - rewrite (@len_nil N) in Hr. replace (rem <=? read) with false by lia. rewrite (proj2 (code_unknown t c post HC)). cbn [abind]. eauto.
  - rewrite (@len_cons N) in Hr. replace (rem <=? read) with false by lia.
    destruct (aread_rc_cases (codes_of t) x (cs ++ c :: post)) as [[y ->]|[e ->]]; cbn [abind]; [|eauto].
    destruct (IH fuel rem (read + 1)) as [e ->]; [cbn in Hf; lia|lia|]. cbn [abind]. eauto.
Qed.
Lemma acodes_eq_bad t c post : ~ In c (spec_codes t) -> forall cs fuel rem read, (length cs < fuel)%nat ->
  read + len cs < rem -> exists e, aread_codes_eq fuel (codes_of t) rem read (cs ++ c :: post) = AErr e.
Proof.
  intros HC. induction cs as [|x cs IH]; intros fuel rem read Hf Hr; (destruct fuel as [|fuel]; [lia|]); cbn [aread_codes_eq app].
  - rewrite (@len_nil N) in Hr. replace (rem =? read) with false by lia. rewrite (proj2 (code_unknown t c post HC)). cbn [abind]. eauto.
  - rewrite (@len_cons N) in Hr. replace (rem =? read) with false by lia.
    destruct (aread_rc_cases (codes_of t) x (cs ++ c :: post)) as [[y ->]|[e ->]]; cbn [abind]; [|eauto].
    destruct (IH fuel rem (read + 1)) as [e ->]; [cbn in Hf; lia|lia|]. cbn [abind]. eauto.
Qed.

Lemma code_body t c first body : carries_code t c first body -> ~ In c (spec_codes t) ->
  exists fl, from_first_byte first = Ok (t, fl) /\
    (exists e, read_body (FH t fl (len body)) body = Err e) /\
    (forall rest, exists e, aread_body (FH t fl (len body)) (body ++ rest) = AErr e).
Proof.
  intros H HC. destruct H; exists 0; (split; [reflexivity|]); unfold read_body, aread_body; cbn [fh_type fh_rem]; split.
  - unfold read_connack. rewrite N.ltb_irrefl. cbn [app]. rewrite read_caflags_any. cbn [bind].
    pose proof (proj1 (code_unknown TConnAck c post HC)) as E. cbn [codes_of] in E. rewrite E. cbn. eauto.
  - intros rest. unfold aread_connack. cbn [app]. unfold aread_caflags. rewrite aread_u8_ok. cbn [abind].
    pose proof (proj2 (code_unknown TConnAck c (post ++ rest) HC)) as E. cbn [codes_of] in E. rewrite E. cbn. eauto.
  - assert (L : 3 <= len (spec_u16 i ++ [c] ++ post)) by (rewrite !len_app, spec_u16_len, (@len_cons N); lia).
    generalize dependent (len (spec_u16 i ++ [c] ++ post)). intros n L. unfold read_puback.
    replace (n <? 2) with false by lia. rewrite read_u16_ok by assumption. cbn [bind]. replace (n =? 2) with false by lia. cbn [app].
    pose proof (proj1 (code_unknown TPubAck c post HC)) as E. cbn [codes_of] in E. rewrite E. cbn. eauto.
  - assert (L : 3 <= len (spec_u16 i ++ [c] ++ post)) by (rewrite !len_app, spec_u16_len, (@len_cons N); lia).
    generalize dependent (len (spec_u16 i ++ [c] ++ post)). intros n L rest. unfold aread_puback. rewrite <- !app_assoc.
    replace (n <? 2) with false by lia. rewrite aread_u16_ok by assumption. cbn [abind]. replace (n =? 2) with false by lia. cbn [app].
    pose proof (proj2 (code_unknown TPubAck c (post ++ rest) HC)) as E. cbn [codes_of] in E. rewrite E. cbn. eauto.
  - assert (L : 3 <= len (spec_u16 i ++ [c] ++ post)) by (rewrite !len_app, spec_u16_len, (@len_cons N); lia).
    generalize dependent (len (spec_u16 i ++ [c] ++ post)). intros n L. unfold read_ack4.
    replace (n =? 2) with false by lia. destruct (n <? 4); [cbn; eauto|]. rewrite read_u16_ok by assumption. cbn [bind app].
    pose proof (proj1 (code_unknown TPubRec c post HC)) as E. cbn [codes_of] in E. rewrite E. cbn. eauto.
  - assert (L : 3 <= len (spec_u16 i ++ [c] ++ post)) by (rewrite !len_app, spec_u16_len, (@len_cons N); lia).
    generalize dependent (len (spec_u16 i ++ [c] ++ post)). intros n L rest. unfold aread_pubrec. rewrite <- !app_assoc.
    rewrite aread_u16_ok by assumption. cbn [abind]. replace (n =? 2) with false by lia. cbn [app].
    pose proof (proj2 (code_unknown TPubRec c (post ++ rest) HC)) as E. cbn [codes_of] in E. rewrite E. cbn. eauto.
  - assert (L : 3 <= len (spec_u16 i ++ [c] ++ post)) by (rewrite !len_app, spec_u16_len, (@len_cons N); lia).
    generalize dependent (len (spec_u16 i ++ [c] ++ post)). intros n L. unfold read_pubrel.
    replace (n =? 2) with false by lia. rewrite read_u16_ok by assumption. cbn [bind app].
    pose proof (proj1 (code_unknown TPubRel c post HC)) as E. cbn [codes_of] in E. rewrite E. destruct (n =? 3); cbn; eauto.
  - assert (L : 3 <= len (spec_u16 i ++ [c] ++ post)) by (rewrite !len_app, spec_u16_len, (@len_cons N); lia).
    generalize dependent (len (spec_u16 i ++ [c] ++ post)). intros n L rest. unfold aread_pubrel. rewrite <- !app_assoc.
    rewrite aread_u16_ok by assumption. cbn [abind]. replace (n =? 2) with false by lia. cbn [app].
    pose proof (proj2 (code_unknown TPubRel c (post ++ rest) HC)) as E. cbn [codes_of] in E. rewrite E. cbn. eauto.
  - assert (L : 3 <= len (spec_u16 i ++ [c] ++ post)) by (rewrite !len_app, spec_u16_len, (@len_cons N); lia).
    generalize dependent (len (spec_u16 i ++ [c] ++ post)). intros n L. unfold read_ack4.
    replace (n =? 2) with false by lia. destruct (n <? 4); [cbn; eauto|]. rewrite read_u16_ok by assumption. cbn [bind app].
    pose proof (proj1 (code_unknown TPubComp c post HC)) as E. cbn [codes_of] in E. rewrite E. cbn. eauto.
  - assert (L : 3 <= len (spec_u16 i ++ [c] ++ post)) by (rewrite !len_app, spec_u16_len, (@len_cons N); lia).
    generalize dependent (len (spec_u16 i ++ [c] ++ post)). intros n L rest. unfold aread_pubcomp. rewrite <- !app_assoc.
    rewrite aread_u16_ok by assumption. cbn [abind]. replace (n =? 2) with false by lia. destruct (n <? 4); [cbn; eauto|]. cbn [app].
    pose proof (proj2 (code_unknown TPubComp c (post ++ rest) HC)) as E. cbn [codes_of] in E. rewrite E. cbn. eauto.
  - unfold read_suback. rewrite read_u16_ok by assumption. cbn [bind].
    rewrite (read_section suback_cfg p) by (auto; try (now left); discriminate). cbn [bind app].
    rewrite (section_len_any suback_cfg p sec) by (auto; try (eapply auth_ok_undeclared; [eassumption|undeclared]); apply cfg_good_in; in_cfgs).
    edestruct (codes_ge_bad TSubAck c post HC cs) as [e E]; cycle 2; [cbn [codes_of] in E; rewrite E; cbn; eauto| |].
    + rewrite app_length. lia.
    + rewrite !len_app, spec_u16_len, (@len_cons N). lia.
  - intros rest. unfold aread_suback. rewrite <- !app_assoc. rewrite aread_u16_ok by assumption. cbn [abind].
    rewrite (aread_section suback_cfg p) by auto. cbn [abind app].
    edestruct (acodes_eq_bad TSubAck c (post ++ rest) HC cs) as [e E]; cycle 2; [cbn [codes_of] in E; rewrite E; cbn; eauto| |].
    + rewrite app_length. lia.
    + rewrite !len_app, spec_u16_len, (@len_cons N). lia.
  - unfold read_unsuback. rewrite read_u16_ok by assumption. cbn [bind].
    rewrite (read_section unsuback_cfg p) by (auto; try (now left); discriminate). cbn [bind app].
    rewrite (section_len_any unsuback_cfg p sec) by (auto; try (eapply auth_ok_undeclared; [eassumption|undeclared]); apply cfg_good_in; in_cfgs).
    edestruct (codes_eq_bad TUnsubAck c post HC cs) as [e E]; cycle 2; [cbn [codes_of] in E; rewrite E; cbn; eauto| |].
    + rewrite app_length. lia.
    + rewrite !len_app, spec_u16_len, (@len_cons N). lia.
  - intros rest. unfold aread_unsuback. rewrite <- !app_assoc. rewrite aread_u16_ok by assumption. cbn [abind].
    rewrite (aread_section unsuback_cfg p) by auto. cbn [abind app].
    edestruct (acodes_ge_bad TUnsubAck c (post ++ rest) HC cs) as [e E]; cycle 2; [cbn [codes_of] in E; rewrite E; cbn; eauto| |].
    + rewrite app_length. lia.
    + rewrite !len_app, spec_u16_len, (@len_cons N). lia.
  - unfold read_disconnect. cbn [app]. rewrite (@len_cons N). replace (_ =? 0) with false by lia.
    pose proof (proj1 (code_unknown TDisconnect c post HC)) as E. cbn [codes_of] in E. rewrite E. cbn. eauto.
  - intros rest. unfold aread_disconnect. cbn [app]. rewrite (@len_cons N). replace (_ =? 0) with false by lia.
    pose proof (proj2 (code_unknown TDisconnect c (post ++ rest) HC)) as E. cbn [codes_of] in E. rewrite E. cbn. eauto.
  - unfold read_auth. cbn [app].
    pose proof (proj1 (code_unknown TAuth c post HC)) as E. cbn [codes_of] in E. rewrite E. cbn. eauto.
  - intros rest. unfold aread_auth. cbn [app].
    pose proof (proj2 (code_unknown TAuth c (post ++ rest) HC)) as E. cbn [codes_of] in E. rewrite E. cbn. eauto.
Qed.

Lemma code_packet t c first body rest : carries_code t c first body -> ~ In c (spec_codes t) -> len body <= MAXVAR ->
  (exists e, read_packet (first :: spec_varint (len body) ++ body ++ rest) = RBad e rest) /\
  (exists e, aread_packet (first :: spec_varint (len body) ++ body ++ rest) = AErr e).
Proof.
  intros HC HN HL. destruct (code_body t c first body HC HN) as (fl & E & (e1 & S1) & S2). specialize (S2 rest) as (e2 & S2).
  destruct (spec_varint_is_varint (len body) HL) as [V1 V2]. split.
  - exists e1. rewrite (read_complete _ _ _ _ t fl) by (auto; now rewrite V2). unfold body_result. now rewrite V2, S1.
  - exists e2. unfold aread_packet, aread_fixed_header. rewrite aread_u8_ok. cbn [abind]. rewrite E.
    rewrite aread_varint_ok by assumption. cbn [abind]. exact S2.
Qed.

(* ---- fixed headers ---- *)

Definition pkt_type_eq_dec (a b : pkt_type) : {a = b} + {a <> b}.
Proof. decide equality. Defined.

Lemma header_exact b : b < 256 ->
  match spec_type (b / 16) with
  | Some t => if legal_first b then from_first_byte b = Ok (t, if b / 16 =? 3 then b mod 16 else 0)
              else from_first_byte b = Err (UnknownFixedHeader b)
  | None => legal_first b = false /\ from_first_byte b = Err (UnknownFixedHeader b)
  end.
Proof.
  intros H.
  pose (P := fun b => match spec_type (b / 16) with
    | Some t => if legal_first b
                then match from_first_byte b with
                     | Ok (t', fl) => (if pkt_type_eq_dec t t' then true else false) && (fl =? if b / 16 =? 3 then b mod 16 else 0)
                     | _ => false end
                else match from_first_byte b with Err (UnknownFixedHeader x) => x =? b | _ => false end
    | None => negb (legal_first b) && match from_first_byte b with Err (UnknownFixedHeader x) => x =? b | _ => false end
    end).
  assert (S : P b = true) by (apply (sweep P 256); [vm_compute; reflexivity|assumption]). unfold P in S.
  destruct (spec_type (b / 16)) as [t|].
  - destruct (legal_first b).
    + destruct (from_first_byte b) as [[t' fl]| |]; try discriminate. apply andb_prop in S as [S1 S2].
      destruct (pkt_type_eq_dec t t'); [|discriminate]. apply N.eqb_eq in S2. now subst.
    + destruct (from_first_byte b) as [|[]|]; try discriminate. apply N.eqb_eq in S. now subst.
  - apply andb_prop in S as [S1 S2]. split; [now destruct (legal_first b)|].
    destruct (from_first_byte b) as [|[]|]; try discriminate. apply N.eqb_eq in S2. now subst.
Qed.

Lemma illegal_refused b rest : b < 256 -> legal_first b = false ->
  (1 <= len rest -> read_packet (b :: rest) = RBad (UnknownFixedHeader b) (b :: rest)) /\
  aread_packet (b :: rest) = AErr (UnknownFixedHeader b).
Proof.
  intros H HL. pose proof (legal_first_ok b H) as L. rewrite HL in L. split.
  - intros HR. now apply read_illegal.
  - unfold aread_packet, aread_fixed_header. rewrite aread_u8_ok. cbn [abind]. now rewrite L.
Qed.

Lemma w_seq_starts a b x : (exists r, w_bytes a = x :: r) -> exists r, w_bytes (a >>> b) = x :: r.
Proof. intros (r & E). unfold w_seq. destruct (w_err a); cbn; rewrite E; eauto. cbn. eauto. Qed.
Lemma written_first p : (exists r, w_bytes (write_packet p) = spec_first p :: r) /\ (exists r, w_bytes (awrite_packet p) = spec_first p :: r).
Proof.
  rewrite <- first_byte_spec.
  split; (destruct p; try (cbn; eauto; fail); unfold write_packet, awrite_packet; repeat apply w_seq_starts; cbn; eauto).
Qed.
Lemma first_type p : spec_type (spec_first p / 16) = Some (type_of p).
Proof. destruct p; try reflexivity. cbn. destruct (pb_dup p), (pb_qos p), (pb_retain p); reflexivity. Qed.
