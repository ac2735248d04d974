(* Framing: what Packet::read does on arbitrary buffers; receivers; injectivity of the encoding *)
From Verif Require Import Base VarInt Prims Props Codes Packets SpecCodec BaseFacts VarIntFacts PrimFacts PropsFacts PacketFacts EncFacts CodecFacts GoodFacts SyncGood.

Lemma legal_first_ok b : b < 256 ->
  if legal_first b then exists t fl, from_first_byte b = Ok (t, fl) else from_first_byte b = Err (UnknownFixedHeader b).
Proof.
  intros H.
  pose (P := fun b => match from_first_byte b with
                      | Ok _ => legal_first b
                      | Err (UnknownFixedHeader v) => negb (legal_first b) && (v =? b)
                      | _ => false end).
  assert (S : P b = true) by (revert b H; apply (sweep P 256); vm_compute; reflexivity).
  unfold P in S. destruct (from_first_byte b) as [[t fl]|e|c]; [rewrite S; eauto| |discriminate].
  destruct e; try discriminate. apply andb_true_iff in S as [S1 S2]. apply N.eqb_eq in S2 as ->.
  apply negb_true_iff in S1. rewrite S1. reflexivity.
Qed.

Lemma read_varint_enc enc rest : is_varint enc ->
  read_varint_loop 4 0 0 0 (enc ++ rest) = ViOk (groups_value enc) (len enc) rest.
Proof.
  intros (i & l & -> & HF & Hl & H4). rewrite <- app_assoc. cbn [app].
  assert (L : (length i < 4)%nat) by (rewrite len_app in H4; unfold len in H4; cbn [length] in H4; lia).
  rewrite (read_varint_loop_spec i 4 l 0 0 0 _ HF Hl L). change (2 ^ (7 * 0)) with 1. f_equal; [lia|].
  rewrite len_app, (@len_cons N), (@len_nil N). lia.
Qed.
Lemma is_varint_len enc : is_varint enc -> 1 <= len enc.
Proof. intros (i & l & -> & _). rewrite len_app, (@len_cons N). lia. Qed.

Definition body_result (t : pkt_type) (fl rem : N) (body rest : bytes) : pread :=
  match read_body (FH t fl rem) body with
  | Ok (p, _) => RPacket p rest
  | Err e => RBad e rest
  | Crash c => RCrash c
  end.

Lemma read_complete first enc body rest t fl :
  from_first_byte first = Ok (t, fl) -> is_varint enc -> len body = groups_value enc ->
  read_packet (first :: enc ++ body ++ rest) = body_result t fl (groups_value enc) body rest.
Proof.
  intros HF HV HL. pose proof (is_varint_len enc HV) as H1. unfold read_packet, read_fixed_header.
  rewrite (@len_cons N), !len_app.
  match goal with |- context [?a <? 2] => replace (a <? 2) with false by lia end.
  rewrite HF. unfold read_rem_len. rewrite read_varint_enc by assumption. cbn [fh_rem].
  match goal with |- context [?a <? ?b] => replace (a <? b) with false by lia end.
  change (first :: enc ++ body ++ rest) with ((first :: enc) ++ body ++ rest).
  rewrite drop_app by (rewrite (@len_cons N); lia).
  cbv zeta. rewrite take_app, drop_app by congruence. reflexivity.
Qed.
Lemma read_incomplete first enc body t fl :
  from_first_byte first = Ok (t, fl) -> is_varint enc -> len body < groups_value enc ->
  read_packet (first :: enc ++ body) = RMore (groups_value enc - len body) (first :: enc ++ body).
Proof.
  intros HF HV HL. pose proof (is_varint_len enc HV) as H1. unfold read_packet, read_fixed_header.
  rewrite (@len_cons N), !len_app.
  match goal with |- context [?a <? 2] => replace (a <? 2) with false by lia end.
  rewrite HF. unfold read_rem_len. rewrite read_varint_enc by assumption. cbn [fh_rem].
  match goal with |- context [?a <? ?b] => replace (a <? b) with true by lia end.
  f_equal. lia.
Qed.
Lemma read_illegal first rest : from_first_byte first = Err (UnknownFixedHeader first) -> 1 <= len rest ->
  read_packet (first :: rest) = RBad (UnknownFixedHeader first) (first :: rest).
Proof.
  intros HF HL. unfold read_packet, read_fixed_header. rewrite (@len_cons N).
  match goal with |- context [?a <? 2] => replace (a <? 2) with false by lia end. now rewrite HF.
Qed.
Lemma read_long first init rest t fl : from_first_byte first = Ok (t, fl) ->
  Forall (fun b => 128 <= b < 256) init -> len init = 4 ->
  read_packet (first :: init ++ rest) = RBad MalformedPacket (first :: init ++ rest).
Proof.
  intros HF HI HL. unfold read_packet, read_fixed_header. rewrite (@len_cons N), len_app.
  match goal with |- context [?a <? 2] => replace (a <? 2) with false by lia end. rewrite HF.
  unfold read_rem_len. rewrite (read_varint_loop_long 4 init); [reflexivity|assumption|unfold len in HL; lia].
Qed.
Lemma read_short_header first init t fl : from_first_byte first = Ok (t, fl) ->
  Forall (fun b => 128 <= b < 256) init -> len init < 4 -> init <> [] ->
  read_packet (first :: init) = RMore 1 (first :: init).
Proof.
  intros HF HI HL HN. assert (1 <= len init) by (destruct init; [congruence|rewrite (@len_cons N); lia]).
  unfold read_packet, read_fixed_header. rewrite (@len_cons N).
  match goal with |- context [?a <? 2] => replace (a <? 2) with false by lia end. rewrite HF.
  unfold read_rem_len. rewrite (read_varint_loop_short 4 init); [reflexivity|assumption|unfold len in HL; lia].
Qed.

(* every buffer is of exactly one of these kinds *)
Inductive buf_kind : bytes -> Prop :=
| BkTiny buf : len buf < 2 -> buf_kind buf
| BkIllegal first rest : legal_first first = false -> 1 <= len rest -> buf_kind (first :: rest)
| BkLong first init rest : legal_first first = true -> Forall (fun b => 128 <= b < 256) init -> len init = 4 ->
    buf_kind (first :: init ++ rest)
| BkHeader first init : legal_first first = true -> Forall (fun b => 128 <= b < 256) init -> len init < 4 -> init <> [] ->
    buf_kind (first :: init)
| BkBody first enc body : legal_first first = true -> is_varint enc -> len body < groups_value enc ->
    buf_kind (first :: enc ++ body)
| BkFrame first enc body rest : legal_first first = true -> is_varint enc -> len body = groups_value enc ->
    buf_kind (first :: enc ++ body ++ rest).

Lemma high_bytes l : all_bytes l -> Forall (fun b => 128 <= b) l -> Forall (fun b => 128 <= b < 256) l.
Proof.
  intros H1 H2. induction l as [|b l IH]; [constructor|]. inversion H1; subst; inversion H2; subst. unfold is_byte in *.
  constructor; auto.
Qed.
Lemma buf_cases buf : all_bytes buf -> buf_kind buf.
Proof.
  intros Hb. destruct (N.ltb_spec (len buf) 2) as [H2|H2]; [now constructor|].
  destruct buf as [|first r]; [rewrite (@len_nil N) in H2; lia|]. rewrite (@len_cons N) in H2.
  destruct (legal_first first) eqn:EL; [|apply BkIllegal; [assumption|lia]].
  inversion Hb as [|? ? Hf Hr]; subst. pose proof (read_varint_loop_classify r Hr) as C.
  destruct (read_varint_loop 4 0 0 0 r) as [v n rest| |].
  - destruct C as (enc & HV & -> & _ & -> & _).
    destruct (N.ltb_spec (len rest) (groups_value enc)) as [HL|HL]; [now apply BkBody|].
    rewrite <- (take_drop rest (groups_value enc)). apply BkFrame; auto. apply len_take. lia.
  - destruct C as (init & rest & -> & HL & HF). apply all_bytes_app in Hr as [Hi _].
    apply BkLong; auto using high_bytes.
  - destruct C as (HF & HL). apply BkHeader; auto using high_bytes. intros ->. rewrite (@len_nil N) in H2. lia.
Qed.

Lemma frame_intro first enc body : is_varint enc -> len body = groups_value enc -> is_frame (first :: enc ++ body).
Proof. intros. exists first, enc, body. auto. Qed.

Lemma varint_prefix enc enc' r r' : is_varint enc -> is_varint enc' -> enc ++ r = enc' ++ r' -> enc = enc' /\ r = r'.
Proof.
  intros H1 H2 E. pose proof (read_varint_enc enc r H1) as A. pose proof (read_varint_enc enc' r' H2) as B.
  rewrite E in A. rewrite A in B. injection B as _ EL ->. split; [|reflexivity].
  now apply app_inv_tail in E.
Qed.
Lemma app_prefix_len {A} (a b c d : list A) : a ++ c = b ++ d -> len a = len b -> a = b /\ c = d.
Proof.
  intros E L. assert (HA : a = take (len a) (a ++ c)) by (now rewrite take_app). rewrite E, take_app in HA by assumption.
  subst. split; [reflexivity|]. now apply app_inv_head in E.
Qed.
Lemma frame_prefix f g r s : is_frame f -> is_frame g -> f ++ r = g ++ s -> f = g /\ r = s.
Proof.
  intros (a & e & b & -> & HV & HL) (a' & e' & b' & -> & HV' & HL') E. cbn [app] in E. rewrite <- !app_assoc in E.
  injection E as -> E. apply varint_prefix in E as [-> E]; auto. apply app_prefix_len in E as [-> ->]; [auto|congruence].
Qed.
(* an incomplete buffer is not the beginning of a frame followed by something *)
Lemma varint_no_short enc r init : is_varint enc -> Forall (fun b => 128 <= b < 256) init -> enc ++ r <> init.
Proof.
  intros (i & l & -> & _ & Hl & _) HF E. rewrite <- E in HF. rewrite <- app_assoc in HF. apply Forall_app in HF as [_ HF].
  cbn in HF. inversion HF; subst. lia.
Qed.

Lemma read_packet_det buf : all_bytes buf ->
  match read_packet buf with
  | RPacket p rest => exists f, buf = f ++ rest /\ is_frame f /\ packet_ok p /\ (forall r, read_packet (f ++ r) = RPacket p r)
  | RBad e rest =>
      (rest = buf /\ (forall r, read_packet (buf ++ r) = RBad e (buf ++ r))) \/
      (exists f, buf = f ++ rest /\ is_frame f /\ (forall r, read_packet (f ++ r) = RBad e r))
  | RMore n rest =>
      rest = buf /\ 1 <= n /\ (forall f r, buf = f ++ r -> is_frame f -> False) /\
      (forall t, is_frame (buf ++ t) -> n <= len t)
  | RCrash c => c = Panicked /\ (exists r, buf = 16 :: r) /\
      exists f rest, buf = f ++ rest /\ is_frame f /\ (forall r, read_packet (f ++ r) = RCrash c)
  end.
Proof.
  intros Hb. destruct (buf_cases buf Hb) as [buf HT|first rest HL H1|first init rest HL HF HI|first init HL HF HI HN|first enc body HL HV HB|first enc body rest HL HV HB].
  - unfold read_packet, read_fixed_header. replace (len buf <? 2) with true by lia. split; [reflexivity|]. split; [lia|]. split.
    + intros f r -> (a & e & b & -> & HV & _). apply is_varint_len in HV. rewrite len_app, (@len_cons N), len_app in HT. lia.
    + intros t (a & e & b & E & HV & _). apply is_varint_len in HV.
      assert (L : len (buf ++ t) = 1 + (len e + len b)) by (rewrite E, (@len_cons N), len_app; reflexivity).
      rewrite len_app in L. lia.
  - inversion Hb as [|? ? Hf Hr]; subst. pose proof (legal_first_ok first Hf) as L. rewrite HL in L.
    rewrite read_illegal by assumption. left. split; [reflexivity|]. intros r. cbn [app]. apply read_illegal; [assumption|].
    rewrite len_app. lia.
  - inversion Hb as [|? ? Hf Hr]; subst. pose proof (legal_first_ok first Hf) as L. rewrite HL in L. destruct L as (t & fl & L).
    rewrite (read_long first init rest t fl) by assumption. left. split; [reflexivity|]. intros r. cbn [app]. rewrite <- app_assoc.
    now apply (read_long first init (rest ++ r) t fl).
  - inversion Hb as [|? ? Hf Hr]; subst. pose proof (legal_first_ok first Hf) as L. rewrite HL in L. destruct L as (t & fl & L).
    rewrite (read_short_header first init t fl) by assumption. split; [reflexivity|]. split; [lia|]. split.
    + intros f r E (a & e & b & -> & HV & _). cbn [app] in E. injection E as _ E. rewrite <- app_assoc in E.
      symmetry in E. revert E. now apply varint_no_short.
    + intros s (a & e & b & E & HV & _). cbn [app] in E. injection E as _ E.
      destruct s; [|rewrite (@len_cons N); lia]. rewrite app_nil_r in E. symmetry in E. exfalso. revert E. now apply varint_no_short.
  - inversion Hb as [|? ? Hf Hr]; subst. pose proof (legal_first_ok first Hf) as L. rewrite HL in L. destruct L as (t & fl & L).
    rewrite (read_incomplete first enc body t fl) by assumption. split; [reflexivity|]. split; [lia|]. split.
    + intros f r E (a & e & b & -> & HV' & HB'). cbn [app] in E. injection E as -> E. rewrite <- app_assoc in E.
      apply varint_prefix in E as [-> E]; auto. rewrite E, len_app in HB. lia.
    + intros s (a & e & b & E & HV' & HB'). cbn [app] in E. injection E as -> E. rewrite <- app_assoc in E.
      apply varint_prefix in E as [-> E]; auto. rewrite <- HB', <- E, len_app. lia.
  - inversion Hb as [|? ? Hf Hr]; subst. pose proof (legal_first_ok first Hf) as L. rewrite HL in L. destruct L as (t & fl & L).
    rewrite (read_complete first enc body rest t fl) by assumption.
    apply all_bytes_app in Hr as [_ Hr]. apply all_bytes_app in Hr as [Hbody _].
    assert (R : forall r, read_packet ((first :: enc ++ body) ++ r) = body_result t fl (groups_value enc) body r).
    { intros r. cbn [app]. rewrite <- app_assoc. now apply read_complete. }
    assert (E : first :: enc ++ body ++ rest = (first :: enc ++ body) ++ rest) by (cbn [app]; now rewrite <- app_assoc).
    assert (FR : is_frame (first :: enc ++ body)) by (now apply frame_intro).
    pose proof (sgood_body (FH t fl (groups_value enc)) body Hbody) as G. cbn [fh_type] in G.
    unfold body_result in *. destruct (read_body (FH t fl (groups_value enc)) body) as [[p x]|e|c].
    + exists (first :: enc ++ body). destruct G as [_ G]. auto.
    + right. exists (first :: enc ++ body). auto.
    + destruct c; [|destruct G]. split; [reflexivity|]. split.
      * destruct t; try discriminate. assert (F : first = 16).
        { pose (P := fun b => match from_first_byte b with Ok (TConnect, _) => b =? 16 | _ => true end).
          assert (S : P first = true) by (revert first Hf Hb HL L E FR R; intros first Hf _ _ _ _ _ _; revert first Hf; apply (sweep P 256); vm_compute; reflexivity).
          unfold P in S. rewrite L in S. now apply N.eqb_eq in S. }
        rewrite F. eauto.
      * exists (first :: enc ++ body), rest. auto.
Qed.

(* a strict prefix of a frame *)
Lemma read_prefix pre t first : all_bytes (pre ++ t) -> is_frame (pre ++ t) -> t <> [] ->
  (exists r, pre ++ t = first :: r) -> legal_first first = true ->
  exists n, read_packet pre = RMore n pre /\ 1 <= n <= len t.
Proof.
  intros Hb HF HT (r & E) HL. pose proof Hb as Hb'. apply all_bytes_app in Hb' as [Hp _].
  pose proof (read_packet_det pre Hp) as D.
  assert (NF : forall f r, pre = f ++ r -> is_frame f -> False).
  { intros f r' -> HF'. rewrite <- app_assoc in HF. destruct (frame_prefix f (f ++ r' ++ t) (r' ++ t) []) as [_ C]; auto.
    - now rewrite app_nil_r.
    - apply app_eq_nil in C as [_ C]. congruence. }
  destruct (read_packet pre) as [p rest|e rest|n rest|c].
  - destruct D as (f & E1 & F1 & _). exfalso. eauto.
  - exfalso. destruct D as [[-> D]|(f & E1 & F1 & _)]; [|eauto].
    specialize (D t). destruct HF as (a & e' & b & E2 & HV & HB). rewrite E2 in D, E. injection E as -> E3.
    rewrite <- (app_nil_r b) in D. assert (Hf : first < 256) by (rewrite E2 in Hb; inversion Hb; assumption).
    pose proof (legal_first_ok first Hf) as L. rewrite HL in L. destruct L as (ty & fl & L).
    rewrite (read_complete first e' b [] ty fl) in D by assumption. unfold body_result in D.
    destruct (read_body _ b) as [[? ?]|?|?]; congruence.
  - destruct D as (-> & H1 & _ & H2). exists n. auto.
  - destruct D as (_ & _ & f & rest & E1 & F1 & _). exfalso. eauto.
Qed.

(* ---- receivers ---- *)

Lemma frame_len2 f : is_frame f -> (2 <= length f)%nat.
Proof. intros (a & e & b & -> & HV & _). apply is_varint_len in HV. unfold len in HV. cbn. rewrite app_length. lia. Qed.

Lemma drain_fuel : forall f f' buf, all_bytes buf -> (length buf < f)%nat -> (length buf < f')%nat -> drain_n f buf = drain_n f' buf.
Proof.
  induction f as [|f IH]; intros f' buf Hb H1 H2; [lia|]. destruct f' as [|f']; [lia|]. cbn [drain_n].
  pose proof (read_packet_det buf Hb) as D. destruct (read_packet buf) as [p rest|e rest|n rest|c]; try reflexivity.
  destruct D as (fr & -> & HF & _). apply frame_len2 in HF. apply all_bytes_app in Hb as [_ Hr]. rewrite app_length in *.
  rewrite (IH f'); auto; lia.
Qed.
Lemma drain_eq buf : all_bytes buf -> drain buf =
  match read_packet buf with
  | RPacket p rest => let (ps, o) := drain rest in (p :: ps, o)
  | RBad e _ => ([], Failed e)
  | RMore _ rest => ([], Waiting rest)
  | RCrash c => ([], Crashed c)
  end.
Proof.
  intros Hb. unfold drain at 1. cbn [drain_n]. pose proof (read_packet_det buf Hb) as D.
  destruct (read_packet buf) as [p rest|e rest|n rest|c]; try reflexivity.
  destruct D as (fr & -> & HF & _). apply frame_len2 in HF. apply all_bytes_app in Hb as [_ Hr]. rewrite app_length.
  unfold drain. rewrite (drain_fuel _ (S (length rest)) rest); auto; lia.
Qed.
Lemma drain_frame p f rest : all_bytes (f ++ rest) -> is_frame f -> read_packet (f ++ rest) = RPacket p rest ->
  drain (f ++ rest) = let (ps, o) := drain rest in (p :: ps, o).
Proof. intros Hb HF E. rewrite drain_eq by assumption. now rewrite E. Qed.

Definition continue (x : list packet * outcome) (t : bytes) : list packet * outcome :=
  match x with
  | (ps, Waiting b) => let (ps', o) := drain (b ++ t) in (ps ++ ps', o)
  | _ => x
  end.
Lemma drain_app_n : forall n b t, (length b <= n)%nat -> all_bytes (b ++ t) -> drain (b ++ t) = continue (drain b) t.
Proof.
  induction n as [|n IH]; intros b t Hn Hb; pose proof Hb as Hb'; apply all_bytes_app in Hb' as [Hb1 Ht].
  - destruct b; [|cbn in Hn; lia]. rewrite (drain_eq []) by constructor. cbn [read_packet continue app].
    change (read_packet []) with (RMore 2 []). cbn [continue app]. now destruct (drain t).
  - rewrite (drain_eq b) by assumption. pose proof (read_packet_det b Hb1) as D.
    destruct (read_packet b) as [p rest|e rest|m rest|c] eqn:ER.
    + destruct D as (f & -> & HF & _ & HR). rewrite <- app_assoc in *. rewrite drain_eq, HR by assumption.
      pose proof (frame_len2 _ HF). apply all_bytes_app in Hb as [_ Hb]. rewrite (IH rest t); [|rewrite app_length in Hn; lia|assumption].
      unfold continue. destruct (drain rest) as [ps [b'|e'|c']]; try reflexivity. destruct (drain (b' ++ t)); reflexivity.
    + cbn [continue]. rewrite drain_eq by assumption. destruct D as [[-> D]|(f & -> & HF & HR)].
      * now rewrite D.
      * rewrite <- app_assoc, HR. reflexivity.
    + destruct D as (-> & _). cbn [continue]. now destruct (drain (b ++ t)).
    + destruct D as (-> & _ & f & rest & -> & HF & HR). cbn [continue]. rewrite drain_eq by assumption.
      now rewrite <- app_assoc, HR.
Qed.
Lemma drain_app b t : all_bytes (b ++ t) -> drain (b ++ t) = continue (drain b) t.
Proof. now apply (drain_app_n (length b)). Qed.

Lemma drain_waiting_stable n : forall b ps r, (length b <= n)%nat -> all_bytes b -> drain b = (ps, Waiting r) ->
  all_bytes r /\ drain r = ([], Waiting r).
Proof.
  induction n as [|n IH]; intros b ps r Hn Hb E; rewrite drain_eq in E by assumption;
    pose proof (read_packet_det b Hb) as D; destruct (read_packet b) as [p rest|e rest|m rest|c] eqn:ER; try discriminate.
  - destruct D as (f & -> & HF & _). apply frame_len2 in HF. rewrite app_length in Hn. lia.
  - injection E as <- <-. destruct D as (-> & _). rewrite drain_eq, ER by assumption. auto.
  - destruct D as (f & -> & HF & _). apply frame_len2 in HF. rewrite app_length in Hn. apply all_bytes_app in Hb as [_ Hb].
    destruct (drain rest) as [ps' o] eqn:ED. injection E as <- ->. apply (IH rest ps'); auto. lia.
  - injection E as <- <-. destruct D as (-> & _). rewrite drain_eq, ER by assumption. auto.
Qed.

(* cutting into chunks does not matter *)
Lemma feed_drain : forall chunks buf, all_bytes (buf ++ concat chunks) -> drain buf = ([], Waiting buf) ->
  feed buf chunks = drain (buf ++ concat chunks).
Proof.
  induction chunks as [|c chunks IH]; intros buf Hb HW; cbn [feed concat].
  - now rewrite app_nil_r, HW.
  - cbn [concat] in Hb. rewrite app_assoc in *. rewrite (drain_app (buf ++ c)) by assumption. unfold continue.
    apply all_bytes_app in Hb as [Hb1 Hb2].
    destruct (drain (buf ++ c)) as [ps [b'|e|x]] eqn:ED; try reflexivity.
    destruct (drain_waiting_stable _ _ _ _ (le_n _) Hb1 ED) as [Hb' HW']. rewrite IH; auto.
    apply all_bytes_app. auto.
Qed.
Lemma feed_concat chunks : all_bytes (concat chunks) -> feed [] chunks = drain (concat chunks).
Proof. intros Hb. apply (feed_drain chunks []); [assumption|reflexivity]. Qed.
