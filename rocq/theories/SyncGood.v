(* The buffer readers on arbitrary bytes: when they can panic, and what they return *)
From Verif Require Import Base VarInt Prims Props Codes Packets SpecCodec BaseFacts Utf8Facts VarIntFacts PrimFacts PropsFacts PacketFacts GoodFacts.

(* [pan]: a panic is possible; running out of fuel never is *)
Definition sgood {A} (pan : bool) (k : nat) (P : A -> Prop) (f : bytes -> res (A * bytes)) : Prop :=
  forall b, all_bytes b ->
  match f b with
  | Ok (a, r) => (exists c, b = c ++ r /\ (k <= length c)%nat) /\ P a
  | Err _ => True
  | Crash Panicked => pan = true
  | Crash OutOfFuel => False
  end.

Lemma sgood_bind {A B} pan k k' j (P : A -> Prop) (Q : B -> Prop) f (g : A -> bytes -> res (B * bytes)) :
  sgood pan k P f -> (forall a, P a -> sgood pan k' Q (g a)) -> (j <= k + k')%nat ->
  sgood pan j Q (fun b => bind (f b) (fun '(a, r) => g a r)).
Proof.
  intros HF HG HJ b Hb. specialize (HF b Hb). destruct (f b) as [[a r]|e|[]]; cbn [bind]; auto.
  destruct HF as ((c & -> & L) & Pa). apply all_bytes_app in Hb as [_ Hr].
  specialize (HG a Pa r Hr). destruct (g a r) as [[a' r']|e|[]]; auto.
  destruct HG as ((c' & -> & L') & Q'). split; [|assumption]. exists (c ++ c'). rewrite app_assoc.
  split; [reflexivity|]. rewrite app_length. lia.
Qed.
Lemma sgood_ret {A} pan (P : A -> Prop) a : P a -> sgood pan 0 P (fun b => Ok (a, b)).
Proof. intros Pa b _. split; [|assumption]. exists []. split; [reflexivity|cbn; lia]. Qed.
Lemma sgood_err {A} pan k (P : A -> Prop) (e : bytes -> derr) : sgood pan k P (fun b => Err (e b)).
Proof. intros b _. exact I. Qed.
Lemma sgood_weaken {A} pan pan' k k' (P Q : A -> Prop) f : sgood pan k P f -> (k' <= k)%nat -> (pan = true -> pan' = true) ->
  (forall a, P a -> Q a) -> sgood pan' k' Q f.
Proof.
  intros HF HK HP HQ b Hb. specialize (HF b Hb). destruct (f b) as [[a r]|e|[]]; auto.
  destruct HF as ((c & E & L) & Pa). split; [|auto]. exists c. split; [assumption|lia].
Qed.
Lemma sgood_if {A} pan k (P : A -> Prop) (t : bytes -> bool) f g :
  sgood pan k P f -> sgood pan k P g -> sgood pan k P (fun b => if t b then f b else g b).
Proof. intros HF HG b Hb. destruct (t b); [now apply HF|now apply HG]. Qed.
Lemma sgood_rmap {A B} pan k (P : A -> Prop) (Q : B -> Prop) (h : A -> B) f :
  sgood pan k P f -> (forall a, P a -> Q (h a)) -> sgood pan k Q (fun b => rmap h (f b)).
Proof. intros HF HQ b Hb. specialize (HF b Hb). destruct (f b) as [[a r]|e|[]]; cbn [rmap]; auto. destruct HF; auto. Qed.

Ltac sbind := eapply sgood_bind; [| |shelve].

Ltac two := intros b Hb; destruct b as [|x b]; [exact I|]; inversion Hb as [|? ? Hx Hb']; subst.

Lemma sgood_u8 pan : sgood pan 1 (fun n => n < 256) read_u8.
Proof.
  intros [|a b] Hb; [exact I|]. inversion Hb; subst. unfold read_u8. replace (len (a :: b) <? 1) with false by (rewrite (@len_cons N); lia).
  cbn [get_u8]. split; [|assumption]. exists [a]. split; [reflexivity|cbn; lia].
Qed.
Lemma sgood_u16 pan : sgood pan 2 (fun n => n < 65536) read_u16.
Proof.
  intros b Hb. unfold read_u16. destruct (len b <? 2) eqn:E; [exact I|]. unfold len in E.
  destruct b as [|x [|y b]]; try (cbn in E; lia). inversion Hb as [|? ? Hx H1]; subst. inversion H1 as [|? ? Hy H2]; subst.
  cbn [get_u16]. unfold is_byte in *. split; [|lia]. exists [x; y]. split; [reflexivity|cbn; lia].
Qed.
Lemma sgood_u32 pan : sgood pan 4 (fun n => n < 4294967296) read_u32.
Proof.
  intros b Hb. unfold read_u32. destruct (len b <? 4) eqn:E; [exact I|]. unfold len in E.
  destruct b as [|x [|y [|z [|w b]]]]; try (cbn in E; lia). inversion Hb as [|? ? Hx H1]; subst. inversion H1 as [|? ? Hy H2]; subst.
  inversion H2 as [|? ? Hz H3]; subst. inversion H3 as [|? ? Hw H4]; subst.
  cbn [get_u32]. unfold is_byte in *. split; [|lia]. exists [x; y; z; w]. split; [reflexivity|cbn; lia].
Qed.
Lemma sgood_get8 : sgood true 1 (fun n => n < 256) get_u8.
Proof. intros [|a b] Hb; [reflexivity|]. inversion Hb; subst. split; [|assumption]. exists [a]. split; [reflexivity|cbn; lia]. Qed.
Lemma sgood_get16 : sgood true 2 (fun n => n < 65536) get_u16.
Proof.
  intros [|x [|y b]] Hb; try reflexivity. inversion Hb as [|? ? Hx H1]; subst. inversion H1 as [|? ? Hy H2]; subst.
  cbn [get_u16]. unfold is_byte in *. split; [|lia]. exists [x; y]. split; [reflexivity|cbn; lia].
Qed.
Lemma sgood_get32 : sgood true 4 (fun n => n < 4294967296) get_u32.
Proof.
  intros [|x [|y [|z [|w b]]]] Hb; try reflexivity. inversion Hb as [|? ? Hx H1]; subst. inversion H1 as [|? ? Hy H2]; subst.
  inversion H2 as [|? ? Hz H3]; subst. inversion H3 as [|? ? Hw H4]; subst.
  cbn [get_u32]. unfold is_byte in *. split; [|lia]. exists [x; y; z; w]. split; [reflexivity|cbn; lia].
Qed.
Lemma sgood_bin pan : sgood pan 2 bin_ok read_bin.
Proof.
  intros b Hb. unfold read_bin. destruct (len b <? 2) eqn:E; [exact I|]. unfold len in E.
  destruct b as [|x [|y b]]; try (cbn in E; lia). inversion Hb as [|? ? Hx H1]; subst. inversion H1 as [|? ? Hy H2]; subst.
  cbn [get_u16 bind]. unfold is_byte in *. destruct (len b <? x * 256 + y) eqn:E2; [exact I|].
  split.
  - exists (x :: y :: take (x * 256 + y) b). cbn [app]. rewrite take_drop. split; [reflexivity|cbn; lia].
  - split; [now apply all_bytes_take|]. rewrite len_take by lia. lia.
Qed.
Lemma sgood_str pan : sgood pan 2 str_ok read_str.
Proof.
  unfold read_str. eapply (sgood_bind _ 2 0); [apply sgood_bin| |lia]. cbv beta. intros s [H1 H2].
  destruct (utf8_valid s) eqn:E; [|apply sgood_err]. apply sgood_ret. now apply str_ok_intro.
Qed.
Lemma one_byte {A} pan (P : A -> Prop) (g : N -> res A) :
  (forall v, v < 256 -> (exists a, g v = Ok a /\ P a) \/ (exists e, g v = Err e)) ->
  sgood pan 1 P (fun b => if len b <? 1 then Err (InsufficientData 0 1) else let* (v, r) := get_u8 b in let* o := g v in Ok (o, r)).
Proof.
  intros HG [|a b] Hb; [exact I|]. inversion Hb; subst. replace (len (a :: b) <? 1) with false by (rewrite (@len_cons N); lia).
  cbn [get_u8 bind]. destruct (HG a) as [(o & -> & Ho)|(e & ->)]; [assumption| |exact I].
  cbn [bind]. split; [|assumption]. exists [a]. split; [reflexivity|cbn; lia].
Qed.
Lemma sgood_qos pan : sgood pan 1 (fun _ => True) read_qos.
Proof. apply one_byte. intros v _. destruct (qos_from_u8_cases v) as [[q H]|[e H]]; eauto. Qed.
Lemma sgood_bool pan : sgood pan 1 (fun _ => True) read_bool.
Proof.
  intros [|a b] Hb; [exact I|]. unfold read_bool. replace (len (a :: b) <? 1) with false by (rewrite (@len_cons N); lia).
  cbn [get_u8 bind].
  assert (exists c, a :: b = c ++ b /\ (1 <= length c)%nat) by (exists [a]; split; [reflexivity|cbn; lia]).
  destruct (a =? 0); [auto|]. destruct (a =? 1); [auto|exact I].
Qed.
Lemma sgood_ptype pan : sgood pan 1 (fun _ => True) read_ptype.
Proof. apply one_byte. intros v _. destruct (ptype_from_u8_cases v) as [[q H]|H]; eauto. Qed.
Lemma sgood_rc pan tbl : sgood pan 1 (code_ok tbl) (read_rc tbl).
Proof. apply one_byte. intros v _. destruct (rc_from_u8_cases tbl v) as [(c & H & Hin & _)|[H _]]; eauto. Qed.
Lemma sgood_cflags pan : sgood pan 1 (fun _ => True) read_cflags.
Proof. apply one_byte. intros v _. destruct (cflags_from_u8_cases v) as [[q H]|[e H]]; eauto. Qed.
Lemma sgood_sopts pan : sgood pan 1 (fun _ => True) read_sopts.
Proof. apply one_byte. intros v _. destruct (sopts_from_u8_cases v) as [[q H]|[e H]]; eauto. Qed.

Definition read_varint' (b : bytes) : res (N * bytes) := let* (v, _, r) := read_varint b in Ok (v, r).
Lemma sgood_varint pan : sgood pan 1 (fun n => n <= MAXVAR) read_varint'.
Proof.
  intros b Hb. unfold read_varint', read_varint. pose proof (read_varint_loop_classify b Hb) as C.
  destruct (read_varint_loop 4 0 0 0 b) as [v n r| |] eqn:E; cbn [bind]; auto.
  destruct C as (enc & HV & -> & -> & -> & HM). split; [|assumption].
  exists enc. split; [reflexivity|]. destruct HV as (i & l & -> & _). rewrite app_length. cbn. lia.
Qed.

Lemma sgood_val u k : sgood u 1 (kv_ok k) (read_val u k).
Proof.
  assert (W : forall A (h : A -> pval) j (P : A -> Prop) f, (1 <= j)%nat -> sgood u j P f -> (forall a, P a -> kv_ok k (h a)) ->
     sgood u 1 (kv_ok k) (fun b => let* (v, r) := f b in Ok (h v, r))).
  { intros A h j P f Hj HF HK. eapply (sgood_bind _ j 0); [exact HF| |lia]. intros a Pa. apply sgood_ret. auto. }
  destruct k; cbn [read_val].
  - destruct u; (eapply W; [|apply sgood_u8 || apply sgood_get8|]; [lia|split; cbn; auto]).
  - destruct u; (eapply W; [|apply sgood_u16 || apply sgood_get16|]; [lia|split; cbn; auto]).
  - destruct u; (eapply W; [|apply sgood_u32 || apply sgood_get32|]; [lia|split; cbn; auto]).
  - intros b Hb. pose proof (sgood_varint u b Hb) as G. cbn [read_val]; unfold read_varint' in G.
    destruct (read_varint b) as [[[v n] r]|e|[]]; cbn [bind] in *; auto. destruct G as [G1 G2]. split; [assumption|split; cbn; auto].
  - eapply W; [|apply sgood_str|]; [lia|split; cbn; auto].
  - eapply W; [|apply sgood_bin|]; [lia|split; cbn; auto].
  - eapply W; [|apply sgood_qos|]; [lia|split; cbn; auto].
  - eapply W; [|apply sgood_bool|]; [lia|split; cbn; auto].
  - eapply (sgood_bind _ 2 2); [apply sgood_str| |lia]. intros x Hx.
    eapply (sgood_bind _ 2 0); [apply sgood_str| |lia]. intros y Hy. apply sgood_ret. split; cbn; auto.
Qed.

Lemma loop_good cfg : forall f p b, all_bytes b -> (length b < f)%nat -> props_ok cfg p ->
  match read_props_loop f cfg p b with
  | Ok (p', r) => (exists c, b = c ++ r) /\ props_ok cfg p' /\ r = []
  | Err _ => True
  | Crash Panicked => c_unchecked cfg = true
  | Crash OutOfFuel => False
  end.
Proof.
  induction f as [|f IH]; intros p b Hb HL HP; [lia|]. cbn [read_props_loop].
  pose proof (sgood_ptype false b Hb) as G. destruct (read_ptype b) as [[t r]|e|[]]; cbn [bind]; auto; [|discriminate].
  destruct G as ((c & -> & L) & _). apply all_bytes_app in Hb as [_ Hr].
  destruct (declares cfg t) eqn:HD; cbn [negb]; [|exact I]. destruct (is_dup cfg t p); [exact I|].
  pose proof (sgood_val (c_unchecked cfg) (kind_of t) r Hr) as G.
  destruct (read_val (c_unchecked cfg) (kind_of t) r) as [[v r']|e|[]]; cbn [bind]; auto.
  destruct G as ((c' & -> & L') & Hv). apply all_bytes_app in Hr as [_ Hr']. cbv zeta.
  pose proof (store_ok cfg t v p HP HD Hv) as HP'.
  destruct (len r' =? 0) eqn:E.
  - split; [exists (c ++ c'); now rewrite app_assoc|]. split; [assumption|]. apply N.eqb_eq in E. unfold len in E.
    destruct r'; [reflexivity|cbn in E; lia].
  - rewrite !app_length in HL. specialize (IH (store cfg t v p) r' Hr').
    destruct (read_props_loop f cfg (store cfg t v p) r') as [[p' r'']|e|[]]; try (apply IH; [lia|assumption]).
    destruct IH as ((c2 & ->) & HP'' & E2); [lia|assumption|]. split; [|auto]. exists (c ++ c' ++ c2). now rewrite <- !app_assoc.
Qed.

Lemma sgood_props cfg : sgood (c_unchecked cfg) 1 (props_ok cfg) (read_props cfg).
Proof.
  intros b Hb. unfold read_props. pose proof (sgood_varint false b Hb) as G. unfold read_varint' in G.
  destruct (read_varint b) as [[[n l] r]|e|[]]; cbn [bind] in *; auto; [|discriminate].
  destruct G as ((c & -> & L) & _). apply all_bytes_app in Hb as [_ Hr].
  destruct (n =? 0). { split; [exists c; auto|apply no_props_ok]. }
  destruct (len r <? n) eqn:E; [exact I|]. cbv zeta.
  set (data := if c_split cfg then take n r else r).
  assert (Hd : all_bytes data) by (unfold data; destruct (c_split cfg); [now apply all_bytes_take|assumption]).
  pose proof (loop_good cfg (S (length data)) no_props data Hd) as G.
  destruct (read_props_loop (S (length data)) cfg no_props data) as [[p r']|e|[]]; cbn [bind]; try (apply G; [lia|apply no_props_ok]).
  destruct G as ((c' & E1) & HP & E2); [lia|apply no_props_ok|].
  destruct (post_check cfg p); [|exact I]. split; [|assumption]. unfold data in E1. destruct (c_split cfg).
  - exists (c ++ take n r). rewrite <- app_assoc, take_drop. split; [reflexivity|]. rewrite app_length. lia.
  - exists (c ++ c'). rewrite <- app_assoc, <- E1. split; [reflexivity|]. rewrite app_length. lia.
Qed.
Lemma sgood_props_np cfg pan : c_unchecked cfg = false -> sgood pan 1 (props_ok cfg) (read_props cfg).
Proof. intros H. eapply sgood_weaken; [apply sgood_props|lia| |auto]. rewrite H. discriminate. Qed.

(* ---- packets ---- *)

Ltac sb k k' L := eapply (sgood_bind _ k k'); [L| |lia]; cbv beta.

Lemma sgood_will pan q rt : sgood pan 0 will_ok (read_will q rt).
Proof.
  unfold read_will. sb 1%nat 4%nat ltac:(apply sgood_props_np; reflexivity). intros p HP.
  sb 2%nat 2%nat ltac:(apply sgood_str). intros t HT. sb 2%nat 0%nat ltac:(apply sgood_bin). intros d HD.
  apply sgood_ret. split; [exact HP|split; [exact HT|exact HD]].
Qed.
Lemma sgood_opt_str pan x : sgood pan 0 (opt_ok str_ok) (read_opt_str x).
Proof.
  unfold read_opt_str. destruct x; [|now apply sgood_ret]. sb 2%nat 0%nat ltac:(apply sgood_str). intros s Hs. now apply sgood_ret.
Qed.
Lemma sgood_connect : sgood true 0 (fun c => packet_ok (PConnect c)) read_connect.
Proof.
  unfold read_connect. sb 2%nat 0%nat ltac:(apply sgood_bin). intros name _.
  destruct (negb (bytes_eqb name mqtt_name)); [apply (sgood_err _ _ _ (fun _ => MalformedPacketWithInfo))|].
  assert (PV : sgood true 0 (fun _ : unit => True) (fun b => let* r := read_protocol_version b in Ok (tt, r))).
  { intros [|x b] Hb; [exact I|]. unfold read_protocol_version.
    replace (len (x :: b) <? 1) with false by (rewrite (@len_cons N); lia). cbn [get_u8 bind].
    destruct (x =? 3); [exact I|]. destruct (x =? 4); [exact I|]. destruct (x =? 5); [|exact I]. cbn [bind].
    split; [|exact I]. exists [x]. split; [reflexivity|cbn; lia]. }
  match goal with |- sgood _ _ _ (fun r => bind _ (fun b => @?g b)) =>
    assert (R : sgood true 0 (fun c => packet_ok (PConnect c)) g) end.
  { sb 1%nat 0%nat ltac:(apply sgood_cflags). intros f _. sb 2%nat 0%nat ltac:(apply sgood_get16). intros ka Hka.
    sb 1%nat 0%nat ltac:(apply sgood_props). intros p HP. sb 2%nat 0%nat ltac:(apply sgood_str). intros cid HC.
    eapply (sgood_bind _ 0 0 _ (opt_ok will_ok)); [| |lia].
    - destruct (cf_will f); [|now apply sgood_ret]. sb 0%nat 0%nat ltac:(apply sgood_will). intros w Hw. now apply sgood_ret.
    - intros w HW. sb 0%nat 0%nat ltac:(apply sgood_opt_str). intros u HU. sb 0%nat 0%nat ltac:(apply sgood_opt_str). intros pw HPw.
      apply sgood_ret. cbn. repeat (split; [assumption|]). assumption. }
  intros b Hb. specialize (PV b Hb). cbv beta in PV. destruct (read_protocol_version b) as [r|e|[]]; cbn [bind] in *; auto.
  destruct PV as ((c & -> & _) & _). apply all_bytes_app in Hb as [_ Hr]. specialize (R r Hr). cbv beta in R.
  match goal with |- match ?X with _ => _ end => destruct X as [[a r']|e|[]] end; auto.
  destruct R as ((c' & -> & _) & R). split; [|assumption]. exists (c ++ c'). rewrite app_assoc. split; [reflexivity|lia].
Qed.
Lemma sgood_connack rem : sgood false 0 (fun c => packet_ok (PConnAck c)) (read_connack rem).
Proof.
  unfold read_connack. apply sgood_if; [apply (sgood_err _ _ _ (fun b => InsufficientData (len b) rem))|].
  sb 1%nat 0%nat ltac:(apply one_byte with (P := fun _ => True) (g := fun v => Ok (N.land v 1 =? 1)); eauto). intros f _.
  sb 1%nat 0%nat ltac:(apply sgood_rc). intros c HC.
  sb 1%nat 0%nat ltac:(apply sgood_props_np; reflexivity). intros p HP. apply sgood_ret. split; assumption.
Qed.
Lemma sgood_publish flags : sgood false 0 (fun p => packet_ok (PPublish p)) (read_publish flags).
Proof.
  unfold read_publish. destruct (qos_from_u8_cases (N.shiftr (N.land flags 6) 1)) as [[q ->]|[e ->]]; cbn [bind];
    [|apply (sgood_err _ _ _ (fun _ => e))].
  sb 2%nat 0%nat ltac:(apply sgood_str). intros t HT.
  eapply (sgood_bind _ 0 0 _ (fun o => opt_ok (fun i => i < 65536) o /\ (o = None <-> q = AtMostOnce))); [| |lia].
  - destruct q; cbn [qos_eqb].
    + apply sgood_ret. split; [exact I|tauto].
    + sb 2%nat 0%nat ltac:(apply sgood_u16). intros i Hi. apply sgood_ret. split; [assumption|split; discriminate].
    + sb 2%nat 0%nat ltac:(apply sgood_u16). intros i Hi. apply sgood_ret. split; [assumption|split; discriminate].
  - intros o (HO & HQ). sb 1%nat 0%nat ltac:(apply sgood_props_np; reflexivity). intros p HP.
    intros b Hb. split; [exists b; rewrite app_nil_r; split; [reflexivity|lia]|].
    split; [assumption|]. split; [assumption|]. split; [assumption|]. split; assumption.
Qed.
Ltac sack := apply sgood_ret; split; [assumption|]; split; [first [assumption|now left]|first [assumption|apply no_props_ok]].
Lemma sgood_puback rem : sgood false 0 (ack_ok puback_codes puback_cfg) (read_puback rem).
Proof.
  unfold read_puback. destruct (rem <? 2); [apply (sgood_err _ _ _ (fun b => InsufficientData (len b) 2))|].
  sb 2%nat 0%nat ltac:(apply sgood_u16). intros i Hi. destruct (rem =? 2); [sack|].
  sb 1%nat 0%nat ltac:(apply sgood_rc). intros c HC. destruct (rem =? 3); [sack|].
  sb 1%nat 0%nat ltac:(apply sgood_props_np; reflexivity). intros p HP. sack.
Qed.
Lemma sgood_ack4 tbl cfg rem : c_unchecked cfg = false -> In RSuccess tbl -> sgood false 0 (ack_ok tbl cfg) (read_ack4 tbl cfg rem).
Proof.
  intros HU HS. unfold read_ack4. destruct (rem =? 2).
  - sb 2%nat 0%nat ltac:(apply sgood_u16). intros i Hi. sack.
  - destruct (rem <? 4); [apply (sgood_err _ _ _ (fun b => InsufficientData (len b) 4))|].
    sb 2%nat 0%nat ltac:(apply sgood_u16). intros i Hi. sb 1%nat 0%nat ltac:(apply sgood_rc). intros c HC.
    sb 1%nat 0%nat ltac:(apply sgood_props_np; assumption). intros p HP. sack.
Qed.
Lemma sgood_pubrel rem : sgood false 0 (ack_ok pubrel_codes pubrel_cfg) (read_pubrel rem).
Proof.
  unfold read_pubrel. destruct (rem =? 2); [|destruct (rem =? 3)].
  - sb 2%nat 0%nat ltac:(apply sgood_u16). intros i Hi. sack.
  - sb 2%nat 0%nat ltac:(apply sgood_u16). intros i Hi. sb 1%nat 0%nat ltac:(apply sgood_rc). intros c HC. sack.
  - sb 2%nat 0%nat ltac:(apply sgood_u16). intros i Hi. sb 1%nat 0%nat ltac:(apply sgood_rc). intros c HC.
    sb 1%nat 0%nat ltac:(apply sgood_props_np; reflexivity). intros p HP. sack.
Qed.

(* a loop that reads at least one byte per round, with more fuel than bytes *)
Definition fgood {A} (k : nat) (P : A -> Prop) (f : nat -> bytes -> res (A * bytes)) : Prop :=
  forall n b, all_bytes b -> (length b < n)%nat ->
  match f n b with
  | Ok (a, r) => (exists c, b = c ++ r) /\ P a
  | Err _ => True
  | Crash _ => False
  end.
Lemma fgood_sgood {A} (P : A -> Prop) f : fgood 0 P f -> sgood false 0 P (fun b => f (S (length b)) b).
Proof.
  intros HF b Hb. specialize (HF (S (length b)) b Hb). destruct (f (S (length b)) b) as [[a r]|e|c]; auto.
  - destruct HF as ((c & ->) & Pa); [lia|]. split; [|assumption]. exists c. split; [reflexivity|lia].
  - destruct HF. lia.
Qed.

Lemma fgood_sub : fgood 0 (fun l => Forall topic_ok l /\ l <> []) read_sub_topics.
Proof.
  intros n. induction n as [|n IH]; intros b Hb HL; [lia|]. cbn [read_sub_topics].
  pose proof (sgood_str false b Hb) as G. destruct (read_str b) as [[t r]|e|[]]; cbn [bind]; auto; [|discriminate].
  destruct G as ((c & -> & L) & HT). apply all_bytes_app in Hb as [_ Hr].
  pose proof (sgood_sopts false r Hr) as G. destruct (read_sopts r) as [[o r']|e|[]]; cbn [bind]; auto; [|discriminate].
  destruct G as ((c' & -> & L') & _). apply all_bytes_app in Hr as [_ Hr'].
  destruct (len r' =? 0).
  - split; [exists (c ++ c'); now rewrite app_assoc|]. split; [constructor; [assumption|constructor]|discriminate].
  - rewrite !app_length in HL. specialize (IH r' Hr'). destruct (read_sub_topics n r') as [[l r'']|e|x]; cbn [bind]; try (apply IH; lia).
    destruct IH as ((c2 & ->) & HF & _); [lia|]. split; [exists (c ++ c' ++ c2); now rewrite <- !app_assoc|].
    split; [constructor; assumption|discriminate].
Qed.
Lemma fgood_unsub : fgood 0 (fun l => Forall str_ok l /\ l <> []) read_unsub_topics.
Proof.
  intros n. induction n as [|n IH]; intros b Hb HL; [lia|]. cbn [read_unsub_topics].
  pose proof (sgood_str false b Hb) as G. destruct (read_str b) as [[t r]|e|[]]; cbn [bind]; auto; [|discriminate].
  destruct G as ((c & -> & L) & HT). apply all_bytes_app in Hb as [_ Hr].
  destruct (len r =? 0).
  - split; [exists c; reflexivity|]. split; [constructor; [assumption|constructor]|discriminate].
  - rewrite !app_length in HL. specialize (IH r Hr). destruct (read_unsub_topics n r) as [[l r'']|e|x]; cbn [bind]; try (apply IH; lia).
    destruct IH as ((c2 & ->) & HF & _); [lia|]. split; [exists (c ++ c2); now rewrite <- !app_assoc|].
    split; [constructor; assumption|discriminate].
Qed.
Lemma fgood_codes_ge tbl rem : forall read, fgood 0 (Forall (code_ok tbl)) (fun n b => read_codes_ge n tbl rem read b).
Proof.
  intros read n. revert read. induction n as [|n IH]; intros read b Hb HL; [lia|]. cbn [read_codes_ge].
  destruct (rem <=? read); [split; [now exists []|constructor]|].
  pose proof (sgood_rc false tbl b Hb) as G. destruct (read_rc tbl b) as [[t r]|e|[]]; cbn [bind]; auto; [|discriminate].
  destruct G as ((c & -> & L) & HT). apply all_bytes_app in Hb as [_ Hr].
  rewrite !app_length in HL. specialize (IH (read + 1) r Hr). cbv beta in IH.
  destruct (read_codes_ge n tbl rem (read + 1) r) as [[l r'']|e|x]; cbn [bind]; try (apply IH; lia).
  destruct IH as ((c2 & ->) & HF); [lia|]. split; [exists (c ++ c2); now rewrite <- !app_assoc|constructor; assumption].
Qed.
Lemma fgood_codes_eq tbl rem : forall read, fgood 0 (Forall (code_ok tbl)) (fun n b => read_codes_eq n tbl rem read b).
Proof.
  intros read n. revert read. induction n as [|n IH]; intros read b Hb HL; [lia|]. cbn [read_codes_eq].
  destruct (read =? rem); [split; [now exists []|constructor]|].
  pose proof (sgood_rc false tbl b Hb) as G. destruct (read_rc tbl b) as [[t r]|e|[]]; cbn [bind]; auto; [|discriminate].
  destruct G as ((c & -> & L) & HT). apply all_bytes_app in Hb as [_ Hr].
  rewrite !app_length in HL. specialize (IH (read + 1) r Hr). cbv beta in IH.
  destruct (read_codes_eq n tbl rem (read + 1) r) as [[l r'']|e|x]; cbn [bind]; try (apply IH; lia).
  destruct IH as ((c2 & ->) & HF); [lia|]. split; [exists (c ++ c2); now rewrite <- !app_assoc|constructor; assumption].
Qed.
Lemma sgood_subscribe : sgood false 0 (fun x => packet_ok (PSubscribe x)) read_subscribe.
Proof.
  unfold read_subscribe. sb 2%nat 0%nat ltac:(apply sgood_u16). intros i Hi.
  sb 1%nat 0%nat ltac:(apply sgood_props_np; reflexivity). intros p HP.
  sb 0%nat 0%nat ltac:(apply fgood_sgood, fgood_sub). intros l [HL HN].
  apply sgood_ret. split; [assumption|]. split; [assumption|]. split; assumption.
Qed.
Lemma sgood_unsubscribe : sgood false 0 (fun x => packet_ok (PUnsubscribe x)) read_unsubscribe.
Proof.
  unfold read_unsubscribe. sb 2%nat 0%nat ltac:(apply sgood_u16). intros i Hi.
  sb 1%nat 0%nat ltac:(apply sgood_props_np; reflexivity). intros p HP.
  sb 0%nat 0%nat ltac:(apply fgood_sgood, fgood_unsub). intros l [HL HN].
  apply sgood_ret. split; [assumption|]. split; [assumption|]. split; assumption.
Qed.
Lemma sgood_suback rem : sgood false 0 (suback_ok suback_codes suback_cfg) (read_suback rem).
Proof.
  unfold read_suback. sb 2%nat 0%nat ltac:(apply sgood_u16). intros i Hi.
  sb 1%nat 0%nat ltac:(apply sgood_props_np; reflexivity). intros p HP.
  sb 0%nat 0%nat ltac:(exact (fgood_sgood _ _ (fgood_codes_ge _ _ _))). intros l HL.
  apply sgood_ret. split; [assumption|]. split; assumption.
Qed.
Lemma sgood_unsuback rem : sgood false 0 (suback_ok unsuback_codes unsuback_cfg) (read_unsuback rem).
Proof.
  unfold read_unsuback. sb 2%nat 0%nat ltac:(apply sgood_u16). intros i Hi.
  sb 1%nat 0%nat ltac:(apply sgood_props_np; reflexivity). intros p HP.
  sb 0%nat 0%nat ltac:(exact (fgood_sgood _ _ (fgood_codes_eq _ _ _))). intros l HL.
  apply sgood_ret. split; [assumption|]. split; assumption.
Qed.
Lemma sgood_disconnect rem : sgood false 0 (fun d => packet_ok (PDisconnect d)) (read_disconnect rem).
Proof.
  unfold read_disconnect. destruct (rem =? 0).
  - apply sgood_ret. split; [now left|apply no_props_ok].
  - sb 1%nat 0%nat ltac:(apply sgood_rc). intros c HC. sb 1%nat 0%nat ltac:(apply sgood_props_np; reflexivity). intros p HP.
    apply sgood_ret. split; assumption.
Qed.
Lemma sgood_auth : sgood false 0 (fun d => packet_ok (PAuth d)) read_auth.
Proof.
  unfold read_auth. sb 1%nat 0%nat ltac:(apply sgood_rc). intros c HC. sb 1%nat 0%nat ltac:(apply sgood_props_np; reflexivity). intros p HP.
  apply sgood_ret. split; assumption.
Qed.

Definition is_connect (t : pkt_type) : bool := match t with TConnect => true | _ => false end.

Lemma sgood_body h : sgood (is_connect (fh_type h)) 0 packet_ok (read_body h).
Proof.
  unfold read_body. destruct (fh_type h); cbn [is_connect];
    try (apply sgood_ret; exact I);
    (eapply sgood_rmap; [|intros a Ha; exact Ha]).
  - apply sgood_connect.
  - apply sgood_connack.
  - apply sgood_publish.
  - apply sgood_puback.
  - apply sgood_ack4; [reflexivity|now left].
  - apply sgood_pubrel.
  - apply sgood_ack4; [reflexivity|now left].
  - apply sgood_subscribe.
  - apply sgood_suback.
  - apply sgood_unsubscribe.
  - apply sgood_unsuback.
  - apply sgood_disconnect.
  - apply sgood_auth.
Qed.
