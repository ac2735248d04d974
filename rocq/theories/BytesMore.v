(* C77: the bytes to the broker; the client and the broker over bytes do what they do over packets. *)
From Verif Require Import Base VarInt Prims Props Codes Packets BaseFacts Options Session Client System SpecSession SpecNet SpecTrace SpecCodec SpecRead SpecOut SpecEnd SmolStream TokioRead Wire SpecWire SpecPolite SpecWorld SpecBytes
  VarIntFacts EncFacts CodecFacts CodecMore InjFacts SessionFacts SystemFacts Cases NetFacts LoopMore ReadFacts ReadMore WireFacts WireMore Witness OptionsMore OutFacts OutMore EndMore BytesFacts.

(* ---- what is written ---- *)
Lemma nearly_nothing rt p : MAXVAR < body_len p -> len (wire_bytes rt p) <= 1.
Proof.
  intros H. unfold wire_bytes, awrite_packet, write_packet, awrite_varint, write_varint, MAXVAR in *.
  assert ((268435455 <? body_len p) = true) as -> by (now apply N.ltb_lt).
  destruct rt, p; try (apply N.eq_le_incl; reflexivity); exfalso; cbn in H; lia.
Qed.

Definition stuck (b : bytes) : Prop := forall q c r, packet_ok q -> encodes q c -> b <> c ++ r.
Lemma encodes_two q c : encodes q c -> 2 <= len c.
Proof.
  intros (body & _ & HL & ->). rewrite len_cons, len_app. destruct (spec_varint_is_varint _ HL) as [(a & z & -> & _) _]. rewrite len_app, (@len_cons N), (@len_nil N). lia.
Qed.
Lemma stuck_nil : stuck [].
Proof. intros q c r _ HE E. destruct c; [now apply encodes_nil in HE|discriminate E]. Qed.
Lemma stuck_short b : len b <= 1 -> stuck b.
Proof. intros H q c r _ HE ->. apply encodes_two in HE. rewrite len_app in H. lia. Qed.
Lemma stuck_part p b t : packet_ok p -> encodes p (b ++ t) -> t <> [] -> stuck b.
Proof.
  intros HP HE HT q c r HQ HC ->. rewrite <- app_assoc in HE. destruct (encodes_inj q p c (r ++ t) HQ HP HC HE) as [_ E]. apply app_eq_nil in E as [_ E]. now apply HT.
Qed.

(* the packets and the bytes of a write *)
Definition writable (rt : runtime) (o : out) : Prop :=
  match o with
  | OWrite _ p => packet_ok p /\ encodes p (wire_bytes rt p)
  | OWriteFail _ p => packet_ok p /\ (encodes p (wire_bytes rt p) \/ len (wire_bytes rt p) <= 1)
  | _ => True
  end.
Lemma all_writable c es s : config_ok c -> built c -> Forall event_ok es -> exec c es (init c) = Some s -> Forall (writable (cf_rt c)) (trace s).
Proof.
  intros HC HB HF HE. apply Forall_forall. intros o HI. destruct o; try exact I.
  - destruct (lawful_bytes c es s _ _ HC HB HF HE HI) as [[[HP _] _] HN]. split; assumption.
  - pose proof (lawful_tried _ _ _ _ _ HC HB HF HE HI) as HL.
    assert (no_empty_auth p /\ no_assigned_id p) as [N1 N2].
    { assert (o = FromConnect \/ o <> FromConnect) as [EX|EX] by (destruct o; auto; right; discriminate); [|now apply (lawful_plain o)].
      subst o. pose proof (tried_all c s HC (ex_intro _ es HE)) as HT. rewrite Forall_forall in HT. destruct (HT _ HI) as (o' & HO & ->). apply (connect_lawful c o' HB HO). }
    destruct HL as [HW _]. split; [apply HW|]. destruct (N.le_gt_cases (body_len p) MAXVAR) as [HM|HM]; [left|right; now apply nearly_nothing].
    pose proof (wf_auth _ HW N1) as HA. destruct (writes_encodings p HW N1) as [W1 W2]. unfold wire_bytes. destruct (cf_rt c).
    + apply W2; [exact N2|]. apply (awrite_packet_spec p (proj1 HW) HA HM N2).
    + apply W1. now rewrite (write_packet_spec p (proj1 HW) HA HM).
Qed.

(* ---- the bytes to the broker ---- *)
Definition upward (u : list packet) (k : pipe) : Prop :=
  exists us cs cut, u = pi_queue k ++ us /\ Forall packet_ok us /\ Forall2 encodes us cs /\ pi_up k = concat cs ++ cut /\ stuck cut /\ (cut = [] \/ pi_live k = false).
Lemma upward_write u us b q d k p x : upward u (Pipe us b q d true) -> packet_ok p -> encodes p x -> upward (u ++ [p]) (Pipe k (b ++ x) q d true).
Proof.
  intros (vs & cs & cut & -> & HP & HE & E & HS & [-> |HL]) HO HX; [|discriminate HL]. cbn [pi_queue pi_up pi_live] in *. rewrite app_nil_r in E. subst b.
  exists (vs ++ [p]), (cs ++ [x]), []. cbn [pi_queue pi_up pi_live]. rewrite <- app_assoc. split; [reflexivity|]. split; [apply Forall_app; auto|]. split; [apply Forall2_app; auto|].
  split; [rewrite concat_app; cbn [concat]; now rewrite !app_nil_r|]. auto using stuck_nil.
Qed.
Lemma upward_dead u us b q d v k : upward u (Pipe us b q d v) -> upward u (Pipe k b q d false).
Proof. intros (vs & cs & cut & H1 & H2 & H3 & H4 & H5 & _). exists vs, cs, cut. repeat apply conj; auto. Qed.
Lemma felt_noticed rt o k k' u d d' : felt rt o k k' -> writable rt o -> upward u k -> read_one o d d' ->
  exists u', noticed o (Line (pi_used k) u d (pi_live k)) (Line (pi_used k') u' d' (pi_live k')) /\ upward u' k'.
Proof.
  intros H HW HU HR. destruct H as [b q dn v|o p us b q dn v|o p x t on us b q dn v EQ HO|us b q dn v|e us b q dn v|o us b q dn v HN]; cbn [pi_used pi_live] in *.
  - cbn in HR. subst d'. exists []. split; [constructor|]. exists [], [], []. repeat apply conj; auto. apply stuck_nil.
  - cbn in HR. subst d'. exists (arrive v p u). split; [constructor|]. destruct v; [|exact HU]. destruct HW as [HP HE]. now apply upward_write with us.
  - cbn in HR. subst d'. destruct HW as [HP HW]. destruct v; cbn [andb].
    2:{ exists u. split; [|exact HU]. pose proof (no_fail o p false false us u d false) as X. exact X. }
    assert (encodes p x \/ ~ encodes p x /\ stuck x) as [HX|[HX HS]].
    { destruct HW as [HW|HW].
      - rewrite EQ in HW. destruct t as [|y t]; [left; now rewrite app_nil_r in HW|]. right. assert (stuck x) as HS by (now apply stuck_part with p (y :: t)). split; [|exact HS].
        intros HX. apply (HS p x [] HP HX). now rewrite app_nil_r.
      - right. assert (len x <= 1) as HL by (rewrite EQ, len_app in HW; lia). split; [|now apply stuck_short]. intros HX. apply encodes_two in HX. lia. }
    + exists (u ++ [p]). split; [exact (no_fail o p true on us u d true)|]. destruct on; [now apply upward_write with us|]. apply upward_dead with us true. now apply upward_write with us.
    + exists u. split; [exact (no_fail o p false on us u d true)|]. destruct HU as (vs & cs & cut & -> & H1 & H2 & E & H3 & [-> |HL]); [|discriminate HL]. cbn [pi_queue pi_up pi_live] in *.
      exists vs, cs, x. cbn [pi_queue pi_up pi_live]. rewrite app_nil_r in E. subst b. repeat apply conj; auto. destruct on; [left|now right]. destruct (HO eq_refl) as [-> |HY]; [reflexivity|contradiction].
  - cbn in HR. subst d'. exists u. split; [constructor|exact HU].
  - cbn in HR. subst d'. exists u. split; [constructor|exact HU].
  - exists u. split; [|exact HU]. destruct o as [| | | | | |[]| | | | | | | | |]; cbn in HN, HR; try contradiction; subst; try (now constructor).
Qed.
Lemma felt_notices rt l k k' d d' : felt_all rt l k k' -> Forall (writable rt) l -> reads l d d' -> forall u, upward u k ->
  exists u', notices l (Line (pi_used k) u d (pi_live k)) (Line (pi_used k') u' d' (pi_live k')) /\ upward u' k'.
Proof.
  intros H. revert d. induction H as [k|o l k k1 k' HO _ IH]; intros d HW HR u HU.
  - inversion HR; subst. exists u. split; [constructor|exact HU].
  - inversion HW as [|? ? W1 W2]; subst. inversion HR as [|? ? ? d1 ? R1 R2]; subst. destruct (felt_noticed _ _ _ _ _ _ _ HO W1 HU R1) as (u1 & N1 & U1).
    destruct (IH d1 W2 R2 u1 U1) as (u' & N2 & U2). exists u'. split; [econstructor; eassumption|exact U2].
Qed.
Lemma upward_decode u us b rest q d v p : upward u (Pipe us (b ++ rest) q d v) -> packet_ok p -> encodes p b -> upward u (Pipe us rest (q ++ [p]) d v).
Proof.
  intros (vs & cs & cut & -> & H1 & H2 & E & H3 & H4) HP HE. cbn [pi_queue pi_up pi_live] in *. destruct H2 as [|x y vs cs HX H2].
  - cbn in E. destruct (H3 p b rest HP HE (eq_sym E)).
  - inversion H1 as [|? ? P1 P2]; subst. cbn [concat] in E. rewrite <- app_assoc in E. assert (p = x /\ b = y) as [<- <-].
    { apply app_eq_app in E as (z & [[E1 E2]|[E1 E2]]).
      - subst b. destruct (encodes_inj x p y z P1 HP HX HE) as [-> ->]. rewrite app_nil_r. auto.
      - subst y. destruct (encodes_inj p x b z HP P1 HE HX) as [-> ->]. rewrite app_nil_r. auto. }
    apply app_inv_head in E. exists vs, cs, cut. cbn [pi_queue pi_up pi_live]. rewrite <- app_assoc. repeat apply conj; auto.
Qed.
