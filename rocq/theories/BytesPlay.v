(* Playing a case of SpecBytes.v. *)
From Verif Require Import Base VarInt Prims Props Codes Packets BaseFacts Options Session Client System SpecSession SpecCodec SpecRead SpecOut SpecEnd SmolStream TokioRead Wire SpecBytes
  VarIntFacts SessionFacts SystemFacts Cases NetFacts LoopMore ReadFacts WireFacts WireMore Check Witness PanicFacts BytesFacts BytesWorld.

(* a packet that the writers encode as MQTT 5 says *)
Definition cleanb (p : packet) : bool := wfb p && exclb p && aexclb p && okb (write_packet p) && okb (awrite_packet p).
Lemma cleanb_ok p : cleanb p = true -> well_formed p /\ no_will_pfi p /\ one_topic p /\ forall rt, encodes p (wire_bytes rt p).
Proof.
  unfold cleanb. rewrite !andb_true_iff. intros [[[[H1 H2] H3] H4] H5]. apply wfb_ok in H1. apply exclb_ok in H2 as (H2 & _ & H6). apply aexclb_ok in H3 as [H3 H7].
  apply okb_ok in H4, H5. destruct (writes_encodings p H1 H2) as [W1 W2]. split; [exact H1|]. split; [exact H6|]. split; [exact H7|]. intros []; cbn [wire_bytes]; auto.
Qed.
(* what the broker of the cases sends for p *)
Definition plain_bytes (p : packet) : bytes := w_bytes (write_packet p).
Definition sentb (p : packet) : bool :=
  cleanb p && match p with PPubRec _ | PPubComp _ => negb (len (plain_bytes p) =? 5) | PDisconnect _ => negb (len (plain_bytes p) =? 3) | PAuth _ => negb (len (plain_bytes p) =? 2) | _ => true end.
Lemma sentb_ok p : sentb p = true -> sent p (plain_bytes p).
Proof.
  unfold sentb. rewrite andb_true_iff. intros [H1 H2]. destruct (cleanb_ok p H1) as (W & X1 & X2 & HE). split; [exact W|]. split; [exact X1|]. split; [exact X2|].
  destruct (HE Smol) as (body & B1 & B2 & B3). change (wire_bytes Smol p) with (plain_bytes p) in B3. exists body. split; [exact B1|]. split; [exact B2|]. split; [|exact B3].
  assert (forall n, n < 128 -> len body = n -> len (plain_bytes p) = 2 + n) as HL.
  { intros n Hn E. rewrite B3, E, len_cons, len_app, E. assert (len (spec_varint n) = 1) as ->; [|lia]. unfold spec_varint. destruct (n <? 128) eqn:X; [reflexivity|]. apply N.ltb_ge in X. lia. }
  destruct p; cbn [not_short_form]; trivial; intros E; apply HL in E; [|reflexivity| |reflexivity| |reflexivity| |reflexivity]; rewrite E in H2; discriminate H2.
Qed.

Definition felt_fun (rt : runtime) (o : out) (k : pipe) : option pipe :=
  let 'Pipe us u q d v := k in
  match o with
  | OConnect => if us then None else Some (Pipe false [] [] [] true)
  | OWrite _ p => Some (Pipe us (if v then u ++ wire_bytes rt p else u) q d v)
  | OWriteFail _ p => Some (Pipe us (if v then u ++ [] else u) q d (v && false))
  | OConnectEnd None => Some (Pipe true u q d v)
  | ORunEnd _ => Some (Pipe false u q d v)
  | _ => Some k
  end.
Lemma felt_fun_ok rt o k k' : felt_fun rt o k = Some k' -> felt rt o k k'.
Proof.
  destruct k as [us u q d v]. intros H. destruct o; cbn [felt_fun] in H; try (injection H as <-; now constructor).
  - destruct us; [discriminate|]. injection H as <-. constructor.
  - destruct r; injection H as <-; now constructor.
  - injection H as <-. apply (fe_fail rt _ _ [] (wire_bytes rt p)); [reflexivity|discriminate].
Qed.
Fixpoint felts (rt : runtime) (l : list out) (k : pipe) : option pipe :=
  match l with [] => Some k | o :: l => match felt_fun rt o k with Some k' => felts rt l k' | None => None end end.
Lemma felts_ok rt l : forall k k', felts rt l k = Some k' -> felt_all rt l k k'.
Proof.
  induction l as [|o l IH]; intros k k' H; cbn [felts] in H; [injection H as <-; constructor|].
  destruct (felt_fun rt o k) as [k1|] eqn:E; [|discriminate]. apply fa_cons with k1; [exact (felt_fun_ok _ _ _ _ E)|exact (IH _ _ H)].
Qed.

(* PC: the client; PA: n bytes arrive; PD: the broker decodes a packet; PB: the broker does something *)
Inductive pmove (M : Type) := PC (x : wevent) | PA (n : nat) | PD | PB (m : M).
Arguments PC {M}. Arguments PA {M}. Arguments PD {M}. Arguments PB {M}.
Definition decode_fun (rt : runtime) (k : pipe) : option pipe :=
  let 'Pipe us u q d v := k in
  match read_packet u with
  | RPacket p rest => if cleanb p && bytes_eqb u (wire_bytes rt p ++ rest) then Some (Pipe us rest (q ++ [p]) d v) else None
  | _ => None
  end.
Definition pstep {W M} (c : config) (chk gentle : bool) (nt : W -> out -> W) (B : M -> pipe -> W -> option (pipe * W)) (m : pmove M) (i : wire) (k : pipe) (w : W) : option (wire * pipe * W) :=
  match m with
  | PC x =>
    if is_arrival x then None else
    match wstep c chk x i with
    | Some i' =>
      if gentle && sr_torn (w_net i') then None else
      let l := skipn (length (trace (w_sys i))) (trace (w_sys i')) in
      match felts (cf_rt c) l k with Some k' => Some (i', k', fold_left nt l w) | None => None end
    | None => None
    end
  | PA n =>
    let 'Pipe us u q d v := k in
    match wstep c chk (WArrive (negb us) (firstn n d)) i with Some i' => Some (i', Pipe us u q (skipn n d) v, w) | None => None end
  | PD => match decode_fun (cf_rt c) k with Some k' => Some (i, k', w) | None => None end
  | PB m => match B m k w with Some (k', w') => Some (i, k', w') | None => None end
  end.
Fixpoint pplay {W M} (c : config) (chk gentle : bool) (nt : W -> out -> W) (B : M -> pipe -> W -> option (pipe * W)) (ms : list (pmove M)) (i : wire) (k : pipe) (w : W) : option (wire * pipe * W) :=
  match ms with [] => Some (i, k, w) | m :: ms => match pstep c chk gentle nt B m i k w with Some (i', k', w') => pplay c chk gentle nt B ms i' k' w' | None => None end end.

Lemma wstep_trace c chk x i i' : wreachable c chk i -> is_arrival x = false -> wstep c chk x i = Some i' ->
  trace (w_sys i') = trace (w_sys i) ++ skipn (length (trace (w_sys i))) (trace (w_sys i')).
Proof.
  intros HR HA HS. destruct (ctrans_step _ _ _ _ (wstep_ctrans _ _ _ _ _ HA HS)) as [E|(e & E)].
  - rewrite E, skipn_all. now rewrite app_nil_r.
  - destruct (step_tcase _ _ _ _ (wire_refines _ _ _ HR) E) as (l & st & w1 & ch & n & q1 & t & _ & ->). rewrite next_trace.
    rewrite skipn_app, skipn_all, Nat.sub_diag. reflexivity.
Qed.
Definition asked {M} (m : pmove M) : Prop := match m with PC x => wire_ok x | _ => True end.
Lemma pplay_sound {W M} c chk gentle (nt : W -> out -> W) (B : M -> pipe -> W -> option (pipe * W)) (P : wire -> pipe -> W -> Prop) :
  (forall i k w, P i k w -> wreachable c chk i) ->
  (forall x i k w i' l k', P i k w -> is_arrival x = false -> wire_ok x -> wstep c chk x i = Some i' ->
    trace (w_sys i') = trace (w_sys i) ++ l -> felt_all (cf_rt c) l k k' -> (gentle = true -> sr_torn (w_net i') = false) -> P i' k' (fold_left nt l w)) ->
  (forall ch rest us u q v i w i', P i (Pipe us u q (ch ++ rest) v) w -> wstep c chk (WArrive (negb us) ch) i = Some i' -> P i' (Pipe us u q rest v) w) ->
  (forall p b rest us q d v i w, P i (Pipe us (b ++ rest) q d v) w -> packet_ok p -> encodes p b -> P i (Pipe us rest (q ++ [p]) d v) w) ->
  (forall m i k w k' w', P i k w -> B m k w = Some (k', w') -> P i k' w') ->
  forall ms i k w i' k' w', P i k w -> Forall asked ms -> pplay c chk gentle nt B ms i k w = Some (i', k', w') -> P i' k' w'.
Proof.
  intros HR HC HA HD HB ms. induction ms as [|m ms IH]; intros i k w i' k' w' HP HF H; cbn [pplay] in H; [now injection H as <- <- <-|].
  inversion HF as [|m0 ms0 F1 F2]; subst. destruct (pstep c chk gentle nt B m i k w) as [[[i1 k1] w1]|] eqn:E; [|discriminate]. refine (IH _ _ _ _ _ _ _ F2 H). clear H IH. destruct m as [x|n| |m]; cbn [pstep] in E.
  - destruct (is_arrival x) eqn:EA; [discriminate|]. destruct (wstep c chk x i) as [i2|] eqn:ES; [|discriminate]. destruct (gentle && sr_torn (w_net i2)) eqn:ET; [discriminate|].
    destruct (felts _ _ _) as [k2|] eqn:EF; [|discriminate]. injection E as <- <- <-. apply felts_ok in EF. eapply HC; [exact HP|exact EA|exact F1|exact ES| |exact EF|].
    + apply (wstep_trace c chk x); [now apply HR in HP|exact EA|exact ES].
    + intros ->. exact ET.
  - destruct k as [us u q d v]. destruct (wstep _ _ _ _) as [i2|] eqn:ES; [|discriminate]. injection E as <- <- <-. eapply HA; [|exact ES]. now rewrite firstn_skipn.
  - unfold decode_fun in E. destruct k as [us u q d v]. destruct (read_packet u) as [p rest| | |] eqn:ER; try discriminate E. destruct (cleanb p && _) eqn:EC; [|discriminate].
    injection E as <- <- <-. apply andb_true_iff in EC as [EC EE]. apply PanicFacts.eqb_eq in EE. destruct (cleanb_ok p EC) as ((W1 & _) & _ & _ & HE).
    apply HD with (wire_bytes (cf_rt c) p); [now rewrite <- EE|exact W1|apply HE].
  - destruct (B m k w) as [[k2 w2]|] eqn:EB; [|discriminate]. injection E as <- <- <-. exact (HB _ _ _ _ _ _ HP EB).
Qed.
