From Verif Require Import Base VarInt Prims Props Codes Packets SpecCodec Options SpecOptions CodecMore CodecFacts FrameMore InjFacts FrameFacts.

Definition same (id : bytes) (l : list setting) (o : options) : Prop :=
  o = Options (get for_client id l) (from_secs (as_secs (get for_keep (from_secs 60) l))) (get for_clean true l) (last_set for_user l) (last_set for_password l)
    (last_set for_expiry l) (last_set for_receive l) (last_set for_send l) (last_set for_packet l) None None None [] None None (last_set for_will l).
Lemma last_snoc {A} (f : setting -> option A) x : forall l, last_set f (l ++ [x]) = match f x with Some a => Some a | None => last_set f l end.
Proof.
  induction l as [|y l IH]; cbn [app last_set]; [now destruct (f x)|]. rewrite IH. now destruct (f x), (last_set f l).
Qed.
Lemma configure_same id l : same id l (configure id l).
Proof.
  unfold configure. induction l as [|x l IH] using rev_ind; [reflexivity|]. rewrite fold_left_app. cbn [fold_left]. rewrite IH. unfold same, get. rewrite !last_snoc.
  destruct x; cbn; try reflexivity. unfold set_maximum_packet_size, MAXIMUM_PACKET_SIZE.
  destruct (N.leb_spec n 268435455); [replace (268435455 <? n) with false by lia|replace (268435455 <? n) with true by lia]; reflexivity.
Qed.
Lemma limits id l : max_packet (configure id l) = get for_packet 268435455 l /\ receive_max (configure id l) = get for_receive 65535 l /\
  send_max (configure id l) = get for_send 65535 l.
Proof. rewrite (configure_same id l). now repeat split. Qed.
Lemma packet_limit n o : (n <= 268435455 -> exists o', set_maximum_packet_size n o = Some o' /\ max_packet o' = n) /\
  (268435455 < n -> set_maximum_packet_size n o = None).
Proof.
  unfold set_maximum_packet_size, MAXIMUM_PACKET_SIZE. split; intros H.
  - replace (268435455 <? n) with false by lia. eexists. split; reflexivity.
  - now replace (268435455 <? n) with true by lia.
Qed.
Lemma last_ok {A} (f : setting -> option A) (P : A -> Prop) l : Forall setting_ok l -> (forall x a, setting_ok x -> f x = Some a -> P a) ->
  forall a, last_set f l = Some a -> P a.
Proof.
  intros HF HP. induction HF as [|x l HX HF IH]; intros a E; [discriminate E|]. cbn [last_set] in E. destruct (last_set f l) as [b|]; [injection E as <-; auto|eauto].
Qed.
Definition connect_of (id : bytes) (l : list setting) : connect :=
  Connect (get for_clean true l) (last_set for_will l) (last_set for_user l) (last_set for_password l)
    (as_secs (from_secs (as_secs (get for_keep (from_secs 60) l))) mod 65536)
    (Props None None None None None None (last_set for_expiry l) None None None None None None None None None None (last_set for_receive l)
       None None None None [] (last_set for_packet l) None None None []) (get for_client id l).
Lemma create_is id l : create_connect (configure id l) = PConnect (connect_of id l).
Proof. rewrite (configure_same id l). reflexivity. Qed.
Lemma create_says id l : get for_keep 60000000000 l < 65536 * 1000000000 -> says id l (connect_of id l).
Proof.
  intros HK. unfold connect_of. repeat (split; [reflexivity|]). split.
  - cbn [cn_keep_alive]. unfold as_secs, from_secs, second. rewrite N.div_mul by discriminate. change (60 * 1000000000) with 60000000000. apply N.mod_small.
    apply N.div_lt_upper_bound; [discriminate|lia].
  - intros t. destruct t; try reflexivity; cbn [cn_props]; unfold prop_vals; [destruct (last_set for_expiry l)|destruct (last_set for_receive l)|destruct (last_set for_packet l)]; reflexivity.
Qed.
Lemma created_ok id l : str_ok id -> Forall setting_ok l -> well_formed (PConnect (connect_of id l)) /\ no_empty_auth (PConnect (connect_of id l)).
Proof.
  intros HI HL. split; [split|].
  - cbn [packet_ok connect_of cn_keep_alive cn_props cn_will cn_username cn_password cn_client_id].
    split; [apply N.mod_lt; discriminate|]. split; [|split; [|split; [|split]]].
    + split; [|split; [apply Forall_nil|split; [intros X; now elim X|split; [apply Forall_nil|split; [intros X; now elim X|discriminate]]]]].
      intros t v E. destruct t; cbn in E; try discriminate E.
      * destruct (last_set for_expiry l) as [n|] eqn:EL; [|discriminate E]. injection E as <-. split; [vm_compute; tauto|].
        apply (last_ok for_expiry (fun n => n < 4294967296) l HL) in EL; [exact EL|]. intros [] a H X; try discriminate X. now injection X as <-.
      * destruct (last_set for_receive l) as [n|] eqn:EL; [|discriminate E]. injection E as <-. split; [vm_compute; tauto|].
        apply (last_ok for_receive (fun n => n < 65536) l HL) in EL; [exact EL|]. intros [] a H X; try discriminate X. now injection X as <-.
      * destruct (last_set for_packet l) as [n|] eqn:EL; [|discriminate E]. injection E as <-. split; [vm_compute; tauto|].
        apply (last_ok for_packet (fun n => n < 4294967296) l HL) in EL; [exact EL|]. intros [] a H X; try discriminate X. cbn in X, H. destruct (n0 <=? 268435455); [|discriminate X]. now injection X as <-.
    + destruct (last_set for_will l) as [w|] eqn:EL; [|exact I]. apply (last_ok for_will will_ok l HL) in EL; [exact EL|]. intros [] a H X; try discriminate X. now injection X as <-.
    + destruct (last_set for_user l) as [w|] eqn:EL; [|exact I]. apply (last_ok for_user str_ok l HL) in EL; [exact EL|]. intros [] a H X; try discriminate X. now injection X as <-.
    + destruct (last_set for_password l) as [w|] eqn:EL; [|exact I]. apply (last_ok for_password str_ok l HL) in EL; [exact EL|]. intros [] a H X; try discriminate X. now injection X as <-.
    + unfold get. destruct (last_set for_client l) as [w|] eqn:EL; [|exact HI]. apply (last_ok for_client str_ok l HL) in EL; [exact EL|]. intros [] a H X; try discriminate X. now injection X as <-.
  - intros X. now elim X.
  - intros X. discriminate X.
Qed.
(* a peer that reads the bytes as MQTT 5 obtains the packet and no other *)
Lemma connect_told id l : str_ok id -> Forall setting_ok l -> get for_keep 60000000000 l < 65536 * 1000000000 ->
  exists c, create_connect (configure id l) = PConnect c /\ says id l c /\
  forall w, accepted w (PConnect c) -> encodes (PConnect c) (bytes_of w (PConnect c)) /\
    forall q, packet_ok q -> encodes q (bytes_of w (PConnect c)) -> q = PConnect c.
Proof.
  intros HI HL HK. exists (connect_of id l). split; [apply create_is|]. split; [now apply create_says|]. destruct (created_ok id l HI HL) as [HW HN].
  intros w HA. pose proof (accepted_encodes w _ HW HN HA) as HE. split; [exact HE|]. intros q HQ HE2. symmetry.
  refine (proj1 (encodes_inj (PConnect (connect_of id l)) q (bytes_of w (PConnect (connect_of id l))) [] _ HQ HE _)); [apply HW|]. now rewrite app_nil_r.
Qed.
Lemma connect_written id l : str_ok id -> Forall setting_ok l -> (exists b, encodes (create_connect (configure id l)) b) ->
  forall w, accepted w (create_connect (configure id l)).
Proof.
  intros HI HL (b & HB) w. rewrite create_is in *. destruct (created_ok id l HI HL) as [HW HN]. destruct (writers_accept _ b HW HN HB) as [H1 H2].
  assert (no_assigned_id (PConnect (connect_of id l))) as HX by reflexivity. destruct w; [exact H1|split; [exact (H2 HX)|exact HX]].
Qed.

(* --- what connect writes --- *)
From Verif Require Import Session Client System SpecSession SpecNet SpecTrace SpecTime SessionFacts SystemFacts AckFacts IdFacts Cases TraceFacts.
(* no earlier CONNACK has imposed an interval *)
Definition no_imposed (l : list out) : Prop := forall a, In (OAnswer (PConnAck a)) l -> server_keep_alive (ca_props a) = None.
Definition writes_connect (o : out) : option packet := match o with OWrite FromConnect p | OWriteFail FromConnect p => Some p | _ => None end.
Definition hushed (l : list out) : Prop := forall o, In o l -> writes_connect o = None.
Lemma hush_tokio og : og <> FromConnect -> forall ps oks, hushed (tokio_writes og ps oks).
Proof.
  intros HO. induction ps as [|p ps IH]; intros oks o HI; [destruct HI|]. cbn [tokio_writes] in HI.
  destruct oks as [|b oks]; match type of HI with context [write_result ?r ?x ?y] => destruct (write_result r x y) end; destruct HI as [<-|HI];
    try (apply (IH _ _ HI)); destruct og; try reflexivity; now elim HO.
Qed.
Lemma hush_smol og ps ok : og <> FromConnect -> hushed (smol_writes og ps ok).
Proof.
  intros HO o HI. unfold smol_writes in HI. apply in_map_iff in HI. destruct HI as (p & <- & _).
  destruct (smol_write_all ps ok); destruct og; try reflexivity; now elim HO.
Qed.
Lemma hush_app a b : hushed a -> hushed b -> hushed (a ++ b).
Proof. intros HA HB o HI. apply in_app_or in HI. destruct HI; auto. Qed.
Lemma hush_case c s e l st w ch n q t : tcase c s e l st w ch n q t ->
  hushed l \/ exists o l2, l = o :: l2 /\ hushed l2 /\ writes_connect o = Some (create_connect (nt_opts (y_net s))) /\ nt_opts n = nt_opts (y_net s).
Proof.
  intros HT. destruct HT; unfold bye.
  all: try solve [left; repeat apply hush_app; try (apply hush_tokio; discriminate); try (apply hush_smol; discriminate); intros o HI; cbn [In] in HI; intuition (subst; reflexivity)].
  all: right; eexists _, _; split; [reflexivity|]; split; [|split; reflexivity]; intros o HI; cbn [In] in HI; intuition (subst; reflexivity).
Qed.
Lemma opts_case c s e l st w ch n q t : tcase c s e l st w ch n q t -> (cf_rt c = Smol \/ no_imposed l) -> nt_opts n = nt_opts (y_net s).
Proof.
  intros HT HN. destruct HT; try reflexivity; cbn [nt_opts set_last set_await set_connected set_buf]; try (destruct (cf_rt c); reflexivity); try (destruct (cf_rt _); reflexivity).
  all: destruct (cf_rt c) eqn:RT; try reflexivity; destruct HN as [HN|HN]; try discriminate HN; cbn [apply_connack nt_opts set_last].
  all: rewrite (HN a); [reflexivity|now left].
Qed.
Lemma connects_say c s : config_ok c -> reachable c s ->
  (forall l1 o l2 p, trace s = l1 ++ o :: l2 -> writes_connect o = Some p -> cf_rt c = Smol \/ no_imposed l1 -> p = create_connect (cf_opts c)) /\
  (cf_rt c = Smol \/ no_imposed (trace s) -> nt_opts (y_net s) = cf_opts c).
Proof.
  intros HC. revert s. apply sys_ind; [exact HC| |].
  - split; [|reflexivity]. intros l1 o l2 p E. destruct l1; discriminate E.
  - intros s e l st w ch n q t HR HI [IH1 IH2] HT _. rewrite next_trace. cbn [next y_net].
    assert (forall l0, cf_rt c = Smol \/ no_imposed (trace s ++ l0) -> cf_rt c = Smol \/ no_imposed (trace s)) as HL.
    { intros l0 [H|H]; [now left|right]. intros a HA. apply H, in_or_app. now left. }
    split.
    + intros l1 o l2 p E EW HN. destruct (app_split _ _ _ _ _ E) as [(z & EA)|(z & EA & EB)].
      * now apply (IH1 _ _ _ _ EA EW).
      * subst l1. destruct (hush_case _ _ _ _ _ _ _ _ _ _ HT) as [HH|(o' & l2' & -> & HH & EW' & _)].
        -- rewrite HH in EW; [discriminate EW|]. rewrite EB. apply in_or_app. right. now left.
        -- destruct z as [|z0 z]; cbn [app] in EB; injection EB as <- EB.
           ++ rewrite EW in EW'. injection EW' as ->. f_equal. apply IH2. now apply (HL []).
           ++ rewrite HH in EW; [discriminate EW|]. rewrite EB. apply in_or_app. right. now left.
    + intros HN. rewrite (opts_case _ _ _ _ _ _ _ _ _ _ HT); [apply IH2; eauto|]. destruct HN as [HN|HN]; [now left|right]. intros a HA. apply HN, in_or_app. now right.
Qed.
Lemma connect_wire c s id l l1 o l2 p : config_ok c -> cf_opts c = configure id l -> str_ok id -> Forall setting_ok l ->
  get for_keep 60000000000 l < 65536 * 1000000000 -> reachable c s -> trace s = l1 ++ o :: l2 -> writes_connect o = Some p -> cf_rt c = Smol \/ no_imposed l1 ->
  exists q, p = PConnect q /\ says id l q /\
  forall w, FrameMore.accepted w p -> encodes p (bytes_of w p) /\ forall q, packet_ok q -> encodes q (bytes_of w p) -> q = p.
Proof.
  intros HC HO HI HL HK HR HT HW HN. destruct (connect_told id l HI HL HK) as (q & EQ & HS & HB). exists q.
  assert (p = PConnect q) as ->. { rewrite <- EQ, <- HO. destruct (connects_say c s HC HR) as [H _]. now apply (H l1 o l2). }
  split; [reflexivity|]. split; [exact HS|]. exact HB.
Qed.
Lemma keep_wraps id l : 65536 * 1000000000 <= get for_keep 60000000000 l ->
  exists c, create_connect (configure id l) = PConnect c /\ cn_keep_alive c < get for_keep 60000000000 l / 1000000000 /\ ~ says id l c.
Proof.
  intros HK. exists (connect_of id l). split; [apply create_is|].
  assert (cn_keep_alive (connect_of id l) < get for_keep 60000000000 l / 1000000000) as H.
  { assert (65536 <= get for_keep 60000000000 l / 1000000000) by (apply N.div_le_lower_bound; [discriminate|lia]).
    apply N.lt_le_trans with 65536; [|assumption]. cbn [connect_of cn_keep_alive]. apply N.mod_lt. discriminate. }
  split; [exact H|]. intros (_ & _ & _ & _ & _ & E & _). rewrite E in H. exact (N.lt_irrefl _ H).
Qed.
