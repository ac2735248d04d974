(* What a receiver of bytes should do, in terms of the packets the broker sent and their encodings. *)
From Verif Require Import Base Prims Packets SpecCodec TokioRead.

(* how many of the encodings are complete in the first n bytes of their concatenation *)
Fixpoint complete (bs : list bytes) (n : N) : nat :=
  match bs with
  | [] => O
  | b :: bs => if n <? len b then O else S (complete bs (n - len b))
  end.
(* every chunk has at least one byte *)
Definition chunks_ok (chunks : list bytes) : Prop := Forall (fun ch => ch <> []) chunks.

(* [b] is an MQTT 5 encoding of [p], other than the forms that C49 excludes: the short forms, a will
   with payload format indicator in CONNECT and several topics in SUBSCRIBE (which brokers do not send) *)
Definition sent (p : packet) (b : bytes) : Prop :=
  well_formed p /\ no_will_pfi p /\ one_topic p /\
  exists body, spec_body p body /\ len body <= MAXVAR /\ not_short_form p body /\
    b = spec_first p :: spec_varint (len body) ++ body.

(* what has arrived at a tokio client *)
Definition arrived (xs : list tevent) : bytes := concat (map (fun x => match x with TArrive b => b | _ => [] end) xs).
(* no read is interrupted in the middle of a packet *)
Fixpoint gentle (r : treader) (xs : list tevent) : Prop :=
  match xs with
  | [] => True
  | x :: xs => (x = TDrop -> tr_got r = []) /\ match tstep x r with TGot _ r => gentle r xs | _ => True end
  end.
(* [got] is nothing or a part of the next packet *)
Definition part_of (got : bytes) (bs : list bytes) : Prop := got <> [] -> exists b bs' t, bs = b :: bs' /\ b = got ++ t /\ t <> [].
