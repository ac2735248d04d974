(* Which of the encodings of SpecLenient the decoders accept.  [body] is what the packet says, [extra] are bytes of the
   frame behind it. *)
From Verif Require Import Base Prims Props Codes Packets SpecCodec SpecLenient.

Definition will_without_pfi (c : connect) : Prop :=
  match cn_will c with Some w => payload_format_indicator (wl_props w) = None | None => True end.
Definition method_for_data (c : connect) : Prop :=
  match authentication_data (cn_props c) with Some (_ :: _) => authentication_method (cn_props c) <> None | _ => True end.

(* In SUBACK and UNSUBACK the number of reason codes is computed from the shortest form of the properties, so this is the
   only form.  In an acknowledgement bytes may follow when the property length is zero. *)
Definition buffer_accepts (p : packet) (body extra : bytes) : Prop :=
  match p with
  | PConnect c => will_without_pfi c /\ method_for_data c
  | PPublish _ | PSubscribe _ | PUnsubscribe _ => extra = []
  | PSubAck _ | PUnsubAck _ => extra = [] /\ spec_body p body
  | PPubAck a | PPubRec a | PPubRel a | PPubComp a =>
      extra = [] \/ exists e, int_enc 0 e /\ body = spec_u16 (ak_id a) ++ [spec_rc (ak_rc a)] ++ e
  | PDisconnect _ => body = [] -> extra = []
  | PConnAck _ | PPingReq | PPingResp | PAuth _ => True
  end.

(* [body] is the whole frame here. *)
Definition stream_accepts (p : packet) : Prop :=
  match p with PSubscribe s => exists t, sb_topics s = [t] | _ => True end.

(* [body] is what the stream reader takes when [rem] is announced.  Most readers do not compare the two. *)
Definition stream_takes (p : packet) (rem : N) (body : bytes) : Prop :=
  match p with
  | PPublish _ | PPubComp _ | PSubAck _ => rem = len body
  | PPubAck _ => rem = len body \/ (3 < rem /\ 3 < len body)
  | PPubRec _ => rem = len body \/ (rem <> 2 /\ 3 < len body)
  | PPubRel _ => rem = len body \/ (rem <> 2 /\ rem <> 3 /\ 3 < len body)
  | PSubscribe s => len body <= rem /\ exists t, sb_topics s = [t]
  | PUnsubscribe u => (* topics are read until [rem] is reached *)
      rem <= len body /\ forall l t, ub_topics u = l ++ [t] -> l <> [] -> len body < rem + len (spec_data t)
  | PUnsubAck s => rem = len body \/ (rem < len body /\ sa_codes s = [])
  | PDisconnect _ => rem = 0 <-> body = []
  | PConnect _ | PConnAck _ | PPingReq | PPingResp | PAuth _ => True
  end.
