(* C75: what subscribe and unsubscribe say for the topics they are given *)
From Verif Require Import Base VarInt Prims Props Codes Packets Options Session Client System SpecCodec SpecOut Topics SpecTopics TopicFacts.

(* 268435455: C45.  Refused calls are C16 and C17. *)
Theorem C75_subscribe : forall rt max a pl pl' p, Forall (fun x => utf8 (topic_of x)) (all_asked a) -> all_asked a <> [] -> Forall (fun i => i < 65536) (pl_ids pl) ->
  max <= 268435455 -> client_call max (call_subscribe a) pl = Some (pl', inr p) ->
  exists id, pl_ids pl = id :: pl_ids pl' /\ wire_bytes rt p = plain_frame 130 id (concat (map asked (all_asked a))).
Proof. exact subscribe_says. Qed.
Print Assumptions C75_subscribe.
Example C75_subscribe_case : Forall (fun x => utf8 (topic_of x)) (all_asked tp_arg) /\ all_asked tp_arg <> [] /\ Forall (fun i => i < 65536) [7; 8] /\
  exists p, client_call 100 (call_subscribe tp_arg) (Pool [7; 8] 10 true) = Some (Pool [8] 10 true, inr p) /\
  plain_frame 130 7 (concat (map asked (all_asked tp_arg))) = [130; 17; 0; 7; 0; 0; 1; 97; 0; 0; 3; 98; 47; 35; 1; 0; 1; 99; 46].
Proof. exact subscribe_case. Qed.

Theorem C75_unsubscribe : forall rt max a pl pl' p, Forall utf8 (all_left a) -> all_left a <> [] -> Forall (fun i => i < 65536) (pl_ids pl) ->
  max <= 268435455 -> client_call max (call_unsubscribe a) pl = Some (pl', inr p) ->
  exists id, pl_ids pl = id :: pl_ids pl' /\ wire_bytes rt p = plain_frame 162 id (concat (map (fun t => spec_u16 (len t) ++ t) (all_left a))).
Proof. exact unsubscribe_says. Qed.
Print Assumptions C75_unsubscribe.
Example C75_unsubscribe_case : exists p, client_call 100 (call_unsubscribe (UnsubMany [[97]; [98]])) (Pool [7; 8] 10 true) = Some (Pool [8] 10 true, inr p) /\
  w_bytes (write_packet p) = [162; 9; 0; 7; 0; 0; 1; 97; 0; 1; 98].
Proof. exact unsubscribe_case. Qed.
