(* What subscribe and unsubscribe take as topics: subscribe/mod.rs L273-411, unsubscribe/mod.rs L147-252 *)
From Verif Require Import Base VarInt Prims Props Codes Packets Session Client.

(* subscribe/mod.rs L273-334: IntoSingleSubscription.  &str, &String, String and Box<str> are [OneTopic]; (T, QoS) and
   &(T, QoS) are [OneQos]; (T, SubscriptionOptions) and &(T, SubscriptionOptions) are [OneOpts]. *)
Inductive one_sub :=
| OneTopic (t : bytes)
| OneQos (t : bytes) (q : qos)
| OneOpts (t : bytes) (o : sopts).
(* subscribe/mod.rs L160-169: SubscriptionOptions::default *)
Definition default_sopts : sopts := SOpts RhZero false false AtMostOnce.
(* subscribe/mod.rs L277-334 *)
Definition into_single (x : one_sub) : bytes * sopts :=
  match x with
  | OneTopic t => (t, default_sopts)
  | OneQos t q => (t, SOpts (so_rh default_sopts) (so_rap default_sopts) (so_nl default_sopts) q)
  | OneOpts t o => (t, o)
  end.
(* subscribe/mod.rs L352-376 are [SubOne]; L378-411 (arrays, slices, Vec, &Vec) are [SubMany] *)
Inductive sub_arg := SubOne (x : one_sub) | SubMany (l : list one_sub).
Definition subscribe_topics (a : sub_arg) : list (bytes * sopts) :=
  match a with
  | SubOne x => [into_single x]
  | SubMany l => map into_single l
  end.
(* client.rs L77-86, L482-491: subscribe and subscribe_blocking; Subscribe::new: subscribe/mod.rs L27-33 *)
Definition call_subscribe (a : sub_arg) : call := CSubscribe (subscribe_topics a) no_props.

(* unsubscribe/mod.rs L147-172: IntoUnsubscribeTopic copies the text.  L178-201 are [UnsubOne]; L203-252 (arrays,
   slices, iterators, Vec, &Vec) are [UnsubMany]. *)
Inductive unsub_arg := UnsubOne (t : bytes) | UnsubMany (l : list bytes).
Definition unsubscribe_topics (a : unsub_arg) : list bytes :=
  match a with
  | UnsubOne t => [t]
  | UnsubMany l => map (fun t => t) l
  end.
(* client.rs L304-315, L710-721; Unsubscribe::new: unsubscribe/mod.rs L25-31 *)
Definition call_unsubscribe (a : unsub_arg) : call := CUnsubscribe (unsubscribe_topics a) no_props.
