(* Basic data of the model: bytes, lengths, results, errors, writers. *)
From Coq Require Export List NArith ZArith Lia Bool.
From Coq Require Export ZifyBool ZifyNat ZifyN.
Export ListNotations.
Open Scope N_scope.

Ltac Zify.zify_post_hook ::= Z.div_mod_to_equations.

Arguments N.add : simpl never.
Arguments N.sub : simpl never.
Arguments N.mul : simpl never.
Arguments N.div : simpl never.
Arguments N.modulo : simpl never.
Arguments N.pow : simpl never.
Arguments N.eqb : simpl never.
Arguments N.ltb : simpl never.
Arguments N.leb : simpl never.
Arguments N.land : simpl never.
Arguments N.lor : simpl never.
Arguments N.shiftl : simpl never.
Arguments N.shiftr : simpl never.
Arguments N.to_nat : simpl never.
Arguments N.of_nat : simpl never.

(* u8 values are N; that they are below 256 is a predicate ([is_byte]) used as a hypothesis,
   because the Rust type u8 guarantees it. *)
Definition bytes := list N.
Definition is_byte (b : N) : Prop := b < 256.
Definition all_bytes (l : bytes) : Prop := Forall is_byte l.

(* usize lengths; usize overflow is not modelled (no buffer of the crate gets near 2^64). *)
Definition len {A} (l : list A) : N := N.of_nat (length l).

(* Bytes::split_to / Buf::advance (crate bytes): the first n bytes, and what is left. *)
Definition take {A} (n : N) (l : list A) : list A := firstn (N.to_nat n) l.
Definition drop {A} (n : N) (l : list A) : list A := skipn (N.to_nat n) l.

(* packets/primitive/property_type.rs L11-39: enum PropertyType *)
Inductive ptype :=
| PayloadFormatIndicator | MessageExpiryInterval | ContentType | ResponseTopic | CorrelationData
| SubscriptionIdentifier | SessionExpiryInterval | AssignedClientIdentifier | ServerKeepAlive
| AuthenticationMethod | AuthenticationData | RequestProblemInformation | WillDelayInterval
| RequestResponseInformation | ResponseInformation | ServerReference | ReasonString | ReceiveMaximum
| TopicAliasMaximum | TopicAlias | MaximumQos | RetainAvailable | UserProperty | MaximumPacketSize
| WildcardSubscriptionAvailable | SubscriptionIdentifierAvailable | SharedSubscriptionAvailable.

Definition ptype_eq_dec (a b : ptype) : {a = b} + {a <> b}.
Proof. decide equality. Defined.
Definition ptype_eqb (a b : ptype) : bool := if ptype_eq_dec a b then true else false.

(* packets/mod.rs L398-416: enum PacketType *)
Inductive pkt_type :=
| TConnect | TConnAck | TPublish | TPubAck | TPubRec | TPubRel | TPubComp | TSubscribe | TSubAck
| TUnsubscribe | TUnsubAck | TPingReq | TPingResp | TDisconnect | TAuth.

(* packets/error.rs L24-69: enum DeserializeError.  Type names and message texts are dropped
   (MalformedPacketWithInfo(String), InsufficientData(name, ..), Utf8Error(..)).  The variants
   ReadTooMuchData and UnexpectedReasonCode are never constructed by the crate. *)
Inductive derr :=
| MalformedPacketWithInfo
| MalformedPacket
| UnknownFixedHeader (b : N)
| UnsupportedProtocolVersion
| UnknownProtocolVersion
| InsufficientData (have need : N)
| InsufficientDataForProtocolVersion
| RemainingDataError (read remaining : N)
| DuplicateProperty (t : ptype)
| UnexpectedProperty (t : ptype) (p : pkt_type)
| UnknownProperty (b : N)
| UnknownQoS (b : N)
| Utf8Error.

(* packets/error.rs L87-96: enum SerializeError.  StringTooLong is never constructed. *)
Inductive serr :=
| VariableIntegerOverflow (n : N)
| AuthDataWithoutAuthMethod.

(* Ways in which a Rust function does not return: a panic.  [OutOfFuel] is not a behaviour of the
   code: it is what a fuelled loop of the model returns when the fuel does not suffice; it is
   proved not to occur. *)
Inductive crash := Panicked | OutOfFuel.

(* Result of a buffer ("sync") reader.  In Rust the reader advances the buffer behind &mut Bytes;
   here the rest of the buffer is part of the returned value. *)
Inductive res (A : Type) :=
| Ok (a : A)
| Err (e : derr)
| Crash (c : crash).
Arguments Ok {A} a. Arguments Err {A} e. Arguments Crash {A} c.

Definition bind {A B} (m : res A) (k : A -> res B) : res B :=
  match m with Ok a => k a | Err e => Err e | Crash c => Crash c end.

Notation "'let*' x := m 'in' k" := (bind m (fun x => k))
  (at level 200, x pattern, m at level 100, k at level 200, right associativity).

(* Result of a stream ("async") reader run against the bytes that are available.
   AOk v n rest: completed with value v, reporting n bytes read, leaving rest unread.
   AShort: still pending, everything available has been consumed and more is awaited.
   I/O errors of the transport are events of the network models, not of the readers. *)
Inductive ares (A : Type) :=
| AOk (a : A) (n : N) (rest : bytes)
| AErr (e : derr)
| AShort
| ACrash (c : crash).
Arguments AOk {A} a n rest. Arguments AErr {A} e. Arguments AShort {A}. Arguments ACrash {A} c.

Definition abind {A B} (m : ares A) (k : A -> N -> bytes -> ares B) : ares B :=
  match m with
  | AOk a n rest => k a n rest
  | AErr e => AErr e
  | AShort => AShort
  | ACrash c => ACrash c
  end.

Notation "'aw*' ( x , n , s ) := m 'in' k" := (abind m (fun x n s => k))
  (at level 200, x pattern, n name, s name, m at level 100, k at level 200, right associativity).

(* What a writer does: the bytes it put on the buffer/stream, the byte count it returns, and the
   error with which it stopped, if any.  (Bytes written before an error stay written.) *)
Record wr := W { w_bytes : bytes; w_cnt : N; w_err : option serr }.

Definition w_put (b : bytes) : wr := W b (len b) None.
Definition w_fail (e : serr) : wr := W [] 0 (Some e).
Definition w_nil : wr := W [] 0 None.
Definition w_seq (a b : wr) : wr :=
  match w_err a with
  | Some _ => a
  | None => W (w_bytes a ++ w_bytes b) (w_cnt a + w_cnt b) (w_err b)
  end.
Infix ">>>" := w_seq (at level 61, left associativity).

Definition w_concat (l : list wr) : wr := fold_right w_seq w_nil l.

Definition is_some {A} (o : option A) : bool := match o with Some _ => true | None => false end.
Definition opt_list {A} (o : option A) : list A := match o with Some a => [a] | None => [] end.
