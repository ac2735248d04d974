(* Reason codes: packets/macros/reason_code_macros.rs and packets/*/reason_code.rs *)
From Verif Require Import Base Prims.

(* reason_code_macros.rs L108-247: all the names known to the macro.  Each packet type has its own Rust enum;
   here they share one type and each packet type has the list of the codes of its enum. *)
Inductive rc :=
| RSuccess
| RNormalDisconnection
| RGrantedQoS0
| RGrantedQoS1
| RGrantedQoS2
| RDisconnectWithWillMessage
| RNoMatchingSubscribers
| RNoSubscriptionExisted
| RContinueAuthentication
| RReAuthenticate
| RUnspecifiedError
| RMalformedPacket
| RProtocolError
| RImplementationSpecificError
| RUnsupportedProtocolVersion
| RClientIdentifierNotValid
| RBadUsernameOrPassword
| RNotAuthorized
| RServerUnavailable
| RServerBusy
| RBanned
| RServerShuttingDown
| RBadAuthenticationMethod
| RKeepAliveTimeout
| RSessionTakenOver
| RTopicFilterInvalid
| RTopicNameInvalid
| RPacketIdentifierInUse
| RPacketIdentifierNotFound
| RReceiveMaximumExceeded
| RTopicAliasInvalid
| RPacketTooLarge
| RMessageRateTooHigh
| RQuotaExceeded
| RAdministrativeAction
| RPayloadFormatInvalid
| RRetainNotSupported
| RQosNotSupported
| RUseAnotherServer
| RServerMoved
| RSharedSubscriptionsNotSupported
| RConnectionRateExceeded
| RMaximumConnectTime
| RSubscriptionIdentifiersNotSupported
| RWildcardSubscriptionsNotSupported.

Definition rc_eq_dec (a b : rc) : {a = b} + {a <> b}.
Proof. decide equality. Defined.
Definition rc_eqb (a b : rc) : bool := if rc_eq_dec a b then true else false.

(* reason_code_macros.rs L108-247 (reason_code_internal!) and L20-25 (to_u8) *)
Definition rc_to_u8 (r : rc) : N :=
  match r with
  | RSuccess => 0
  | RNormalDisconnection => 0
  | RGrantedQoS0 => 0
  | RGrantedQoS1 => 1
  | RGrantedQoS2 => 2
  | RDisconnectWithWillMessage => 4
  | RNoMatchingSubscribers => 16
  | RNoSubscriptionExisted => 17
  | RContinueAuthentication => 24
  | RReAuthenticate => 25
  | RUnspecifiedError => 128
  | RMalformedPacket => 129
  | RProtocolError => 130
  | RImplementationSpecificError => 131
  | RUnsupportedProtocolVersion => 132
  | RClientIdentifierNotValid => 133
  | RBadUsernameOrPassword => 134
  | RNotAuthorized => 135
  | RServerUnavailable => 136
  | RServerBusy => 137
  | RBanned => 138
  | RServerShuttingDown => 139
  | RBadAuthenticationMethod => 140
  | RKeepAliveTimeout => 141
  | RSessionTakenOver => 142
  | RTopicFilterInvalid => 143
  | RTopicNameInvalid => 144
  | RPacketIdentifierInUse => 145
  | RPacketIdentifierNotFound => 146
  | RReceiveMaximumExceeded => 147
  | RTopicAliasInvalid => 148
  | RPacketTooLarge => 149
  | RMessageRateTooHigh => 150
  | RQuotaExceeded => 151
  | RAdministrativeAction => 152
  | RPayloadFormatInvalid => 153
  | RRetainNotSupported => 154
  | RQosNotSupported => 155
  | RUseAnotherServer => 156
  | RServerMoved => 157
  | RSharedSubscriptionsNotSupported => 158
  | RConnectionRateExceeded => 159
  | RMaximumConnectTime => 160
  | RSubscriptionIdentifiersNotSupported => 161
  | RWildcardSubscriptionsNotSupported => 162
  end.

(* packets/connack/reason_code.rs L1-25: ConnAckReasonCode *)
Definition connack_codes : list rc :=
  [RSuccess; RUnspecifiedError; RMalformedPacket; RProtocolError; RImplementationSpecificError;
   RUnsupportedProtocolVersion; RClientIdentifierNotValid; RBadUsernameOrPassword; RNotAuthorized;
   RServerUnavailable; RServerBusy; RBanned; RBadAuthenticationMethod; RTopicNameInvalid;
   RPacketTooLarge; RQuotaExceeded; RPayloadFormatInvalid; RRetainNotSupported; RQosNotSupported;
   RUseAnotherServer; RServerMoved; RConnectionRateExceeded].

(* packets/puback/reason_code.rs L1-12: PubAckReasonCode *)
Definition puback_codes : list rc :=
  [RSuccess; RNoMatchingSubscribers; RUnspecifiedError; RImplementationSpecificError;
   RNotAuthorized; RTopicNameInvalid; RPacketIdentifierInUse; RQuotaExceeded; RPayloadFormatInvalid].

(* packets/pubrec/reason_code.rs L1-12: PubRecReasonCode *)
Definition pubrec_codes : list rc :=
  [RSuccess; RNoMatchingSubscribers; RUnspecifiedError; RImplementationSpecificError;
   RNotAuthorized; RTopicNameInvalid; RPacketIdentifierInUse; RQuotaExceeded; RPayloadFormatInvalid].

(* packets/pubrel/reason_code.rs L1-1: PubRelReasonCode *)
Definition pubrel_codes : list rc :=
  [RSuccess; RPacketIdentifierNotFound].

(* packets/pubcomp/reason_code.rs L1-1: PubCompReasonCode *)
Definition pubcomp_codes : list rc :=
  [RSuccess; RPacketIdentifierNotFound].

(* packets/suback/reason_code.rs L1-15: SubAckReasonCode *)
Definition suback_codes : list rc :=
  [RGrantedQoS0; RGrantedQoS1; RGrantedQoS2; RUnspecifiedError; RImplementationSpecificError;
   RNotAuthorized; RTopicFilterInvalid; RPacketIdentifierInUse; RQuotaExceeded;
   RSharedSubscriptionsNotSupported; RSubscriptionIdentifiersNotSupported;
   RWildcardSubscriptionsNotSupported].

(* packets/unsuback/reason_code.rs L1-10: UnsubAckReasonCode *)
Definition unsuback_codes : list rc :=
  [RSuccess; RNoSubscriptionExisted; RUnspecifiedError; RImplementationSpecificError;
   RNotAuthorized; RTopicFilterInvalid; RPacketIdentifierInUse].

(* packets/disconnect/reason_code.rs L1-32: DisconnectReasonCode *)
Definition disconnect_codes : list rc :=
  [RNormalDisconnection; RDisconnectWithWillMessage; RUnspecifiedError; RMalformedPacket;
   RProtocolError; RImplementationSpecificError; RNotAuthorized; RServerBusy; RServerShuttingDown;
   RKeepAliveTimeout; RSessionTakenOver; RTopicFilterInvalid; RTopicNameInvalid;
   RReceiveMaximumExceeded; RTopicAliasInvalid; RPacketTooLarge; RMessageRateTooHigh;
   RQuotaExceeded; RAdministrativeAction; RPayloadFormatInvalid; RRetainNotSupported;
   RQosNotSupported; RUseAnotherServer; RServerMoved; RSharedSubscriptionsNotSupported;
   RConnectionRateExceeded; RMaximumConnectTime; RSubscriptionIdentifiersNotSupported;
   RWildcardSubscriptionsNotSupported].

(* packets/auth/reason_code.rs L1-1: AuthReasonCode *)
Definition auth_codes : list rc :=
  [RSuccess; RContinueAuthentication; RReAuthenticate].

(* reason_code_macros.rs L12-18 and L68-86: from_u8 of the enum with codes [tbl] *)
Fixpoint rc_from_u8 (tbl : list rc) (v : N) : res rc :=
  match tbl with
  | [] => Err (UnknownProperty v)
  | r :: tbl' => if v =? rc_to_u8 r then Ok r else rc_from_u8 tbl' v
  end.

(* reason_code_macros.rs L36-45 *)
Definition read_rc (tbl : list rc) (b : bytes) : res (rc * bytes) :=
  if len b <? 1 then Err (InsufficientData 0 1)
  else let* (v, r) := get_u8 b in let* c := rc_from_u8 tbl v in Ok (c, r).

(* reason_code_macros.rs L28-34 *)
Definition aread_rc (tbl : list rc) (s : bytes) : ares rc :=
  aw* (v, n, r) := aread_u8 s in
  match rc_from_u8 tbl v with Ok c => AOk c 1 r | Err e => AErr e | Crash c => ACrash c end.

(* reason_code_macros.rs L47-63 *)
Definition write_rc (r : rc) : wr := w_put [rc_to_u8 r].
