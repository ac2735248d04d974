(* Property sections: packets/macros/properties_macros.rs and the per-packet property readers/writers *)
From Verif Require Import Base VarInt Prims.

(* packets/primitive/property_type.rs L78-116 *)
Definition ptype_to_u8 (t : ptype) : N :=
  match t with
  | PayloadFormatIndicator => 1
  | MessageExpiryInterval => 2
  | ContentType => 3
  | ResponseTopic => 8
  | CorrelationData => 9
  | SubscriptionIdentifier => 11
  | SessionExpiryInterval => 17
  | AssignedClientIdentifier => 18
  | ServerKeepAlive => 19
  | AuthenticationMethod => 21
  | AuthenticationData => 22
  | RequestProblemInformation => 23
  | WillDelayInterval => 24
  | RequestResponseInformation => 25
  | ResponseInformation => 26
  | ServerReference => 28
  | ReasonString => 31
  | ReceiveMaximum => 33
  | TopicAliasMaximum => 34
  | TopicAlias => 35
  | MaximumQos => 36
  | RetainAvailable => 37
  | UserProperty => 38
  | MaximumPacketSize => 39
  | WildcardSubscriptionAvailable => 40
  | SubscriptionIdentifierAvailable => 41
  | SharedSubscriptionAvailable => 42
  end.

(* packets/primitive/property_type.rs L41-76 *)
Definition ptype_from_u8 (v : N) : res ptype :=
  match v with
  | 1 => Ok PayloadFormatIndicator
  | 2 => Ok MessageExpiryInterval
  | 3 => Ok ContentType
  | 8 => Ok ResponseTopic
  | 9 => Ok CorrelationData
  | 11 => Ok SubscriptionIdentifier
  | 17 => Ok SessionExpiryInterval
  | 18 => Ok AssignedClientIdentifier
  | 19 => Ok ServerKeepAlive
  | 21 => Ok AuthenticationMethod
  | 22 => Ok AuthenticationData
  | 23 => Ok RequestProblemInformation
  | 24 => Ok WillDelayInterval
  | 25 => Ok RequestResponseInformation
  | 26 => Ok ResponseInformation
  | 28 => Ok ServerReference
  | 31 => Ok ReasonString
  | 33 => Ok ReceiveMaximum
  | 34 => Ok TopicAliasMaximum
  | 35 => Ok TopicAlias
  | 36 => Ok MaximumQos
  | 37 => Ok RetainAvailable
  | 38 => Ok UserProperty
  | 39 => Ok MaximumPacketSize
  | 40 => Ok WildcardSubscriptionAvailable
  | 41 => Ok SubscriptionIdentifierAvailable
  | 42 => Ok SharedSubscriptionAvailable
  | _ => Err (UnknownProperty v)
  end.

(* The kind of value each property carries: the field types of macros/properties_macros.rs L60-296 *)
Inductive vkind := K8 | K16 | K32 | KVar | KStr | KBin | KQos | KBool | KPair.

Definition kind_of (t : ptype) : vkind :=
  match t with
  | PayloadFormatIndicator => K8
  | MessageExpiryInterval => K32
  | ContentType => KStr
  | ResponseTopic => KStr
  | CorrelationData => KBin
  | SubscriptionIdentifier => KVar
  | SessionExpiryInterval => K32
  | AssignedClientIdentifier => KStr
  | ServerKeepAlive => K16
  | AuthenticationMethod => KStr
  | AuthenticationData => KBin
  | RequestProblemInformation => K8
  | WillDelayInterval => K32
  | RequestResponseInformation => K8
  | ResponseInformation => KStr
  | ServerReference => KStr
  | ReasonString => KStr
  | ReceiveMaximum => K16
  | TopicAliasMaximum => K16
  | TopicAlias => K16
  | MaximumQos => KQos
  | RetainAvailable => KBool
  | UserProperty => KPair
  | MaximumPacketSize => K32
  | WildcardSubscriptionAvailable => KBool
  | SubscriptionIdentifierAvailable => KBool
  | SharedSubscriptionAvailable => KBool
  end.

(* A property value *)
Inductive pval :=
| V8 (n : N) | V16 (n : N) | V32 (n : N) | VVar (n : N)
| VStr (s : bytes) | VBin (s : bytes) | VQos (q : qos) | VBool (b : bool)
| VPair (k v : bytes).

(* macros/properties_macros.rs L60-296: the property structs.  One record holds the fields of all of
   them; a particular packet type has the fields its configuration (below) declares, the others stay
   empty.  [subscription_identifiers] is the field of the declaration ListSubscriptionIdentifier. *)
Record props := Props {
  payload_format_indicator : option N;
  message_expiry_interval : option N;
  content_type : option bytes;
  response_topic : option bytes;
  correlation_data : option bytes;
  subscription_identifier : option N;
  session_expiry_interval : option N;
  assigned_client_identifier : option bytes;
  server_keep_alive : option N;
  authentication_method : option bytes;
  authentication_data : option bytes;
  request_problem_information : option N;
  will_delay_interval : option N;
  request_response_information : option N;
  response_info : option bytes;
  server_reference : option bytes;
  reason_string : option bytes;
  receive_maximum : option N;
  topic_alias_maximum : option N;
  topic_alias : option N;
  maximum_qos : option qos;
  retain_available : option bool;
  user_properties : list (bytes * bytes);
  maximum_packet_size : option N;
  wildcards_available : option bool;
  subscription_ids_available : option bool;
  shared_subscription_available : option bool;
  subscription_identifiers : list N
}.

(* derive(Default), macros/properties_macros.rs L63 *)
Definition no_props : props :=
  Props None None None None None None None None None None None None None None None None None None None None
    None None [] None None None None [].

(* Field access by property type; the two list-valued fields are separate. *)
Definition get_prop (t : ptype) (p : props) : option pval :=
  match t with
  | PayloadFormatIndicator => option_map V8 (payload_format_indicator p)
  | MessageExpiryInterval => option_map V32 (message_expiry_interval p)
  | ContentType => option_map VStr (content_type p)
  | ResponseTopic => option_map VStr (response_topic p)
  | CorrelationData => option_map VBin (correlation_data p)
  | SubscriptionIdentifier => option_map VVar (subscription_identifier p)
  | SessionExpiryInterval => option_map V32 (session_expiry_interval p)
  | AssignedClientIdentifier => option_map VStr (assigned_client_identifier p)
  | ServerKeepAlive => option_map V16 (server_keep_alive p)
  | AuthenticationMethod => option_map VStr (authentication_method p)
  | AuthenticationData => option_map VBin (authentication_data p)
  | RequestProblemInformation => option_map V8 (request_problem_information p)
  | WillDelayInterval => option_map V32 (will_delay_interval p)
  | RequestResponseInformation => option_map V8 (request_response_information p)
  | ResponseInformation => option_map VStr (response_info p)
  | ServerReference => option_map VStr (server_reference p)
  | ReasonString => option_map VStr (reason_string p)
  | ReceiveMaximum => option_map V16 (receive_maximum p)
  | TopicAliasMaximum => option_map V16 (topic_alias_maximum p)
  | TopicAlias => option_map V16 (topic_alias p)
  | MaximumQos => option_map VQos (maximum_qos p)
  | RetainAvailable => option_map VBool (retain_available p)
  | UserProperty => None
  | MaximumPacketSize => option_map V32 (maximum_packet_size p)
  | WildcardSubscriptionAvailable => option_map VBool (wildcards_available p)
  | SubscriptionIdentifierAvailable => option_map VBool (subscription_ids_available p)
  | SharedSubscriptionAvailable => option_map VBool (shared_subscription_available p)
  end.

(* properties.field = Some(value), for the field of property type t *)
Definition set_prop (t : ptype) (v : pval) (p : props) : props :=
  match t, v with
  | PayloadFormatIndicator, V8 x =>
      Props (Some x) (message_expiry_interval p) (content_type p) (response_topic p) (correlation_data p)
        (subscription_identifier p) (session_expiry_interval p) (assigned_client_identifier p)
        (server_keep_alive p) (authentication_method p) (authentication_data p)
        (request_problem_information p) (will_delay_interval p) (request_response_information p)
        (response_info p) (server_reference p) (reason_string p) (receive_maximum p) (topic_alias_maximum
        p) (topic_alias p) (maximum_qos p) (retain_available p) (user_properties p) (maximum_packet_size
        p) (wildcards_available p) (subscription_ids_available p) (shared_subscription_available p)
        (subscription_identifiers p)
  | MessageExpiryInterval, V32 x =>
      Props (payload_format_indicator p) (Some x) (content_type p) (response_topic p) (correlation_data p)
        (subscription_identifier p) (session_expiry_interval p) (assigned_client_identifier p)
        (server_keep_alive p) (authentication_method p) (authentication_data p)
        (request_problem_information p) (will_delay_interval p) (request_response_information p)
        (response_info p) (server_reference p) (reason_string p) (receive_maximum p) (topic_alias_maximum
        p) (topic_alias p) (maximum_qos p) (retain_available p) (user_properties p) (maximum_packet_size
        p) (wildcards_available p) (subscription_ids_available p) (shared_subscription_available p)
        (subscription_identifiers p)
  | ContentType, VStr x =>
      Props (payload_format_indicator p) (message_expiry_interval p) (Some x) (response_topic p)
        (correlation_data p) (subscription_identifier p) (session_expiry_interval p)
        (assigned_client_identifier p) (server_keep_alive p) (authentication_method p)
        (authentication_data p) (request_problem_information p) (will_delay_interval p)
        (request_response_information p) (response_info p) (server_reference p) (reason_string p)
        (receive_maximum p) (topic_alias_maximum p) (topic_alias p) (maximum_qos p) (retain_available p)
        (user_properties p) (maximum_packet_size p) (wildcards_available p) (subscription_ids_available p)
        (shared_subscription_available p) (subscription_identifiers p)
  | ResponseTopic, VStr x =>
      Props (payload_format_indicator p) (message_expiry_interval p) (content_type p) (Some x)
        (correlation_data p) (subscription_identifier p) (session_expiry_interval p)
        (assigned_client_identifier p) (server_keep_alive p) (authentication_method p)
        (authentication_data p) (request_problem_information p) (will_delay_interval p)
        (request_response_information p) (response_info p) (server_reference p) (reason_string p)
        (receive_maximum p) (topic_alias_maximum p) (topic_alias p) (maximum_qos p) (retain_available p)
        (user_properties p) (maximum_packet_size p) (wildcards_available p) (subscription_ids_available p)
        (shared_subscription_available p) (subscription_identifiers p)
  | CorrelationData, VBin x =>
      Props (payload_format_indicator p) (message_expiry_interval p) (content_type p) (response_topic p)
        (Some x) (subscription_identifier p) (session_expiry_interval p) (assigned_client_identifier p)
        (server_keep_alive p) (authentication_method p) (authentication_data p)
        (request_problem_information p) (will_delay_interval p) (request_response_information p)
        (response_info p) (server_reference p) (reason_string p) (receive_maximum p) (topic_alias_maximum
        p) (topic_alias p) (maximum_qos p) (retain_available p) (user_properties p) (maximum_packet_size
        p) (wildcards_available p) (subscription_ids_available p) (shared_subscription_available p)
        (subscription_identifiers p)
  | SubscriptionIdentifier, VVar x =>
      Props (payload_format_indicator p) (message_expiry_interval p) (content_type p) (response_topic p)
        (correlation_data p) (Some x) (session_expiry_interval p) (assigned_client_identifier p)
        (server_keep_alive p) (authentication_method p) (authentication_data p)
        (request_problem_information p) (will_delay_interval p) (request_response_information p)
        (response_info p) (server_reference p) (reason_string p) (receive_maximum p) (topic_alias_maximum
        p) (topic_alias p) (maximum_qos p) (retain_available p) (user_properties p) (maximum_packet_size
        p) (wildcards_available p) (subscription_ids_available p) (shared_subscription_available p)
        (subscription_identifiers p)
  | SessionExpiryInterval, V32 x =>
      Props (payload_format_indicator p) (message_expiry_interval p) (content_type p) (response_topic p)
        (correlation_data p) (subscription_identifier p) (Some x) (assigned_client_identifier p)
        (server_keep_alive p) (authentication_method p) (authentication_data p)
        (request_problem_information p) (will_delay_interval p) (request_response_information p)
        (response_info p) (server_reference p) (reason_string p) (receive_maximum p) (topic_alias_maximum
        p) (topic_alias p) (maximum_qos p) (retain_available p) (user_properties p) (maximum_packet_size
        p) (wildcards_available p) (subscription_ids_available p) (shared_subscription_available p)
        (subscription_identifiers p)
  | AssignedClientIdentifier, VStr x =>
      Props (payload_format_indicator p) (message_expiry_interval p) (content_type p) (response_topic p)
        (correlation_data p) (subscription_identifier p) (session_expiry_interval p) (Some x)
        (server_keep_alive p) (authentication_method p) (authentication_data p)
        (request_problem_information p) (will_delay_interval p) (request_response_information p)
        (response_info p) (server_reference p) (reason_string p) (receive_maximum p) (topic_alias_maximum
        p) (topic_alias p) (maximum_qos p) (retain_available p) (user_properties p) (maximum_packet_size
        p) (wildcards_available p) (subscription_ids_available p) (shared_subscription_available p)
        (subscription_identifiers p)
  | ServerKeepAlive, V16 x =>
      Props (payload_format_indicator p) (message_expiry_interval p) (content_type p) (response_topic p)
        (correlation_data p) (subscription_identifier p) (session_expiry_interval p)
        (assigned_client_identifier p) (Some x) (authentication_method p) (authentication_data p)
        (request_problem_information p) (will_delay_interval p) (request_response_information p)
        (response_info p) (server_reference p) (reason_string p) (receive_maximum p) (topic_alias_maximum
        p) (topic_alias p) (maximum_qos p) (retain_available p) (user_properties p) (maximum_packet_size
        p) (wildcards_available p) (subscription_ids_available p) (shared_subscription_available p)
        (subscription_identifiers p)
  | AuthenticationMethod, VStr x =>
      Props (payload_format_indicator p) (message_expiry_interval p) (content_type p) (response_topic p)
        (correlation_data p) (subscription_identifier p) (session_expiry_interval p)
        (assigned_client_identifier p) (server_keep_alive p) (Some x) (authentication_data p)
        (request_problem_information p) (will_delay_interval p) (request_response_information p)
        (response_info p) (server_reference p) (reason_string p) (receive_maximum p) (topic_alias_maximum
        p) (topic_alias p) (maximum_qos p) (retain_available p) (user_properties p) (maximum_packet_size
        p) (wildcards_available p) (subscription_ids_available p) (shared_subscription_available p)
        (subscription_identifiers p)
  | AuthenticationData, VBin x =>
      Props (payload_format_indicator p) (message_expiry_interval p) (content_type p) (response_topic p)
        (correlation_data p) (subscription_identifier p) (session_expiry_interval p)
        (assigned_client_identifier p) (server_keep_alive p) (authentication_method p) (Some x)
        (request_problem_information p) (will_delay_interval p) (request_response_information p)
        (response_info p) (server_reference p) (reason_string p) (receive_maximum p) (topic_alias_maximum
        p) (topic_alias p) (maximum_qos p) (retain_available p) (user_properties p) (maximum_packet_size
        p) (wildcards_available p) (subscription_ids_available p) (shared_subscription_available p)
        (subscription_identifiers p)
  | RequestProblemInformation, V8 x =>
      Props (payload_format_indicator p) (message_expiry_interval p) (content_type p) (response_topic p)
        (correlation_data p) (subscription_identifier p) (session_expiry_interval p)
        (assigned_client_identifier p) (server_keep_alive p) (authentication_method p)
        (authentication_data p) (Some x) (will_delay_interval p) (request_response_information p)
        (response_info p) (server_reference p) (reason_string p) (receive_maximum p) (topic_alias_maximum
        p) (topic_alias p) (maximum_qos p) (retain_available p) (user_properties p) (maximum_packet_size
        p) (wildcards_available p) (subscription_ids_available p) (shared_subscription_available p)
        (subscription_identifiers p)
  | WillDelayInterval, V32 x =>
      Props (payload_format_indicator p) (message_expiry_interval p) (content_type p) (response_topic p)
        (correlation_data p) (subscription_identifier p) (session_expiry_interval p)
        (assigned_client_identifier p) (server_keep_alive p) (authentication_method p)
        (authentication_data p) (request_problem_information p) (Some x) (request_response_information p)
        (response_info p) (server_reference p) (reason_string p) (receive_maximum p) (topic_alias_maximum
        p) (topic_alias p) (maximum_qos p) (retain_available p) (user_properties p) (maximum_packet_size
        p) (wildcards_available p) (subscription_ids_available p) (shared_subscription_available p)
        (subscription_identifiers p)
  | RequestResponseInformation, V8 x =>
      Props (payload_format_indicator p) (message_expiry_interval p) (content_type p) (response_topic p)
        (correlation_data p) (subscription_identifier p) (session_expiry_interval p)
        (assigned_client_identifier p) (server_keep_alive p) (authentication_method p)
        (authentication_data p) (request_problem_information p) (will_delay_interval p) (Some x)
        (response_info p) (server_reference p) (reason_string p) (receive_maximum p) (topic_alias_maximum
        p) (topic_alias p) (maximum_qos p) (retain_available p) (user_properties p) (maximum_packet_size
        p) (wildcards_available p) (subscription_ids_available p) (shared_subscription_available p)
        (subscription_identifiers p)
  | ResponseInformation, VStr x =>
      Props (payload_format_indicator p) (message_expiry_interval p) (content_type p) (response_topic p)
        (correlation_data p) (subscription_identifier p) (session_expiry_interval p)
        (assigned_client_identifier p) (server_keep_alive p) (authentication_method p)
        (authentication_data p) (request_problem_information p) (will_delay_interval p)
        (request_response_information p) (Some x) (server_reference p) (reason_string p) (receive_maximum
        p) (topic_alias_maximum p) (topic_alias p) (maximum_qos p) (retain_available p) (user_properties
        p) (maximum_packet_size p) (wildcards_available p) (subscription_ids_available p)
        (shared_subscription_available p) (subscription_identifiers p)
  | ServerReference, VStr x =>
      Props (payload_format_indicator p) (message_expiry_interval p) (content_type p) (response_topic p)
        (correlation_data p) (subscription_identifier p) (session_expiry_interval p)
        (assigned_client_identifier p) (server_keep_alive p) (authentication_method p)
        (authentication_data p) (request_problem_information p) (will_delay_interval p)
        (request_response_information p) (response_info p) (Some x) (reason_string p) (receive_maximum p)
        (topic_alias_maximum p) (topic_alias p) (maximum_qos p) (retain_available p) (user_properties p)
        (maximum_packet_size p) (wildcards_available p) (subscription_ids_available p)
        (shared_subscription_available p) (subscription_identifiers p)
  | ReasonString, VStr x =>
      Props (payload_format_indicator p) (message_expiry_interval p) (content_type p) (response_topic p)
        (correlation_data p) (subscription_identifier p) (session_expiry_interval p)
        (assigned_client_identifier p) (server_keep_alive p) (authentication_method p)
        (authentication_data p) (request_problem_information p) (will_delay_interval p)
        (request_response_information p) (response_info p) (server_reference p) (Some x) (receive_maximum
        p) (topic_alias_maximum p) (topic_alias p) (maximum_qos p) (retain_available p) (user_properties
        p) (maximum_packet_size p) (wildcards_available p) (subscription_ids_available p)
        (shared_subscription_available p) (subscription_identifiers p)
  | ReceiveMaximum, V16 x =>
      Props (payload_format_indicator p) (message_expiry_interval p) (content_type p) (response_topic p)
        (correlation_data p) (subscription_identifier p) (session_expiry_interval p)
        (assigned_client_identifier p) (server_keep_alive p) (authentication_method p)
        (authentication_data p) (request_problem_information p) (will_delay_interval p)
        (request_response_information p) (response_info p) (server_reference p) (reason_string p) (Some x)
        (topic_alias_maximum p) (topic_alias p) (maximum_qos p) (retain_available p) (user_properties p)
        (maximum_packet_size p) (wildcards_available p) (subscription_ids_available p)
        (shared_subscription_available p) (subscription_identifiers p)
  | TopicAliasMaximum, V16 x =>
      Props (payload_format_indicator p) (message_expiry_interval p) (content_type p) (response_topic p)
        (correlation_data p) (subscription_identifier p) (session_expiry_interval p)
        (assigned_client_identifier p) (server_keep_alive p) (authentication_method p)
        (authentication_data p) (request_problem_information p) (will_delay_interval p)
        (request_response_information p) (response_info p) (server_reference p) (reason_string p)
        (receive_maximum p) (Some x) (topic_alias p) (maximum_qos p) (retain_available p) (user_properties
        p) (maximum_packet_size p) (wildcards_available p) (subscription_ids_available p)
        (shared_subscription_available p) (subscription_identifiers p)
  | TopicAlias, V16 x =>
      Props (payload_format_indicator p) (message_expiry_interval p) (content_type p) (response_topic p)
        (correlation_data p) (subscription_identifier p) (session_expiry_interval p)
        (assigned_client_identifier p) (server_keep_alive p) (authentication_method p)
        (authentication_data p) (request_problem_information p) (will_delay_interval p)
        (request_response_information p) (response_info p) (server_reference p) (reason_string p)
        (receive_maximum p) (topic_alias_maximum p) (Some x) (maximum_qos p) (retain_available p)
        (user_properties p) (maximum_packet_size p) (wildcards_available p) (subscription_ids_available p)
        (shared_subscription_available p) (subscription_identifiers p)
  | MaximumQos, VQos x =>
      Props (payload_format_indicator p) (message_expiry_interval p) (content_type p) (response_topic p)
        (correlation_data p) (subscription_identifier p) (session_expiry_interval p)
        (assigned_client_identifier p) (server_keep_alive p) (authentication_method p)
        (authentication_data p) (request_problem_information p) (will_delay_interval p)
        (request_response_information p) (response_info p) (server_reference p) (reason_string p)
        (receive_maximum p) (topic_alias_maximum p) (topic_alias p) (Some x) (retain_available p)
        (user_properties p) (maximum_packet_size p) (wildcards_available p) (subscription_ids_available p)
        (shared_subscription_available p) (subscription_identifiers p)
  | RetainAvailable, VBool x =>
      Props (payload_format_indicator p) (message_expiry_interval p) (content_type p) (response_topic p)
        (correlation_data p) (subscription_identifier p) (session_expiry_interval p)
        (assigned_client_identifier p) (server_keep_alive p) (authentication_method p)
        (authentication_data p) (request_problem_information p) (will_delay_interval p)
        (request_response_information p) (response_info p) (server_reference p) (reason_string p)
        (receive_maximum p) (topic_alias_maximum p) (topic_alias p) (maximum_qos p) (Some x)
        (user_properties p) (maximum_packet_size p) (wildcards_available p) (subscription_ids_available p)
        (shared_subscription_available p) (subscription_identifiers p)
  | MaximumPacketSize, V32 x =>
      Props (payload_format_indicator p) (message_expiry_interval p) (content_type p) (response_topic p)
        (correlation_data p) (subscription_identifier p) (session_expiry_interval p)
        (assigned_client_identifier p) (server_keep_alive p) (authentication_method p)
        (authentication_data p) (request_problem_information p) (will_delay_interval p)
        (request_response_information p) (response_info p) (server_reference p) (reason_string p)
        (receive_maximum p) (topic_alias_maximum p) (topic_alias p) (maximum_qos p) (retain_available p)
        (user_properties p) (Some x) (wildcards_available p) (subscription_ids_available p)
        (shared_subscription_available p) (subscription_identifiers p)
  | WildcardSubscriptionAvailable, VBool x =>
      Props (payload_format_indicator p) (message_expiry_interval p) (content_type p) (response_topic p)
        (correlation_data p) (subscription_identifier p) (session_expiry_interval p)
        (assigned_client_identifier p) (server_keep_alive p) (authentication_method p)
        (authentication_data p) (request_problem_information p) (will_delay_interval p)
        (request_response_information p) (response_info p) (server_reference p) (reason_string p)
        (receive_maximum p) (topic_alias_maximum p) (topic_alias p) (maximum_qos p) (retain_available p)
        (user_properties p) (maximum_packet_size p) (Some x) (subscription_ids_available p)
        (shared_subscription_available p) (subscription_identifiers p)
  | SubscriptionIdentifierAvailable, VBool x =>
      Props (payload_format_indicator p) (message_expiry_interval p) (content_type p) (response_topic p)
        (correlation_data p) (subscription_identifier p) (session_expiry_interval p)
        (assigned_client_identifier p) (server_keep_alive p) (authentication_method p)
        (authentication_data p) (request_problem_information p) (will_delay_interval p)
        (request_response_information p) (response_info p) (server_reference p) (reason_string p)
        (receive_maximum p) (topic_alias_maximum p) (topic_alias p) (maximum_qos p) (retain_available p)
        (user_properties p) (maximum_packet_size p) (wildcards_available p) (Some x)
        (shared_subscription_available p) (subscription_identifiers p)
  | SharedSubscriptionAvailable, VBool x =>
      Props (payload_format_indicator p) (message_expiry_interval p) (content_type p) (response_topic p)
        (correlation_data p) (subscription_identifier p) (session_expiry_interval p)
        (assigned_client_identifier p) (server_keep_alive p) (authentication_method p)
        (authentication_data p) (request_problem_information p) (will_delay_interval p)
        (request_response_information p) (response_info p) (server_reference p) (reason_string p)
        (receive_maximum p) (topic_alias_maximum p) (topic_alias p) (maximum_qos p) (retain_available p)
        (user_properties p) (maximum_packet_size p) (wildcards_available p) (subscription_ids_available p)
        (Some x) (subscription_identifiers p)
  | _, _ => p
  end.

(* properties.user_properties.push((k, v)) *)
Definition push_user (k v : bytes) (p : props) : props :=
  Props (payload_format_indicator p) (message_expiry_interval p) (content_type p) (response_topic p)
    (correlation_data p) (subscription_identifier p) (session_expiry_interval p) (assigned_client_identifier
    p) (server_keep_alive p) (authentication_method p) (authentication_data p) (request_problem_information p)
    (will_delay_interval p) (request_response_information p) (response_info p) (server_reference p)
    (reason_string p) (receive_maximum p) (topic_alias_maximum p) (topic_alias p) (maximum_qos p)
    (retain_available p) (user_properties p ++ [(k, v)]) (maximum_packet_size p) (wildcards_available p)
    (subscription_ids_available p) (shared_subscription_available p) (subscription_identifiers p).

(* properties.subscription_identifiers.push(n) *)
Definition push_subid (n : N) (p : props) : props :=
  Props (payload_format_indicator p) (message_expiry_interval p) (content_type p) (response_topic p)
    (correlation_data p) (subscription_identifier p) (session_expiry_interval p) (assigned_client_identifier
    p) (server_keep_alive p) (authentication_method p) (authentication_data p) (request_problem_information p)
    (will_delay_interval p) (request_response_information p) (response_info p) (server_reference p)
    (reason_string p) (receive_maximum p) (topic_alias_maximum p) (topic_alias p) (maximum_qos p)
    (retain_available p) (user_properties p) (maximum_packet_size p) (wildcards_available p)
    (subscription_ids_available p) (shared_subscription_available p) (subscription_identifiers p ++ [n]).


(* ---- property identifiers ------------------------------------------------------------------ *)

(* packets/primitive/property_type.rs L118-126; also PropertyType::try_from(u8::read(..)?)?  *)
Definition read_ptype (b : bytes) : res (ptype * bytes) :=
  if len b <? 1 then Err (InsufficientData 0 1)
  else let* (v, r) := get_u8 b in let* t := ptype_from_u8 v in Ok (t, r).
(* packets/primitive/property_type.rs L128-138 *)
Definition aread_ptype (s : bytes) : ares ptype :=
  aw* (v, n, r) := aread_u8 s in
  match ptype_from_u8 v with Ok t => AOk t 1 r | Err e => AErr e | Crash c => ACrash c end.
(* packets/primitive/property_type.rs L140-156 *)
Definition write_ptype (t : ptype) : wr := w_put [ptype_to_u8 t].

(* ---- property values ------------------------------------------------------------------------ *)

(* The buffer reader of one value.  [unchecked]: the integers are read with Buf::get_*, which
   panics when the buffer is too short (connect/connect_properties.rs L98, L104, L110, L116, L122,
   L128); all other property readers use the checked readers. *)
Definition read_val (unchecked : bool) (k : vkind) (b : bytes) : res (pval * bytes) :=
  match k with
  | K8 => let* (v, r) := (if unchecked then get_u8 b else read_u8 b) in Ok (V8 v, r)
  | K16 => let* (v, r) := (if unchecked then get_u16 b else read_u16 b) in Ok (V16 v, r)
  | K32 => let* (v, r) := (if unchecked then get_u32 b else read_u32 b) in Ok (V32 v, r)
  | KVar => let* (v, _, r) := read_varint b in Ok (VVar v, r)
  | KStr => let* (v, r) := read_str b in Ok (VStr v, r)
  | KBin => let* (v, r) := read_bin b in Ok (VBin v, r)
  | KQos => let* (v, r) := read_qos b in Ok (VQos v, r)
  | KBool => let* (v, r) := read_bool b in Ok (VBool v, r)
  | KPair => let* (x, r) := read_str b in let* (y, r') := read_str r in Ok (VPair x y, r')
  end.

(* macros/properties_macros.rs L298-547: the stream reader of one value, and the number of bytes
   added to read_property_bytes *)
Definition aread_val (k : vkind) (s : bytes) : ares pval :=
  match k with
  | K8 => aw* (v, n, r) := aread_u8 s in AOk (V8 v) n r
  | K16 => aw* (v, n, r) := aread_u16 s in AOk (V16 v) n r
  | K32 => aw* (v, n, r) := aread_u32 s in AOk (V32 v) n r
  | KVar => aw* (v, n, r) := aread_varint s in AOk (VVar v) n r
  | KStr => aw* (v, n, r) := aread_str s in AOk (VStr v) n r
  | KBin => aw* (v, n, r) := aread_bin s in AOk (VBin v) n r
  | KQos => aw* (v, n, r) := aread_qos s in AOk (VQos v) n r
  | KBool => aw* (v, n, r) := aread_bool s in AOk (VBool v) n r
  | KPair =>
      aw* (x, n, r) := aread_str s in
      aw* (y, n', r') := aread_str r in
      AOk (VPair x y) (n + n') r'
  end.

(* The buffer writer of one value (put_u8/put_u16/put_u32, str/Vec/QoS/bool write,
   write_variable_integer) *)
Definition write_val (v : pval) : wr :=
  match v with
  | V8 n => w_put (be8 n)
  | V16 n => w_put (be16 n)
  | V32 n => w_put (be32 n)
  | VVar n => write_varint n
  | VStr s => write_str s
  | VBin s => write_bin s
  | VQos q => write_qos q
  | VBool b => write_bool b
  | VPair k v => write_str k >>> write_str v
  end.

(* macros/properties_macros.rs L558-728: the stream writer of one value *)
Definition awrite_val (v : pval) : wr :=
  match v with
  | V8 n => w_put (be8 n)
  | V16 n => w_put (be16 n)
  | V32 n => w_put (be32 n)
  | VVar n => awrite_varint n
  | VStr s => write_str s
  | VBin s => write_bin s
  | VQos q => write_qos q
  | VBool b => write_bool b
  | VPair k v => write_str k >>> write_str v
  end.

(* macros/properties_macros.rs L730-878: length of the value of one property (without identifier) *)
Definition val_len (v : pval) : N :=
  match v with
  | V8 _ => 1
  | V16 _ => 2
  | V32 _ => 4
  | VVar n => variable_integer_len n
  | VStr s => str_len s
  | VBin s => bin_len s
  | VQos _ => 1
  | VBool _ => 1
  | VPair k v => str_len k + str_len v
  end.

(* ---- configurations --------------------------------------------------------------------------- *)

(* Each packet type's property struct is declared with define_properties! and has a hand-written
   buffer reader and writer.  They are all copies of one scheme; a configuration records where
   they differ. *)
Record pcfg := PCfg {
  c_packet : pkt_type;               (* packet type in UnexpectedProperty of the buffer reader *)
  c_decl : list ptype;               (* declared properties, in order *)
  c_order : list ptype;              (* order of the buffer writer *)
  c_sublist : bool;                  (* SubscriptionIdentifier is declared as ListSubscriptionIdentifier *)
  c_split : bool;                    (* buffer reader splits off the declared number of bytes *)
  c_unchecked : bool;                (* buffer reader uses the panicking integer readers *)
  c_short_malformed : bool;          (* a section that is too short is MalformedPacket *)
  c_pfi_inverted : bool;             (* the duplicate check of PayloadFormatIndicator is inverted *)
  c_dup_report : ptype -> ptype;     (* property named in DuplicateProperty by the buffer reader *)
  c_auth_strict : bool               (* buffer writer refuses AuthenticationData without method *)
}.

Definition same (t : ptype) : ptype := t.

(* connect/connect_properties.rs L17-157 *)
Definition connect_cfg : pcfg :=
  let l := [SessionExpiryInterval; ReceiveMaximum; MaximumPacketSize; TopicAliasMaximum;
            RequestResponseInformation; RequestProblemInformation; UserProperty;
            AuthenticationMethod; AuthenticationData] in
  PCfg TConnect l l false true true false false same true.

(* connect/last_will_properties.rs L10-123; the inverted check is L43-48 *)
Definition will_cfg : pcfg :=
  let l := [WillDelayInterval; PayloadFormatIndicator; MessageExpiryInterval; ContentType;
            ResponseTopic; CorrelationData; UserProperty] in
  PCfg TConnect l l false true false false true same false.

(* connack/properties.rs L8-255 *)
Definition connack_cfg : pcfg :=
  let l := [SessionExpiryInterval; ReceiveMaximum; MaximumQos; RetainAvailable; MaximumPacketSize;
            AssignedClientIdentifier; TopicAliasMaximum; ReasonString; UserProperty;
            WildcardSubscriptionAvailable; SubscriptionIdentifierAvailable;
            SharedSubscriptionAvailable; ServerKeepAlive; ResponseInformation; ServerReference;
            AuthenticationMethod; AuthenticationData] in
  PCfg TConnAck l l false true false false false same true.

(* publish/properties.rs L11-131 *)
Definition publish_cfg : pcfg :=
  PCfg TPublish
    [PayloadFormatIndicator; MessageExpiryInterval; ContentType; ResponseTopic; CorrelationData;
     SubscriptionIdentifier; TopicAlias; UserProperty]
    [PayloadFormatIndicator; MessageExpiryInterval; TopicAlias; ResponseTopic; CorrelationData;
     SubscriptionIdentifier; UserProperty; ContentType]
    true true false false false same false.

(* puback/mod.rs L143-200; pubrec/properties.rs L7-64; pubrel/properties.rs L7-70;
   pubcomp/properties.rs L7-64.  None of them splits: the loop runs until the packet's buffer is empty. *)
Definition ack_cfg (t : pkt_type) : pcfg :=
  PCfg t [ReasonString; UserProperty] [ReasonString; UserProperty]
    false false false false false same false.
Definition puback_cfg := ack_cfg TPubAck.
Definition pubrec_cfg := ack_cfg TPubRec.
Definition pubrel_cfg := ack_cfg TPubRel.
Definition pubcomp_cfg := ack_cfg TPubComp.

(* subscribe/properties.rs L7-67 *)
Definition subscribe_cfg : pcfg :=
  PCfg TSubscribe [SubscriptionIdentifier; UserProperty] [SubscriptionIdentifier; UserProperty]
    false true false false false same false.

(* suback/properties.rs L9-69 *)
Definition suback_cfg : pcfg :=
  PCfg TSubAck [SubscriptionIdentifier; UserProperty] [SubscriptionIdentifier; UserProperty]
    false true false false false same false.

(* unsubscribe/properties.rs L9-55 *)
Definition unsubscribe_cfg : pcfg :=
  PCfg TUnsubscribe [UserProperty] [UserProperty] false true false false false same false.

(* unsuback/properties.rs L5-63; the duplicate ReasonString is reported as SubscriptionIdentifier (L32) *)
Definition unsuback_cfg : pcfg :=
  PCfg TUnsubAck [ReasonString; UserProperty] [ReasonString; UserProperty]
    false true false false false
    (fun t => match t with ReasonString => SubscriptionIdentifier | _ => t end) false.

(* auth/properties.rs L9-92; L27 MalformedPacket; L36 reports SessionExpiryInterval *)
Definition auth_cfg : pcfg :=
  let l := [AuthenticationMethod; AuthenticationData; ReasonString; UserProperty] in
  PCfg TAuth l l false true false true false
    (fun t => match t with ReasonString => SessionExpiryInterval | _ => t end) false.

(* disconnect/properties.rs L9-80 *)
Definition disconnect_cfg : pcfg :=
  let l := [SessionExpiryInterval; ReasonString; UserProperty; ServerReference] in
  PCfg TDisconnect l l false true false false false same false.

Definition all_cfgs : list pcfg :=
  [connect_cfg; will_cfg; connack_cfg; publish_cfg; puback_cfg; pubrec_cfg; pubrel_cfg; pubcomp_cfg;
   subscribe_cfg; suback_cfg; unsubscribe_cfg; unsuback_cfg; auth_cfg; disconnect_cfg].

(* ---- reading a section -------------------------------------------------------------------------- *)

Definition declares (cfg : pcfg) (t : ptype) : bool := existsb (ptype_eqb t) (c_decl cfg).

(* properties.field = Some(v), or push for the list-valued fields *)
Definition store (cfg : pcfg) (t : ptype) (v : pval) (p : props) : props :=
  match t, v with
  | UserProperty, VPair k v => push_user k v p
  | SubscriptionIdentifier, VVar n => if c_sublist cfg then push_subid n p else set_prop t v p
  | _, _ => set_prop t v p
  end.

(* The duplicate check in front of each arm of the buffer readers *)
Definition is_dup (cfg : pcfg) (t : ptype) (p : props) : bool :=
  match t with
  | UserProperty => false
  | SubscriptionIdentifier => if c_sublist cfg then false else is_some (subscription_identifier p)
  | PayloadFormatIndicator =>
      if c_pfi_inverted cfg then negb (is_some (payload_format_indicator p))
      else is_some (payload_format_indicator p)
  | _ => is_some (get_prop t p)
  end.

(* The loop of the buffer readers, e.g. connack/properties.rs L43-150, publish/properties.rs L38-85 *)
Fixpoint read_props_loop (fuel : nat) (cfg : pcfg) (p : props) (b : bytes) : res (props * bytes) :=
  match fuel with
  | O => Crash OutOfFuel
  | S fuel' =>
      let* (t, r) := read_ptype b in
      if negb (declares cfg t) then Err (UnexpectedProperty t (c_packet cfg))
      else if is_dup cfg t p then Err (DuplicateProperty (c_dup_report cfg t))
      else
        let* (v, r') := read_val (c_unchecked cfg) (kind_of t) r in
        let p' := store cfg t v p in
        if len r' =? 0 then Ok (p', r') else read_props_loop fuel' cfg p' r'
  end.

(* Checks after the loop: connect/connect_properties.rs L151-153, the only reader with such a check *)
Definition post_check (cfg : pcfg) (p : props) : bool :=
  match c_packet cfg with
  | TConnect =>
      negb (is_some (authentication_data p)
            && negb (len (match authentication_data p with Some d => d | None => [] end) =? 0)
            && negb (is_some (authentication_method p)))
  | _ => true
  end.

(* The buffer readers, e.g. connack/properties.rs L30-154.  (last_will_properties.rs has no check
   after the loop, but its struct has no authentication fields either, so the check is vacuous.) *)
Definition read_props (cfg : pcfg) (b : bytes) : res (props * bytes) :=
  let* (n, _, r) := read_varint b in
  if n =? 0 then Ok (no_props, r)
  else if len r <? n then Err (if c_short_malformed cfg then MalformedPacket else InsufficientData (len r) n)
  else
    let data := if c_split cfg then take n r else r in
    let* (p, r') := read_props_loop (S (length data)) cfg no_props data in
    if post_check cfg p then Ok (p, if c_split cfg then drop n r else r')
    else Err MalformedPacketWithInfo.

(* Duplicate checks of the stream readers, macros/properties_macros.rs L298-547: none for
   SubscriptionIdentifier (L343-347, overwrites) and UserProperty *)
Definition adup (t : ptype) (p : props) : bool :=
  match t with
  | UserProperty => false
  | SubscriptionIdentifier => false
  | _ => is_some (get_prop t p)
  end.

(* macros/properties_macros.rs L475-480 and L509-511: property named in DuplicateProperty *)
Definition adup_report (t : ptype) : ptype :=
  match t with
  | TopicAlias => MessageExpiryInterval
  | MaximumPacketSize => RetainAvailable
  | _ => t
  end.

(* The loop of macros/properties_macros.rs L17-30: it stops only when the byte count equals the
   declared length exactly; UnexpectedProperty always names PubRel (L25) *)
Fixpoint aread_props_loop (fuel : nat) (cfg : pcfg) (p : props) (total n : N) (s : bytes) : ares props :=
  match fuel with
  | O => ACrash OutOfFuel
  | S fuel' =>
      aw* (t, c, r) := aread_ptype s in
      if negb (declares cfg t) then AErr (UnexpectedProperty t TPubRel)
      else if adup t p then AErr (DuplicateProperty (adup_report t))
      else
        aw* (v, c', r') := aread_val (kind_of t) r in
        let p' := store cfg t v p in
        let total' := total + c + c' in
        if total' =? n then AOk p' total' r' else aread_props_loop fuel' cfg p' total' n r'
  end.

(* macros/properties_macros.rs L8-34 *)
Definition aread_props (cfg : pcfg) (s : bytes) : ares props :=
  aw* (n, l, r) := aread_varint s in
  if n =? 0 then AOk no_props l r
  else
    aw* (p, total, r') := aread_props_loop (S (length r)) cfg no_props 0 n r in
    AOk p (l + total) r'.

(* ---- writing a section -------------------------------------------------------------------------- *)

(* The values a struct holds for property t, in the order in which they are written *)
Definition items (cfg : pcfg) (t : ptype) (p : props) : list pval :=
  match t with
  | UserProperty => map (fun kv => VPair (fst kv) (snd kv)) (user_properties p)
  | SubscriptionIdentifier =>
      if c_sublist cfg then map VVar (subscription_identifiers p) else opt_list (get_prop t p)
  | _ => opt_list (get_prop t p)
  end.

(* condition of macros/properties_macros.rs L622 and L788, auth/properties.rs L73-75 *)
Definition auth_data_written (p : props) : bool :=
  match authentication_data p with
  | Some d => negb (len d =? 0) && is_some (authentication_method p)
  | None => false
  end.

(* one property type in the wire length, macros/properties_macros.rs L730-878 *)
Definition type_len (cfg : pcfg) (p : props) (t : ptype) : N :=
  match t with
  | AuthenticationData =>
      if auth_data_written p
      then fold_right N.add 0 (map (fun v => 1 + val_len v) (items cfg t p)) else 0
  | _ => fold_right N.add 0 (map (fun v => 1 + val_len v) (items cfg t p))
  end.

(* macros/properties_macros.rs L48-56: wire_len *)
Definition props_len (cfg : pcfg) (p : props) : N :=
  fold_right N.add 0 (map (type_len cfg p) (c_decl cfg)).

(* one property type in the buffer writer *)
Definition write_type (cfg : pcfg) (p : props) (t : ptype) : wr :=
  let all := w_concat (map (fun v => write_ptype t >>> write_val v) (items cfg t p)) in
  match t with
  | AuthenticationData =>
      if c_auth_strict cfg then
        (* connect_properties.rs L68-74, connack/properties.rs L245-251 *)
        if is_some (authentication_data p) && negb (is_some (authentication_method p))
        then w_fail AuthDataWithoutAuthMethod else all
      else (* auth/properties.rs L73-79 *)
        if auth_data_written p then all else w_nil
  | _ => all
  end.

(* The buffer writers, e.g. connack/properties.rs L156-255 *)
Definition write_props (cfg : pcfg) (p : props) : wr :=
  write_varint (props_len cfg p) >>> w_concat (map (write_type cfg p) (c_order cfg)).

(* one property type in the stream writer, macros/properties_macros.rs L558-728 *)
Definition awrite_type (cfg : pcfg) (p : props) (t : ptype) : wr :=
  let all := w_concat (map (fun v => write_ptype t >>> awrite_val v) (items cfg t p)) in
  match t with
  | AssignedClientIdentifier => w_nil (* L607: writes nothing *)
  | AuthenticationData => if auth_data_written p then all else w_nil (* L620-627 *)
  | ServerReference => (* L652-657: the bytes of the value are not counted *)
      W (w_bytes all) (len (items cfg t p)) (w_err all)
  | _ => all
  end.

(* macros/properties_macros.rs L36-46 *)
Definition awrite_props (cfg : pcfg) (p : props) : wr :=
  awrite_varint (props_len cfg p) >>> w_concat (map (awrite_type cfg p) (c_decl cfg)).
