(* Connect options: connect_options.rs *)
From Verif Require Import Base VarInt Prims Props Codes Packets.

(* util/constants.rs L1-2 *)
Definition DEFAULT_RECEIVE_MAXIMUM : N := 65535.
Definition MAXIMUM_PACKET_SIZE : N := 268435455.

(* A std::time::Duration is a number of nanoseconds. *)
Definition second : N := 1000000000.
(* Duration::as_secs and Duration::from_secs *)
Definition as_secs (d : N) : N := d / second.
Definition from_secs (n : N) : N := n * second.

(* connect_options.rs L17-47 *)
Record options := Options {
  op_client_id : bytes;
  op_keep_alive : N;
  op_clean_start : bool;
  op_username : option bytes;
  op_password : option bytes;
  op_session_expiry : option N;
  op_receive_max : option N;
  op_send_max : option N;
  op_max_packet : option N;
  op_topic_alias_max : option N;
  op_request_response : option N;
  op_request_problem : option N;
  op_user_props : list (bytes * bytes);
  op_auth_method : option bytes;
  op_auth_data : option bytes;
  op_will : option will }.

(* connect_options.rs L82-102 (and Default, L49-70, with another client id) *)
Definition new_options (client_id : bytes) : options :=
  Options client_id (from_secs 60) true None None None None None None None None None [] None None None.

(* connect_options.rs L105-115 *)
Definition option_props (o : options) : props :=
  Props None None None None None None (op_session_expiry o) None None (op_auth_method o) (op_auth_data o)
    (op_request_problem o) None (op_request_response o) None None None (op_receive_max o)
    (op_topic_alias_max o) None None None (op_user_props o) (op_max_packet o) None None None [].

(* connect_options.rs L104-129; `as_secs() as u16` keeps the low 16 bits *)
Definition create_connect (o : options) : packet :=
  PConnect (Connect (op_clean_start o) (op_will o) (op_username o) (op_password o)
              (as_secs (op_keep_alive o) mod 65536) (option_props o) (op_client_id o)).

(* connect_options.rs L218-220, L230-232, L238-240 *)
Definition receive_max (o : options) : N :=
  match op_receive_max o with Some n => n | None => DEFAULT_RECEIVE_MAXIMUM end.
Definition max_packet (o : options) : N :=
  match op_max_packet o with Some n => n | None => MAXIMUM_PACKET_SIZE end.
Definition send_max (o : options) : N :=
  match op_send_max o with Some n => n | None => DEFAULT_RECEIVE_MAXIMUM end.

(* The setters; each changes one field.  connect_options.rs L144-147 *)
Definition set_client_id (x : bytes) (o : options) : options :=
  Options x (op_keep_alive o) (op_clean_start o) (op_username o) (op_password o) (op_session_expiry o)
    (op_receive_max o) (op_send_max o) (op_max_packet o) (op_topic_alias_max o) (op_request_response o)
    (op_request_problem o) (op_user_props o) (op_auth_method o) (op_auth_data o) (op_will o).
(* The field assignment used by set_keep_alive_interval and by tokio/network.rs L65 *)
Definition with_keep_alive (x : N) (o : options) : options :=
  Options (op_client_id o) x (op_clean_start o) (op_username o) (op_password o) (op_session_expiry o)
    (op_receive_max o) (op_send_max o) (op_max_packet o) (op_topic_alias_max o) (op_request_response o)
    (op_request_problem o) (op_user_props o) (op_auth_method o) (op_auth_data o) (op_will o).
(* connect_options.rs L201-204 *)
Definition set_keep_alive_interval (x : N) (o : options) : options := with_keep_alive (from_secs (as_secs x)) o.
(* connect_options.rs L156-159 *)
Definition set_clean_start (x : bool) (o : options) : options :=
  Options (op_client_id o) (op_keep_alive o) x (op_username o) (op_password o) (op_session_expiry o)
    (op_receive_max o) (op_send_max o) (op_max_packet o) (op_topic_alias_max o) (op_request_response o)
    (op_request_problem o) (op_user_props o) (op_auth_method o) (op_auth_data o) (op_will o).
(* connect_options.rs L164-167 *)
Definition set_username (x : bytes) (o : options) : options :=
  Options (op_client_id o) (op_keep_alive o) (op_clean_start o) (Some x) (op_password o) (op_session_expiry o)
    (op_receive_max o) (op_send_max o) (op_max_packet o) (op_topic_alias_max o) (op_request_response o)
    (op_request_problem o) (op_user_props o) (op_auth_method o) (op_auth_data o) (op_will o).
(* connect_options.rs L171-174 *)
Definition set_password (x : bytes) (o : options) : options :=
  Options (op_client_id o) (op_keep_alive o) (op_clean_start o) (op_username o) (Some x) (op_session_expiry o)
    (op_receive_max o) (op_send_max o) (op_max_packet o) (op_topic_alias_max o) (op_request_response o)
    (op_request_problem o) (op_user_props o) (op_auth_method o) (op_auth_data o) (op_will o).
(* connect_options.rs L187-190 *)
Definition set_session_expiry_interval (x : N) (o : options) : options :=
  Options (op_client_id o) (op_keep_alive o) (op_clean_start o) (op_username o) (op_password o) (Some x)
    (op_receive_max o) (op_send_max o) (op_max_packet o) (op_topic_alias_max o) (op_request_response o)
    (op_request_problem o) (op_user_props o) (op_auth_method o) (op_auth_data o) (op_will o).
(* connect_options.rs L206-209 *)
Definition set_last_will (x : will) (o : options) : options :=
  Options (op_client_id o) (op_keep_alive o) (op_clean_start o) (op_username o) (op_password o) (op_session_expiry o)
    (op_receive_max o) (op_send_max o) (op_max_packet o) (op_topic_alias_max o) (op_request_response o)
    (op_request_problem o) (op_user_props o) (op_auth_method o) (op_auth_data o) (Some x).
(* connect_options.rs L214-217 *)
Definition set_receive_maximum (x : N) (o : options) : options :=
  Options (op_client_id o) (op_keep_alive o) (op_clean_start o) (op_username o) (op_password o) (op_session_expiry o)
    (Some x) (op_send_max o) (op_max_packet o) (op_topic_alias_max o) (op_request_response o)
    (op_request_problem o) (op_user_props o) (op_auth_method o) (op_auth_data o) (op_will o).
(* connect_options.rs L222-229; the error (which carries the value) is None *)
Definition set_maximum_packet_size (x : N) (o : options) : option options :=
  if MAXIMUM_PACKET_SIZE <? x then None
  else Some (Options (op_client_id o) (op_keep_alive o) (op_clean_start o) (op_username o) (op_password o)
    (op_session_expiry o) (op_receive_max o) (op_send_max o) (Some x) (op_topic_alias_max o)
    (op_request_response o) (op_request_problem o) (op_user_props o) (op_auth_method o) (op_auth_data o) (op_will o)).
(* connect_options.rs L234-237 *)
Definition set_send_maximum (x : N) (o : options) : options :=
  Options (op_client_id o) (op_keep_alive o) (op_clean_start o) (op_username o) (op_password o) (op_session_expiry o)
    (op_receive_max o) (Some x) (op_max_packet o) (op_topic_alias_max o) (op_request_response o)
    (op_request_problem o) (op_user_props o) (op_auth_method o) (op_auth_data o) (op_will o).
