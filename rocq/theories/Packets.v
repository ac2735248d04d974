(* The fifteen packet types: packets/mod.rs and packets/*/mod.rs *)
From Verif Require Import Base VarInt Prims Props Codes.

Definition bit (b : bool) (n : N) : N := if b then N.shiftl 1 n else 0.
Definition test (v mask sh : N) : bool := negb (N.shiftr (N.land v mask) sh =? 0).

(* a property section in a wire length: the length of its length and its length *)
Definition section_len (cfg : pcfg) (p : props) : N :=
  variable_integer_len (props_len cfg p) + props_len cfg p.

(* ---- CONNECT ------------------------------------------------------------------------------- *)

(* connect/last_will.rs L11-24 *)
Record will := Will {
  wl_qos : qos; wl_retain : bool; wl_props : props; wl_topic : bytes; wl_payload : bytes }.

(* connect/mod.rs L36-55.  protocol_version has the only value V5 and is left out. *)
Record connect := Connect {
  cn_clean_start : bool; cn_will : option will; cn_username : option bytes;
  cn_password : option bytes; cn_keep_alive : N; cn_props : props; cn_client_id : bytes }.

(* connect/connect_flags.rs L18-26 *)
Record cflags := CFlags {
  cf_clean_start : bool; cf_will : bool; cf_will_qos : qos; cf_will_retain : bool;
  cf_password : bool; cf_username : bool }.

(* connect_flags.rs L29-38 *)
Definition cflags_from_u8 (v : N) : res cflags :=
  let* q := qos_from_u8 (N.shiftr (N.land v 24) 3) in
  Ok (CFlags (test v 2 1) (test v 4 2) q (test v 32 5) (test v 64 6) (test v 128 7)).

(* connect_flags.rs L40-48 *)
Definition cflags_to_u8 (f : cflags) : N :=
  N.lor (N.lor (N.lor (N.lor (N.lor (bit (cf_clean_start f) 1) (bit (cf_will f) 2))
    (N.shiftl (qos_to_u8 (cf_will_qos f)) 3)) (bit (cf_will_retain f) 5))
    (bit (cf_password f) 6)) (bit (cf_username f) 7).

(* connect_flags.rs L64-74 *)
Definition read_cflags (b : bytes) : res (cflags * bytes) :=
  if len b <? 1 then Err (InsufficientData 0 1)
  else let* (v, r) := get_u8 b in let* f := cflags_from_u8 v in Ok (f, r).
(* connect_flags.rs L76-84 *)
Definition aread_cflags (s : bytes) : ares cflags :=
  aw* (v, n, r) := aread_u8 s in
  match cflags_from_u8 v with Ok f => AOk f 1 r | Err e => AErr e | Crash c => ACrash c end.
(* connect_flags.rs L86-104 *)
Definition write_cflags (f : cflags) : wr := w_put [cflags_to_u8 f].

(* last_will.rs L36-48 *)
Definition read_will (q : qos) (retain : bool) (b : bytes) : res (will * bytes) :=
  let* (p, b) := read_props will_cfg b in
  let* (topic, b) := read_str b in
  let* (payload, b) := read_bin b in
  Ok (Will q retain p topic payload, b).
(* last_will.rs L49-69 *)
Definition aread_will (q : qos) (retain : bool) (s : bytes) : ares will :=
  aw* (p, n1, s) := aread_props will_cfg s in
  aw* (topic, n2, s) := aread_str s in
  aw* (payload, n3, s) := aread_bin s in
  AOk (Will q retain p topic payload) (n1 + n2 + n3) s.
(* last_will.rs L72-79 *)
Definition write_will (w : will) : wr :=
  write_props will_cfg (wl_props w) >>> write_str (wl_topic w) >>> write_bin (wl_payload w).
(* last_will.rs L81-92 *)
Definition awrite_will (w : will) : wr :=
  awrite_props will_cfg (wl_props w) >>> write_str (wl_topic w) >>> write_bin (wl_payload w).
(* last_will.rs L94-100 *)
Definition will_len (w : will) : N :=
  str_len (wl_topic w) + bin_len (wl_payload w) + section_len will_cfg (wl_props w).

Definition mqtt_name : bytes := [77; 81; 84; 84].

Fixpoint bytes_eqb (a b : bytes) : bool :=
  match a, b with
  | [], [] => true
  | x :: a', y :: b' => (x =? y) && bytes_eqb a' b'
  | _, _ => false
  end.

(* connect/mod.rs L97-98: the user name and password fields, present iff the flag is set *)
Definition read_opt_str (present : bool) (b : bytes) : res (option bytes * bytes) :=
  if present then let* (s, r) := read_str b in Ok (Some s, r) else Ok (None, b).
(* connect/mod.rs L151-162 *)
Definition aread_opt_str (present : bool) (s : bytes) : ares (option bytes) :=
  if present then aw* (x, n, r) := aread_str s in AOk (Some x) n r else AOk None 0 s.

(* connect/mod.rs L72-113.  The keep alive (L85) is read with Buf::get_u16, which panics when
   fewer than two bytes are left. *)
Definition read_connect (b : bytes) : res (connect * bytes) :=
  let* (name, b) := read_bin b in
  if negb (bytes_eqb name mqtt_name) then Err MalformedPacketWithInfo
  else
  let* b := read_protocol_version b in
  let* (f, b) := read_cflags b in
  let* (ka, b) := get_u16 b in
  let* (p, b) := read_props connect_cfg b in
  let* (cid, b) := read_str b in
  let* (w, b) := (if cf_will f then
                    let* (w, b) := read_will (cf_will_qos f) (cf_will_retain f) b in Ok (Some w, b)
                  else Ok (None, b)) in
  let* (u, b) := read_opt_str (cf_username f) b in
  let* (pw, b) := read_opt_str (cf_password f) b in
  Ok (Connect (cf_clean_start f) w u pw ka p cid, b).

(* connect/mod.rs L115-178 *)
Definition aread_connect (s : bytes) : ares connect :=
  aw* (name, n0, s) := aread_exact 6 s in
  if negb (bytes_eqb name ([0; 4] ++ mqtt_name)) then AErr MalformedPacketWithInfo
  else
  aw* (_, n1, s) := aread_protocol_version s in
  aw* (f, n2, s) := aread_cflags s in
  aw* (ka, n3, s) := aread_u16 s in
  aw* (p, n4, s) := aread_props connect_cfg s in
  aw* (cid, n5, s) := aread_str s in
  aw* (w, n6, s) := (if cf_will f then
                       aw* (w, n, s) := aread_will (cf_will_qos f) (cf_will_retain f) s in
                       AOk (Some w) n s
                     else AOk None 0 s) in
  aw* (u, n7, s) := aread_opt_str (cf_username f) s in
  aw* (pw, n8, s) := aread_opt_str (cf_password f) s in
  AOk (Connect (cf_clean_start f) w u pw ka p cid) (6 + 1 + 1 + 2 + (n4 + n5) + n6 + (n7 + n8)) s.

(* connect/mod.rs L186-197 and L238-249 *)
Definition connect_flags (c : connect) : cflags :=
  match cn_will c with
  | Some w => CFlags (cn_clean_start c) true (wl_qos w) (wl_retain w)
                (is_some (cn_password c)) (is_some (cn_username c))
  | None => CFlags (cn_clean_start c) false AtMostOnce false
              (is_some (cn_password c)) (is_some (cn_username c))
  end.

Definition write_opt {A} (f : A -> wr) (o : option A) : wr :=
  match o with Some a => f a | None => w_nil end.

(* connect/mod.rs L180-218 *)
Definition write_connect (c : connect) : wr :=
  write_str mqtt_name >>> write_protocol_version >>> write_cflags (connect_flags c)
  >>> w_put (be16 (cn_keep_alive c)) >>> write_props connect_cfg (cn_props c)
  >>> write_str (cn_client_id c) >>> write_opt write_will (cn_will c)
  >>> write_opt write_str (cn_username c) >>> write_opt write_str (cn_password c).

(* connect/mod.rs L220-272 *)
Definition awrite_connect (c : connect) : wr :=
  w_put ([0; 4] ++ mqtt_name) >>> write_protocol_version >>> write_cflags (connect_flags c)
  >>> w_put (be16 (cn_keep_alive c)) >>> awrite_props connect_cfg (cn_props c)
  >>> write_str (cn_client_id c) >>> write_opt awrite_will (cn_will c)
  >>> write_opt write_str (cn_username c) >>> write_opt write_str (cn_password c).

Definition opt_len {A} (f : A -> N) (o : option A) : N :=
  match o with Some a => f a | None => 0 end.

(* connect/mod.rs L274-295 *)
Definition connect_len (c : connect) : N :=
  str_len mqtt_name + 1 + 1 + 2 + section_len connect_cfg (cn_props c)
  + opt_len will_len (cn_will c) + opt_len str_len (cn_username c)
  + opt_len str_len (cn_password c) + str_len (cn_client_id c).

(* ---- CONNACK ------------------------------------------------------------------------------- *)

(* connack/mod.rs L22-32; ConnAckFlags (L104-107) has the only field session_present *)
Record connack := ConnAck { ca_session_present : bool; ca_rc : rc; ca_props : props }.

(* connack/mod.rs L124-136 *)
Definition read_caflags (b : bytes) : res (bool * bytes) :=
  if len b <? 1 then Err (InsufficientData 0 1)
  else let* (v, r) := get_u8 b in Ok (N.land v 1 =? 1, r).
(* connack/mod.rs L109-122 *)
Definition aread_caflags (s : bytes) : ares bool :=
  aw* (v, n, r) := aread_u8 s in AOk (N.land v 1 =? 1) 1 r.

(* connack/mod.rs L34-50 *)
Definition read_connack (rem : N) (b : bytes) : res (connack * bytes) :=
  if len b <? rem then Err (InsufficientData (len b) rem)
  else
  let* (f, b) := read_caflags b in
  let* (c, b) := read_rc connack_codes b in
  let* (p, b) := read_props connack_cfg b in
  Ok (ConnAck f c p, b).
(* connack/mod.rs L52-70 *)
Definition aread_connack (s : bytes) : ares connack :=
  aw* (f, n1, s) := aread_caflags s in
  aw* (c, n2, s) := aread_rc connack_codes s in
  aw* (p, n3, s) := aread_props connack_cfg s in
  AOk (ConnAck f c p) (n1 + n2 + n3) s.
(* connack/mod.rs L72-80, L138-145 *)
Definition write_connack (c : connack) : wr :=
  w_put [if ca_session_present c then 1 else 0] >>> write_rc (ca_rc c)
  >>> write_props connack_cfg (ca_props c).
(* connack/mod.rs L82-94, L147-158 *)
Definition awrite_connack (c : connack) : wr :=
  w_put [if ca_session_present c then 1 else 0] >>> write_rc (ca_rc c)
  >>> awrite_props connack_cfg (ca_props c).
(* connack/mod.rs L96-102 *)
Definition connack_len (c : connack) : N := 2 + section_len connack_cfg (ca_props c).

(* ---- PUBLISH ------------------------------------------------------------------------------- *)

(* publish/mod.rs L27-49 *)
Record publish := Publish {
  pb_dup : bool; pb_qos : qos; pb_retain : bool; pb_topic : bytes; pb_pkid : option N;
  pb_props : props; pb_payload : bytes }.

(* publish/mod.rs L69-93; the payload is the rest of the buffer *)
Definition read_publish (flags : N) (b : bytes) : res (publish * bytes) :=
  let* q := qos_from_u8 (N.shiftr (N.land flags 6) 1) in
  let* (topic, b) := read_str b in
  let* (pkid, b) := (if qos_eqb q AtMostOnce then Ok (None, b)
                     else let* (i, b) := read_u16 b in Ok (Some i, b)) in
  let* (p, b) := read_props publish_cfg b in
  Ok (Publish (negb (N.land flags 8 =? 0)) q (negb (N.land flags 1 =? 0)) topic pkid p b, []).

(* publish/mod.rs L95-138 *)
Definition aread_publish (flags rem : N) (s : bytes) : ares publish :=
  match qos_from_u8 (N.shiftr (N.land flags 6) 1) with
  | Ok q =>
      aw* (topic, n1, s) := aread_str s in
      aw* (pkid, n2, s) := (if qos_eqb q AtMostOnce then AOk None 0 s
                            else aw* (i, n, s) := aread_u16 s in AOk (Some i) 2 s) in
      aw* (p, n3, s) := aread_props publish_cfg s in
      let total := n1 + n2 + n3 in
      if rem <? total then AErr MalformedPacket
      else
        aw* (payload, n4, s) := aread_exact (rem - total) s in
        AOk (Publish (negb (N.land flags 8 =? 0)) q (negb (N.land flags 1 =? 0)) topic pkid p payload)
            (total + n4) s
  | Err e => AErr e
  | Crash c => ACrash c
  end.

(* publish/mod.rs L140-154 *)
Definition write_publish (p : publish) : wr :=
  write_str (pb_topic p) >>> write_opt (fun i => w_put (be16 i)) (pb_pkid p)
  >>> write_props publish_cfg (pb_props p) >>> w_put (pb_payload p).
(* publish/mod.rs L156-179 *)
Definition awrite_publish (p : publish) : wr :=
  write_str (pb_topic p) >>> write_opt (fun i => w_put (be16 i)) (pb_pkid p)
  >>> awrite_props publish_cfg (pb_props p) >>> w_put (pb_payload p).
(* publish/mod.rs L181-195 *)
Definition publish_len (p : publish) : N :=
  str_len (pb_topic p) + opt_len (fun _ => 2) (pb_pkid p)
  + section_len publish_cfg (pb_props p) + len (pb_payload p).

(* packets/mod.rs L99-110 and L194-203 *)
Definition publish_first (p : publish) : N :=
  N.lor (N.lor (N.lor 48 (if pb_dup p then 8 else 0)) (N.shiftl (qos_to_u8 (pb_qos p)) 1))
        (if pb_retain p then 1 else 0).

(* ---- PUBACK, PUBREC, PUBREL, PUBCOMP ----------------------------------------------------------- *)

(* puback/mod.rs L14-19, pubrec/mod.rs L22-26, pubrel/mod.rs L20-24, pubcomp/mod.rs L21-25: four
   structs with the same fields *)
Record ack := Ack { ak_id : N; ak_rc : rc; ak_props : props }.

(* puback/mod.rs L64-87 *)
Definition read_puback (rem : N) (b : bytes) : res (ack * bytes) :=
  if rem <? 2 then Err (InsufficientData (len b) 2)
  else
  let* (i, b) := read_u16 b in
  if rem =? 2 then Ok (Ack i RSuccess no_props, b)
  else
    let* (c, b) := read_rc puback_codes b in
    if rem =? 3 then Ok (Ack i c no_props, b)
    else let* (p, b) := read_props puback_cfg b in Ok (Ack i c p, b).

(* puback/mod.rs L21-62 *)
Definition aread_puback (rem : N) (s : bytes) : ares ack :=
  if rem <? 2 then AErr (InsufficientData rem 2)
  else
  aw* (i, n1, s) := aread_u16 s in
  if rem =? 2 then AOk (Ack i RSuccess no_props) 2 s
  else
    aw* (c, n2, s) := aread_rc puback_codes s in
    aw* (p, n3, s) := (if rem =? 3 then AOk no_props 0 s else aread_props puback_cfg s) in
    AOk (Ack i c p) (2 + n2 + n3) s.

(* pubrec/mod.rs L37-62 and pubcomp/mod.rs L37-62: the same code for both types *)
Definition read_ack4 (tbl : list rc) (cfg : pcfg) (rem : N) (b : bytes) : res (ack * bytes) :=
  if rem =? 2 then let* (i, b) := read_u16 b in Ok (Ack i RSuccess no_props, b)
  else if rem <? 4 then Err (InsufficientData (len b) 4)
  else
  let* (i, b) := read_u16 b in
  let* (c, b) := read_rc tbl b in
  let* (p, b) := read_props cfg b in
  Ok (Ack i c p, b).

(* pubrec/mod.rs L64-97 *)
Definition aread_pubrec (rem : N) (s : bytes) : ares ack :=
  aw* (i, n1, s) := aread_u16 s in
  if rem =? 2 then AOk (Ack i RSuccess no_props) 2 s
  else
    aw* (c, n2, s) := aread_rc pubrec_codes s in
    aw* (p, n3, s) := aread_props pubrec_cfg s in
    AOk (Ack i c p) (2 + (n2 + n3)) s.

(* pubrel/mod.rs L36-59 *)
Definition read_pubrel (rem : N) (b : bytes) : res (ack * bytes) :=
  if rem =? 2 then let* (i, b) := read_u16 b in Ok (Ack i RSuccess no_props, b)
  else if rem =? 3 then
    let* (i, b) := read_u16 b in
    let* (c, b) := read_rc pubrel_codes b in
    Ok (Ack i c no_props, b)
  else
    let* (i, b) := read_u16 b in
    let* (c, b) := read_rc pubrel_codes b in
    let* (p, b) := read_props pubrel_cfg b in
    Ok (Ack i c p, b).

(* pubrel/mod.rs L61-96 *)
Definition aread_pubrel (rem : N) (s : bytes) : ares ack :=
  aw* (i, n1, s) := aread_u16 s in
  if rem =? 2 then AOk (Ack i RSuccess no_props) 2 s
  else
    aw* (c, n2, s) := aread_rc pubrel_codes s in
    if rem =? 3 then AOk (Ack i c no_props) (2 + n2) s
    else
      aw* (p, n3, s) := aread_props pubrel_cfg s in
      AOk (Ack i c p) (2 + n2 + n3) s.

(* pubcomp/mod.rs L64-106 *)
Definition aread_pubcomp (rem : N) (s : bytes) : ares ack :=
  aw* (i, n1, s) := aread_u16 s in
  if rem =? 2 then AOk (Ack i RSuccess no_props) 2 s
  else if rem <? 4 then AErr (InsufficientData 0 4)
  else
    aw* (c, n2, s) := aread_rc pubcomp_codes s in
    aw* (p, n3, s) := aread_props pubcomp_cfg s in
    let total := 2 + n2 + n3 in
    if negb (total =? rem) then AErr (RemainingDataError total rem)
    else AOk (Ack i c p) total s.

(* the condition repeated in all writers: puback/mod.rs L93-95, pubrec/mod.rs L103-105, ... *)
Definition no_ack_props (p : props) : bool :=
  negb (is_some (reason_string p)) && (len (user_properties p) =? 0).

(* puback/mod.rs L89-103, pubrec/mod.rs L99-113, pubrel/mod.rs L98-112, pubcomp/mod.rs L108-122 *)
Definition write_ack (cfg : pcfg) (a : ack) : wr :=
  w_put (be16 (ak_id a)) >>>
  (if rc_eqb (ak_rc a) RSuccess && no_ack_props (ak_props a) then w_nil
   else if no_ack_props (ak_props a) then write_rc (ak_rc a)
   else write_rc (ak_rc a) >>> write_props cfg (ak_props a)).
(* puback/mod.rs L105-125, pubrec/mod.rs L114-135, pubrel/mod.rs L113-134, pubcomp/mod.rs L124-143 *)
Definition awrite_ack (cfg : pcfg) (a : ack) : wr :=
  w_put (be16 (ak_id a)) >>>
  (if rc_eqb (ak_rc a) RSuccess && no_ack_props (ak_props a) then w_nil
   else if no_ack_props (ak_props a) then write_rc (ak_rc a)
   else write_rc (ak_rc a) >>> awrite_props cfg (ak_props a)).
(* puback/mod.rs L127-141, pubrec/mod.rs L137-148, pubrel/mod.rs L136-147, pubcomp/mod.rs L145-156 *)
Definition ack_len (cfg : pcfg) (a : ack) : N :=
  if rc_eqb (ak_rc a) RSuccess && no_ack_props (ak_props a) then 2
  else if no_ack_props (ak_props a) then 3
  else 3 + section_len cfg (ak_props a).

(* ---- SUBSCRIBE ------------------------------------------------------------------------------- *)

(* subscribe/mod.rs L245-252 *)
Inductive rhandling := RhZero | RhOne | RhTwo.
(* subscribe/mod.rs L255-262 *)
Definition rh_from_u8 (v : N) : res rhandling :=
  if v =? 0 then Ok RhZero else if v =? 1 then Ok RhOne else if v =? 2 then Ok RhTwo
  else Err MalformedPacket.
(* subscribe/mod.rs L263-269 *)
Definition rh_to_u8 (r : rhandling) : N := match r with RhZero => 0 | RhOne => 1 | RhTwo => 2 end.

(* subscribe/mod.rs L152-158 *)
Record sopts := SOpts { so_rh : rhandling; so_rap : bool; so_nl : bool; so_qos : qos }.

(* subscribe/mod.rs L179-189 and L202-212 *)
Definition sopts_from_u8 (v : N) : res sopts :=
  let* rh := rh_from_u8 (N.shiftr (N.land v 48) 4) in
  let* q := qos_from_u8 (N.land v 3) in
  Ok (SOpts rh (test v 8 3) (test v 4 2) q).
(* subscribe/mod.rs L220 and L234 *)
Definition sopts_to_u8 (o : sopts) : N :=
  N.lor (N.lor (N.lor (N.shiftl (rh_to_u8 (so_rh o)) 4) (bit (so_rap o) 3)) (bit (so_nl o) 2))
        (qos_to_u8 (so_qos o)).

(* subscribe/mod.rs L171-193 *)
Definition read_sopts (b : bytes) : res (sopts * bytes) :=
  if len b <? 1 then Err (InsufficientData 0 1)
  else let* (v, r) := get_u8 b in let* o := sopts_from_u8 v in Ok (o, r).
(* subscribe/mod.rs L195-216 *)
Definition aread_sopts (s : bytes) : ares sopts :=
  aw* (v, n, r) := aread_u8 s in
  match sopts_from_u8 v with Ok o => AOk o 1 r | Err e => AErr e | Crash c => ACrash c end.
(* subscribe/mod.rs L218-239 *)
Definition write_sopts (o : sopts) : wr := w_put [sopts_to_u8 o].

(* subscribe/mod.rs L20-24 *)
Record subscribe := Subscribe {
  sb_id : N; sb_props : props; sb_topics : list (bytes * sopts) }.

(* subscribe/mod.rs L40-50 *)
Fixpoint read_sub_topics (fuel : nat) (b : bytes) : res (list (bytes * sopts) * bytes) :=
  match fuel with
  | O => Crash OutOfFuel
  | S fuel' =>
      let* (t, b) := read_str b in
      let* (o, b) := read_sopts b in
      if len b =? 0 then Ok ([(t, o)], b)
      else let* (l, b) := read_sub_topics fuel' b in Ok ((t, o) :: l, b)
  end.

(* subscribe/mod.rs L36-58 *)
Definition read_subscribe (b : bytes) : res (subscribe * bytes) :=
  let* (i, b) := read_u16 b in
  let* (p, b) := read_props subscribe_cfg b in
  let* (l, b) := read_sub_topics (S (length b)) b in
  Ok (Subscribe i p l, b).

(* subscribe/mod.rs L70-80: the loop is left as soon as remaining_length >= total_read_bytes *)
Fixpoint aread_sub_topics (fuel : nat) (rem total : N) (s : bytes) : ares (list (bytes * sopts)) :=
  match fuel with
  | O => ACrash OutOfFuel
  | S fuel' =>
      aw* (t, n1, s) := aread_str s in
      aw* (o, n2, s) := aread_sopts s in
      let total := total + (n1 + n2) in
      if total <=? rem then AOk [(t, o)] total s
      else aw* (l, total', s) := aread_sub_topics fuel' rem total s in AOk ((t, o) :: l) total' s
  end.

(* subscribe/mod.rs L60-91 *)
Definition aread_subscribe (rem : N) (s : bytes) : ares subscribe :=
  aw* (i, n1, s) := aread_u16 s in
  aw* (p, n2, s) := aread_props subscribe_cfg s in
  aw* (l, total, s) := aread_sub_topics (S (length s)) rem (2 + n2) s in
  AOk (Subscribe i p l) total s.

(* subscribe/mod.rs L93-105 *)
Definition write_subscribe (x : subscribe) : wr :=
  w_put (be16 (sb_id x)) >>> write_props subscribe_cfg (sb_props x)
  >>> w_concat (map (fun t => write_str (fst t) >>> write_sopts (snd t)) (sb_topics x)).
(* subscribe/mod.rs L107-124 *)
Definition awrite_subscribe (x : subscribe) : wr :=
  w_put (be16 (sb_id x)) >>> awrite_props subscribe_cfg (sb_props x)
  >>> w_concat (map (fun t => write_str (fst t) >>> write_sopts (snd t)) (sb_topics x)).

Definition sum_len {A} (f : A -> N) (l : list A) : N := fold_right N.add 0 (map f l).

(* subscribe/mod.rs L126-136 *)
Definition subscribe_len (x : subscribe) : N :=
  2 + section_len subscribe_cfg (sb_props x)
  + sum_len (fun t => str_len (fst t) + 1) (sb_topics x).

(* ---- SUBACK and UNSUBACK ----------------------------------------------------------------------- *)

(* suback/mod.rs L21-25, unsuback/mod.rs L19-23: two structs with the same fields *)
Record suback := SubAck { sa_id : N; sa_props : props; sa_codes : list rc }.

(* suback/mod.rs L35-43 (stop when read >= remaining_length) *)
Fixpoint read_codes_ge (fuel : nat) (tbl : list rc) (rem read : N) (b : bytes) : res (list rc * bytes) :=
  match fuel with
  | O => Crash OutOfFuel
  | S fuel' =>
      if rem <=? read then Ok ([], b)
      else
        let* (c, b) := read_rc tbl b in
        let* (l, b) := read_codes_ge fuel' tbl rem (read + 1) b in
        Ok (c :: l, b)
  end.

(* unsuback/mod.rs L32-40 (stop only when read == remaining_length) *)
Fixpoint read_codes_eq (fuel : nat) (tbl : list rc) (rem read : N) (b : bytes) : res (list rc * bytes) :=
  match fuel with
  | O => Crash OutOfFuel
  | S fuel' =>
      if read =? rem then Ok ([], b)
      else
        let* (c, b) := read_rc tbl b in
        let* (l, b) := read_codes_eq fuel' tbl rem (read + 1) b in
        Ok (c :: l, b)
  end.

(* suback/mod.rs L27-51 *)
Definition read_suback (rem : N) (b : bytes) : res (suback * bytes) :=
  let* (i, b) := read_u16 b in
  let* (p, b) := read_props suback_cfg b in
  let* (l, b) := read_codes_ge (S (length b)) suback_codes rem (2 + section_len suback_cfg p) b in
  Ok (SubAck i p l, b).

(* unsuback/mod.rs L25-48 *)
Definition read_unsuback (rem : N) (b : bytes) : res (suback * bytes) :=
  let* (i, b) := read_u16 b in
  let* (p, b) := read_props unsuback_cfg b in
  let* (l, b) := read_codes_eq (S (length b)) unsuback_codes rem (2 + section_len unsuback_cfg p) b in
  Ok (SubAck i p l, b).

(* suback/mod.rs L62-71 (stop only when remaining_length == total_read_bytes) *)
Fixpoint aread_codes_eq (fuel : nat) (tbl : list rc) (rem total : N) (s : bytes) : ares (list rc) :=
  match fuel with
  | O => ACrash OutOfFuel
  | S fuel' =>
      if rem =? total then AOk [] total s
      else
        aw* (c, n, s) := aread_rc tbl s in
        aw* (l, total', s) := aread_codes_eq fuel' tbl rem (total + n) s in
        AOk (c :: l) total' s
  end.

(* unsuback/mod.rs L61-71 (stop when total_read_bytes >= remaining_length) *)
Fixpoint aread_codes_ge (fuel : nat) (tbl : list rc) (rem total : N) (s : bytes) : ares (list rc) :=
  match fuel with
  | O => ACrash OutOfFuel
  | S fuel' =>
      if rem <=? total then AOk [] total s
      else
        aw* (c, n, s) := aread_rc tbl s in
        aw* (l, total', s) := aread_codes_ge fuel' tbl rem (total + n) s in
        AOk (c :: l) total' s
  end.

(* suback/mod.rs L53-82 *)
Definition aread_suback (rem : N) (s : bytes) : ares suback :=
  aw* (i, n1, s) := aread_u16 s in
  aw* (p, n2, s) := aread_props suback_cfg s in
  aw* (l, total, s) := aread_codes_eq (S (length s)) suback_codes rem (2 + n2) s in
  AOk (SubAck i p l) total s.

(* unsuback/mod.rs L50-82 *)
Definition aread_unsuback (rem : N) (s : bytes) : ares suback :=
  aw* (i, n1, s) := aread_u16 s in
  aw* (p, n2, s) := aread_props unsuback_cfg s in
  aw* (l, total, s) := aread_codes_ge (S (length s)) unsuback_codes rem (2 + n2) s in
  AOk (SubAck i p l) total s.

(* suback/mod.rs L84-95, unsuback/mod.rs L84-93 *)
Definition write_suback (cfg : pcfg) (x : suback) : wr :=
  w_put (be16 (sa_id x)) >>> write_props cfg (sa_props x) >>> w_concat (map write_rc (sa_codes x)).
(* suback/mod.rs L97-116, unsuback/mod.rs L95-116 *)
Definition awrite_suback (cfg : pcfg) (x : suback) : wr :=
  w_put (be16 (sa_id x)) >>> awrite_props cfg (sa_props x) >>> w_concat (map write_rc (sa_codes x)).
(* suback/mod.rs L118-122, unsuback/mod.rs L118-122 *)
Definition suback_len (cfg : pcfg) (x : suback) : N :=
  2 + section_len cfg (sa_props x) + len (sa_codes x).

(* ---- UNSUBSCRIBE ------------------------------------------------------------------------------- *)

(* unsubscribe/mod.rs L18-22 *)
Record unsubscribe := Unsubscribe { ub_id : N; ub_props : props; ub_topics : list bytes }.

(* unsubscribe/mod.rs L38-47 *)
Fixpoint read_unsub_topics (fuel : nat) (b : bytes) : res (list bytes * bytes) :=
  match fuel with
  | O => Crash OutOfFuel
  | S fuel' =>
      let* (t, b) := read_str b in
      if len b =? 0 then Ok ([t], b)
      else let* (l, b) := read_unsub_topics fuel' b in Ok (t :: l, b)
  end.

(* unsubscribe/mod.rs L34-55 *)
Definition read_unsubscribe (b : bytes) : res (unsubscribe * bytes) :=
  let* (i, b) := read_u16 b in
  let* (p, b) := read_props unsubscribe_cfg b in
  let* (l, b) := read_unsub_topics (S (length b)) b in
  Ok (Unsubscribe i p l, b).

(* unsubscribe/mod.rs L67-77 *)
Fixpoint aread_unsub_topics (fuel : nat) (rem total : N) (s : bytes) : ares (list bytes) :=
  match fuel with
  | O => ACrash OutOfFuel
  | S fuel' =>
      aw* (t, n1, s) := aread_str s in
      let total := total + n1 in
      if rem <=? total then AOk [t] total s
      else aw* (l, total', s) := aread_unsub_topics fuel' rem total s in AOk (t :: l) total' s
  end.

(* unsubscribe/mod.rs L57-88 *)
Definition aread_unsubscribe (rem : N) (s : bytes) : ares unsubscribe :=
  aw* (i, n1, s) := aread_u16 s in
  aw* (p, n2, s) := aread_props unsubscribe_cfg s in
  aw* (l, total, s) := aread_unsub_topics (S (length s)) rem (2 + n2) s in
  AOk (Unsubscribe i p l) total s.

(* unsubscribe/mod.rs L90-101 *)
Definition write_unsubscribe (x : unsubscribe) : wr :=
  w_put (be16 (ub_id x)) >>> write_props unsubscribe_cfg (ub_props x)
  >>> w_concat (map write_str (ub_topics x)).
(* unsubscribe/mod.rs L102-121 *)
Definition awrite_unsubscribe (x : unsubscribe) : wr :=
  w_put (be16 (ub_id x)) >>> awrite_props unsubscribe_cfg (ub_props x)
  >>> w_concat (map write_str (ub_topics x)).
(* unsubscribe/mod.rs L123-131 *)
Definition unsubscribe_len (x : unsubscribe) : N :=
  2 + section_len unsubscribe_cfg (ub_props x) + sum_len str_len (ub_topics x).

(* ---- DISCONNECT and AUTH ------------------------------------------------------------------------ *)

(* disconnect/mod.rs L16-19, auth/mod.rs L20-23: two structs with the same fields *)
Record disconnect := Disconnect { dc_rc : rc; dc_props : props }.

(* disconnect/mod.rs L43-57 *)
Definition read_disconnect (rem : N) (b : bytes) : res (disconnect * bytes) :=
  if rem =? 0 then Ok (Disconnect RNormalDisconnection no_props, b)
  else
  let* (c, b) := read_rc disconnect_codes b in
  let* (p, b) := read_props disconnect_cfg b in
  Ok (Disconnect c p, b).
(* disconnect/mod.rs L21-41 *)
Definition aread_disconnect (rem : N) (s : bytes) : ares disconnect :=
  if rem =? 0 then AOk (Disconnect RNormalDisconnection no_props) 0 s
  else
  aw* (c, n1, s) := aread_rc disconnect_codes s in
  aw* (p, n2, s) := aread_props disconnect_cfg s in
  AOk (Disconnect c p) (n1 + n2) s.

(* the condition of disconnect/mod.rs L60, L76, L87 *)
Definition disconnect_body (d : disconnect) : bool :=
  negb (rc_eqb (dc_rc d) RNormalDisconnection) || negb (props_len disconnect_cfg (dc_props d) =? 0).

(* disconnect/mod.rs L58-66 *)
Definition write_disconnect (d : disconnect) : wr :=
  if disconnect_body d then write_rc (dc_rc d) >>> write_props disconnect_cfg (dc_props d) else w_nil.
(* disconnect/mod.rs L68-83 *)
Definition awrite_disconnect (d : disconnect) : wr :=
  if disconnect_body d then write_rc (dc_rc d) >>> awrite_props disconnect_cfg (dc_props d) else w_nil.
(* disconnect/mod.rs L85-95 *)
Definition disconnect_len (d : disconnect) : N :=
  if disconnect_body d then 1 + section_len disconnect_cfg (dc_props d) else 0.

(* auth/mod.rs L25-32 *)
Definition read_auth (b : bytes) : res (disconnect * bytes) :=
  let* (c, b) := read_rc auth_codes b in
  let* (p, b) := read_props auth_cfg b in
  Ok (Disconnect c p, b).
(* auth/mod.rs L34-44 *)
Definition aread_auth (s : bytes) : ares disconnect :=
  aw* (c, n1, s) := aread_rc auth_codes s in
  aw* (p, n2, s) := aread_props auth_cfg s in
  AOk (Disconnect c p) (n1 + n2) s.
(* auth/mod.rs L57-63 *)
Definition write_auth (d : disconnect) : wr := write_rc (dc_rc d) >>> write_props auth_cfg (dc_props d).
(* auth/mod.rs L46-55 *)
Definition awrite_auth (d : disconnect) : wr := write_rc (dc_rc d) >>> awrite_props auth_cfg (dc_props d).
(* auth/mod.rs L65-69 *)
Definition auth_len (d : disconnect) : N := 1 + section_len auth_cfg (dc_props d).

(* ---- packets ------------------------------------------------------------------------------------ *)

(* packets/mod.rs L45-63: enum Packet *)
Inductive packet :=
| PConnect (c : connect)
| PConnAck (c : connack)
| PPublish (p : publish)
| PPubAck (a : ack)
| PPubRec (a : ack)
| PPubRel (a : ack)
| PPubComp (a : ack)
| PSubscribe (s : subscribe)
| PSubAck (s : suback)
| PUnsubscribe (u : unsubscribe)
| PUnsubAck (u : suback)
| PPingReq
| PPingResp
| PDisconnect (d : disconnect)
| PAuth (a : disconnect).

(* packets/mod.rs L65-84 *)
Definition type_of (p : packet) : pkt_type :=
  match p with
  | PConnect _ => TConnect | PConnAck _ => TConnAck | PPublish _ => TPublish
  | PPubAck _ => TPubAck | PPubRec _ => TPubRec | PPubRel _ => TPubRel | PPubComp _ => TPubComp
  | PSubscribe _ => TSubscribe | PSubAck _ => TSubAck | PUnsubscribe _ => TUnsubscribe
  | PUnsubAck _ => TUnsubAck | PPingReq => TPingReq | PPingResp => TPingResp
  | PDisconnect _ => TDisconnect | PAuth _ => TAuth
  end.

(* packets/mod.rs L86-174 and L176-270: the first byte *)
Definition first_byte (p : packet) : N :=
  match p with
  | PConnect _ => 16
  | PConnAck _ => 32
  | PPublish p => publish_first p
  | PPubAck _ => 64
  | PPubRec _ => 80
  | PPubRel _ => 98
  | PPubComp _ => 112
  | PSubscribe _ => 130
  | PSubAck _ => 144
  | PUnsubscribe _ => 162
  | PUnsubAck _ => 176
  | PPingReq => 192
  | PPingResp => 208
  | PDisconnect _ => 224
  | PAuth _ => 240
  end.

(* the wire_len of the body; pings write a constant zero byte instead (L154-161) *)
Definition body_len (p : packet) : N :=
  match p with
  | PConnect c => connect_len c
  | PConnAck c => connack_len c
  | PPublish p => publish_len p
  | PPubAck a => ack_len puback_cfg a
  | PPubRec a => ack_len pubrec_cfg a
  | PPubRel a => ack_len pubrel_cfg a
  | PPubComp a => ack_len pubcomp_cfg a
  | PSubscribe s => subscribe_len s
  | PSubAck s => suback_len suback_cfg s
  | PUnsubscribe u => unsubscribe_len u
  | PUnsubAck u => suback_len unsuback_cfg u
  | PPingReq | PPingResp => 0
  | PDisconnect d => disconnect_len d
  | PAuth a => auth_len a
  end.

(* the body writers called in packets/mod.rs L86-174 *)
Definition write_body (p : packet) : wr :=
  match p with
  | PConnect c => write_connect c
  | PConnAck c => write_connack c
  | PPublish p => write_publish p
  | PPubAck a => write_ack puback_cfg a
  | PPubRec a => write_ack pubrec_cfg a
  | PPubRel a => write_ack pubrel_cfg a
  | PPubComp a => write_ack pubcomp_cfg a
  | PSubscribe s => write_subscribe s
  | PSubAck s => write_suback suback_cfg s
  | PUnsubscribe u => write_unsubscribe u
  | PUnsubAck u => write_suback unsuback_cfg u
  | PPingReq | PPingResp => w_nil
  | PDisconnect d => write_disconnect d
  | PAuth a => write_auth a
  end.

(* the body writers called in packets/mod.rs L176-270 *)
Definition awrite_body (p : packet) : wr :=
  match p with
  | PConnect c => awrite_connect c
  | PConnAck c => awrite_connack c
  | PPublish p => awrite_publish p
  | PPubAck a => awrite_ack puback_cfg a
  | PPubRec a => awrite_ack pubrec_cfg a
  | PPubRel a => awrite_ack pubrel_cfg a
  | PPubComp a => awrite_ack pubcomp_cfg a
  | PSubscribe s => awrite_subscribe s
  | PSubAck s => awrite_suback suback_cfg s
  | PUnsubscribe u => awrite_unsubscribe u
  | PUnsubAck u => awrite_suback unsuback_cfg u
  | PPingReq | PPingResp => w_nil
  | PDisconnect d => awrite_disconnect d
  | PAuth a => awrite_auth a
  end.

(* packets/mod.rs L86-174: Packet::write.  For PingReq/PingResp the length is the constant byte 0
   (L154-161). *)
Definition write_packet (p : packet) : wr :=
  match p with
  | PPingReq | PPingResp => w_put [first_byte p] >>> w_put [0]
  | _ => w_put [first_byte p] >>> write_varint (body_len p) >>> write_body p
  end.

(* packets/mod.rs L176-270: Packet::async_write; w_cnt is the returned number *)
Definition awrite_packet (p : packet) : wr :=
  match p with
  | PPingReq | PPingResp => w_put [first_byte p] >>> w_put [0]
  | _ => w_put [first_byte p] >>> awrite_varint (body_len p) >>> awrite_body p
  end.

(* packets/mod.rs L375-395: WireLength for Packet *)
Definition packet_len (p : packet) : N :=
  match p with
  | PPingReq | PPingResp => 2
  | _ => 1 + variable_integer_len (body_len p) + body_len p
  end.

Definition rmap {A B} (f : A -> B) (m : res (A * bytes)) : res (B * bytes) :=
  match m with Ok (a, r) => Ok (f a, r) | Err e => Err e | Crash c => Crash c end.
Definition amap {A B} (f : A -> B) (m : ares A) : ares B :=
  match m with AOk a n r => AOk (f a) n r | AErr e => AErr e | AShort => AShort | ACrash c => ACrash c end.

(* packets/mod.rs L272-291: read_packet.  Also returned, for the statements only: the bytes of the
   body that the reader did not look at. *)
Definition read_body (h : fixed_header) (b : bytes) : res (packet * bytes) :=
  match fh_type h with
  | TConnect => rmap PConnect (read_connect b)
  | TConnAck => rmap PConnAck (read_connack (fh_rem h) b)
  | TPublish => rmap PPublish (read_publish (fh_flags h) b)
  | TPubAck => rmap PPubAck (read_puback (fh_rem h) b)
  | TPubRec => rmap PPubRec (read_ack4 pubrec_codes pubrec_cfg (fh_rem h) b)
  | TPubRel => rmap PPubRel (read_pubrel (fh_rem h) b)
  | TPubComp => rmap PPubComp (read_ack4 pubcomp_codes pubcomp_cfg (fh_rem h) b)
  | TSubscribe => rmap PSubscribe (read_subscribe b)
  | TSubAck => rmap PSubAck (read_suback (fh_rem h) b)
  | TUnsubscribe => rmap PUnsubscribe (read_unsubscribe b)
  | TUnsubAck => rmap PUnsubAck (read_unsuback (fh_rem h) b)
  | TPingReq => Ok (PPingReq, b)
  | TPingResp => Ok (PPingResp, b)
  | TDisconnect => rmap PDisconnect (read_disconnect (fh_rem h) b)
  | TAuth => rmap PAuth (read_auth b)
  end.

(* packets/mod.rs L293-315: async_read_packet *)
Definition aread_body (h : fixed_header) (s : bytes) : ares packet :=
  match fh_type h with
  | TConnect => amap PConnect (aread_connect s)
  | TConnAck => amap PConnAck (aread_connack s)
  | TPublish => amap PPublish (aread_publish (fh_flags h) (fh_rem h) s)
  | TPubAck => amap PPubAck (aread_puback (fh_rem h) s)
  | TPubRec => amap PPubRec (aread_pubrec (fh_rem h) s)
  | TPubRel => amap PPubRel (aread_pubrel (fh_rem h) s)
  | TPubComp => amap PPubComp (aread_pubcomp (fh_rem h) s)
  | TSubscribe => amap PSubscribe (aread_subscribe (fh_rem h) s)
  | TSubAck => amap PSubAck (aread_suback (fh_rem h) s)
  | TUnsubscribe => amap PUnsubscribe (aread_unsubscribe (fh_rem h) s)
  | TUnsubAck => amap PUnsubAck (aread_unsuback (fh_rem h) s)
  | TPingReq => AOk PPingReq 0 s
  | TPingResp => AOk PPingResp 0 s
  | TDisconnect => amap PDisconnect (aread_disconnect (fh_rem h) s)
  | TAuth => amap PAuth (aread_auth s)
  end.

(* packets/mod.rs L317-327: Packet::async_read *)
Definition aread_packet (s : bytes) : ares packet :=
  aw* (h, n, s) := aread_fixed_header s in aread_body h s.

(* Result of Packet::read on a buffer: a packet, an error or a panic of the body reader, with the
   buffer that is left; or an error of the header / a request for more bytes with the buffer
   untouched. *)
Inductive pread :=
| RPacket (p : packet) (rest : bytes)
| RBad (e : derr) (rest : bytes)
| RMore (n : N) (rest : bytes)
| RCrash (c : crash).

(* packets/mod.rs L329-342: Packet::read *)
Definition read_packet (buf : bytes) : pread :=
  match read_fixed_header buf with
  | RbErr e => RBad e buf
  | RbMore n => RMore n buf
  | RbOk (h, hl) =>
      if len buf <? fh_rem h + hl then RMore (fh_rem h + hl - len buf) buf
      else
        let buf := drop hl buf in
        let body := take (fh_rem h) buf in
        let rest := drop (fh_rem h) buf in
        match read_body h body with
        | Ok (p, _) => RPacket p rest
        | Err e => RBad e rest
        | Crash c => RCrash c
        end
  end.

(* ---- validation ------------------------------------------------------------------------------------ *)

(* error.rs L107-118 (crate root): PacketValidationError *)
Inductive verr := MaxPacketSize (n : N) | TopicSize (n : N).

(* util/constants.rs *)
Definition MAXIMUM_TOPIC_SIZE : N := 65535.

Definition first_long {A} (f : A -> bytes) (l : list A) : option N :=
  match find (fun x => MAXIMUM_TOPIC_SIZE <? len (f x)) l with
  | Some x => Some (len (f x))
  | None => None
  end.

(* publish/mod.rs L197-208 *)
Definition validate_publish (max : N) (p : publish) : option verr :=
  if max <? publish_len p then Some (MaxPacketSize (publish_len p))
  else if MAXIMUM_TOPIC_SIZE <? len (pb_topic p) then Some (TopicSize (len (pb_topic p)))
  else None.
(* subscribe/mod.rs L138-150 *)
Definition validate_subscribe (max : N) (s : subscribe) : option verr :=
  if max <? subscribe_len s then Some (MaxPacketSize (subscribe_len s))
  else option_map TopicSize (first_long fst (sb_topics s)).
(* unsubscribe/mod.rs L133-145 *)
Definition validate_unsubscribe (max : N) (u : unsubscribe) : option verr :=
  if max <? unsubscribe_len u then Some (MaxPacketSize (unsubscribe_len u))
  else option_map TopicSize (first_long (fun t => t) (ub_topics u)).
