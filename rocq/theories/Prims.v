(* Primitive readers and writers: packets/mqtt_trait/primitive_impl.rs, packets/primitive/*.rs *)
From Verif Require Import Base VarInt.

(* ---- big-endian integers ------------------------------------------------------------------- *)

(* BufMut::put_u8/put_u16/put_u32 and to_be_bytes (big endian) *)
Definition be8 (n : N) : bytes := [n mod 256].
Definition be16 (n : N) : bytes := [(n / 256) mod 256; n mod 256].
Definition be32 (n : N) : bytes :=
  [(n / 16777216) mod 256; (n / 65536) mod 256; (n / 256) mod 256; n mod 256].

(* Buf::get_u8/get_u16/get_u32 of the crate bytes: panics when the buffer is too short *)
Definition get_u8 (b : bytes) : res (N * bytes) :=
  match b with a :: r => Ok (a, r) | _ => Crash Panicked end.
Definition get_u16 (b : bytes) : res (N * bytes) :=
  match b with a :: c :: r => Ok (a * 256 + c, r) | _ => Crash Panicked end.
Definition get_u32 (b : bytes) : res (N * bytes) :=
  match b with
  | a :: c :: d :: e :: r => Ok (((a * 256 + c) * 256 + d) * 256 + e, r)
  | _ => Crash Panicked
  end.

(* primitive_impl.rs L250-258 *)
Definition read_u8 (b : bytes) : res (N * bytes) :=
  if len b <? 1 then Err (InsufficientData 0 1) else get_u8 b.
(* primitive_impl.rs L277-285 *)
Definition read_u16 (b : bytes) : res (N * bytes) :=
  if len b <? 2 then Err (InsufficientData (len b) 2) else get_u16 b.
(* primitive_impl.rs L311-319 *)
Definition read_u32 (b : bytes) : res (N * bytes) :=
  if len b <? 4 then Err (InsufficientData (len b) 4) else get_u32 b.

(* tokio AsyncReadExt::read_u8/read_u16/read_u32; primitive_impl.rs L259-266, L286-293, L320-327 *)
Definition aread_u8 (s : bytes) : ares N :=
  match s with a :: r => AOk a 1 r | _ => AShort end.
Definition aread_u16 (s : bytes) : ares N :=
  match s with a :: c :: r => AOk (a * 256 + c) 2 r | _ => AShort end.
Definition aread_u32 (s : bytes) : ares N :=
  match s with
  | a :: c :: d :: e :: r => AOk (((a * 256 + c) * 256 + d) * 256 + e) 4 r
  | _ => AShort
  end.
(* tokio AsyncReadExt::read_exact on a buffer of n bytes *)
Definition aread_exact (n : N) (s : bytes) : ares bytes :=
  if len s <? n then AShort else AOk (take n s) n (drop n s).

(* ---- bool ---------------------------------------------------------------------------------- *)

(* primitive_impl.rs L200-212 *)
Definition read_bool (b : bytes) : res (bool * bytes) :=
  if len b <? 1 then Err (InsufficientData 0 1)
  else let* (v, r) := get_u8 b in
       if v =? 0 then Ok (false, r) else if v =? 1 then Ok (true, r) else Err MalformedPacket.
(* primitive_impl.rs L213-224 *)
Definition aread_bool (s : bytes) : ares bool :=
  aw* (v, n, r) := aread_u8 s in
  if v =? 0 then AOk false 1 r else if v =? 1 then AOk true 1 r else AErr MalformedPacket.
(* primitive_impl.rs L225-249 *)
Definition write_bool (v : bool) : wr := w_put [if v then 1 else 0].

(* ---- byte strings -------------------------------------------------------------------------- *)

(* primitive_impl.rs L145-159: <Vec<u8> as MqttRead>::read *)
Definition read_bin (b : bytes) : res (bytes * bytes) :=
  if len b <? 2 then Err (InsufficientData (len b) 2)
  else let* (n, r) := get_u16 b in
       if len r <? n then Err (InsufficientData (len r) n)
       else Ok (take n r, drop n r).
(* primitive_impl.rs L186-198 *)
Definition aread_bin (s : bytes) : ares bytes :=
  aw* (n, c, r) := aread_u16 s in
  aw* (d, c', r') := aread_exact n r in
  AOk d (2 + n) r'.
(* primitive_impl.rs L160-179; [len as u16] truncates.  The stream version returns 2 + len. *)
Definition write_bin (d : bytes) : wr := w_put (be16 (len d mod 65536) ++ d).
(* primitive_impl.rs L180-185 *)
Definition bin_len (d : bytes) : N := len d + 2.

(* ---- UTF-8 strings ------------------------------------------------------------------------- *)

Definition in_range (lo hi b : N) : bool := (lo <=? b) && (b <=? hi).

(* String::from_utf8 of the Rust standard library: well-formed UTF-8, RFC 3629 / Unicode table 3-7. *)
Fixpoint utf8_valid (s : bytes) : bool :=
  match s with
  | [] => true
  | a :: t1 =>
      if a <=? 127 then utf8_valid t1
      else match t1 with
      | [] => false
      | b :: t2 =>
          if in_range 194 223 a then in_range 128 191 b && utf8_valid t2
          else match t2 with
          | [] => false
          | c :: t3 =>
              if a =? 224 then in_range 160 191 b && in_range 128 191 c && utf8_valid t3
              else if a =? 237 then in_range 128 159 b && in_range 128 191 c && utf8_valid t3
              else if in_range 225 239 a then in_range 128 191 b && in_range 128 191 c && utf8_valid t3
              else match t3 with
              | [] => false
              | d :: t4 =>
                  if a =? 240 then in_range 144 191 b && in_range 128 191 c && in_range 128 191 d && utf8_valid t4
                  else if in_range 241 243 a then in_range 128 191 b && in_range 128 191 c && in_range 128 191 d && utf8_valid t4
                  else if a =? 244 then in_range 128 143 b && in_range 128 191 c && in_range 128 191 d && utf8_valid t4
                  else false
              end
          end
      end
  end.

(* primitive_impl.rs L10-20: <Box<str> as MqttRead>::read *)
Definition read_str (b : bytes) : res (bytes * bytes) :=
  let* (s, r) := read_bin b in
  if utf8_valid s then Ok (s, r) else Err Utf8Error.
(* primitive_impl.rs L22-33 *)
Definition aread_str (s : bytes) : ares bytes :=
  aw* (d, n, r) := aread_bin s in
  if utf8_valid d then AOk d n r else AErr Utf8Error.
(* primitive_impl.rs L35-52, L61-80; [len as u16] truncates *)
Definition write_str (s : bytes) : wr := w_put (be16 (len s mod 65536) ++ s).
(* primitive_impl.rs L54-59, L82-87 *)
Definition str_len (s : bytes) : N := len s + 2.

(* ---- QoS: packets/primitive/qos.rs --------------------------------------------------------- *)

Inductive qos := AtMostOnce | AtLeastOnce | ExactlyOnce.

Definition qos_eqb (a b : qos) : bool :=
  match a, b with
  | AtMostOnce, AtMostOnce | AtLeastOnce, AtLeastOnce | ExactlyOnce, ExactlyOnce => true
  | _, _ => false
  end.

(* qos.rs L19-26 *)
Definition qos_from_u8 (v : N) : res qos :=
  if v =? 0 then Ok AtMostOnce else if v =? 1 then Ok AtLeastOnce
  else if v =? 2 then Ok ExactlyOnce else Err (UnknownQoS v).
(* qos.rs L27-33 *)
Definition qos_to_u8 (q : qos) : N :=
  match q with AtMostOnce => 0 | AtLeastOnce => 1 | ExactlyOnce => 2 end.
(* qos.rs L36-50 *)
Definition read_qos (b : bytes) : res (qos * bytes) :=
  if len b <? 1 then Err (InsufficientData 0 1)
  else let* (v, r) := get_u8 b in let* q := qos_from_u8 v in Ok (q, r).
(* qos.rs L52-65 *)
Definition aread_qos (s : bytes) : ares qos :=
  aw* (v, n, r) := aread_u8 s in
  match qos_from_u8 v with Ok q => AOk q 1 r | Err e => AErr e | Crash c => ACrash c end.
(* qos.rs L67-84 *)
Definition write_qos (q : qos) : wr := w_put [qos_to_u8 q].

(* ---- protocol version: packets/primitive/protocol_version.rs ------------------------------- *)

(* protocol_version.rs L38-51; the only value is V5, so nothing is returned but the rest *)
Definition read_protocol_version (b : bytes) : res bytes :=
  if len b <? 1 then Err InsufficientDataForProtocolVersion
  else let* (v, r) := get_u8 b in
       if v =? 3 then Err UnsupportedProtocolVersion
       else if v =? 4 then Err UnsupportedProtocolVersion
       else if v =? 5 then Ok r
       else Err UnknownProtocolVersion.
(* protocol_version.rs L53-66 *)
Definition aread_protocol_version (s : bytes) : ares unit :=
  aw* (v, n, r) := aread_u8 s in
  if v =? 5 then AOk tt 1 r
  else if v =? 4 then AErr UnsupportedProtocolVersion
  else if v =? 3 then AErr UnsupportedProtocolVersion
  else AErr UnknownProtocolVersion.
(* protocol_version.rs L18-36 *)
Definition write_protocol_version : wr := w_put [5].

(* ---- fixed header: packets/mod.rs L416-437, packets/primitive/fixed_header.rs ---------------- *)

(* packets/mod.rs L418-437: PacketType::from_first_byte *)
Definition from_first_byte (value : N) : res (pkt_type * N) :=
  let t := N.shiftr value 4 in
  let flags := N.land value 15 in
  if t =? 3 then Ok (TPublish, flags)
  else if flags =? 0 then
    if t =? 1 then Ok (TConnect, 0)
    else if t =? 2 then Ok (TConnAck, 0)
    else if t =? 4 then Ok (TPubAck, 0)
    else if t =? 5 then Ok (TPubRec, 0)
    else if t =? 7 then Ok (TPubComp, 0)
    else if t =? 9 then Ok (TSubAck, 0)
    else if t =? 11 then Ok (TUnsubAck, 0)
    else if t =? 12 then Ok (TPingReq, 0)
    else if t =? 13 then Ok (TPingResp, 0)
    else if t =? 14 then Ok (TDisconnect, 0)
    else if t =? 15 then Ok (TAuth, 0)
    else Err (UnknownFixedHeader value)
  else if flags =? 2 then
    if t =? 6 then Ok (TPubRel, 0)
    else if t =? 8 then Ok (TSubscribe, 0)
    else if t =? 10 then Ok (TUnsubscribe, 0)
    else Err (UnknownFixedHeader value)
  else Err (UnknownFixedHeader value).

(* fixed_header.rs L25-30 *)
Record fixed_header := FH { fh_type : pkt_type; fh_flags : N; fh_rem : N }.

(* fixed_header.rs L33-47: read_fixed_header; looks ahead only *)
Definition read_fixed_header (b : bytes) : rb (fixed_header * N) :=
  if len b <? 2 then RbMore (2 - len b)
  else match b with
  | [] => RbMore (2 - len b) (* excluded by the length check: header.next().unwrap() *)
  | first :: rest =>
      match from_first_byte first with
      | Ok (t, flags) =>
          match read_rem_len rest with
          | RbOk (rem, l) => RbOk (FH t flags rem, 1 + l)
          | RbErr e => RbErr e
          | RbMore n => RbMore n
          end
      | Err e => RbErr e
      | Crash _ => RbErr MalformedPacket (* from_first_byte never crashes *)
      end
  end.

(* fixed_header.rs L49-60: async_read *)
Definition aread_fixed_header (s : bytes) : ares fixed_header :=
  aw* (first, n, r) := aread_u8 s in
  match from_first_byte first with
  | Ok (t, flags) =>
      aw* (rem, l, r') := aread_varint r in
      AOk (FH t flags rem) (1 + l) r'
  | Err e => AErr e
  | Crash c => ACrash c
  end.
