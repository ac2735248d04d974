(* Variable byte integers: packets/primitive/variable_integer.rs *)
From Verif Require Import Base.

(* variable_integer.rs L55-65 (usize) and L153-163 (u32) *)
Definition variable_integer_len (n : N) : N :=
  if 2097152 <=? n then 4
  else if 16384 <=? n then 3
  else if 128 <=? n then 2
  else 1.

(* The loop of variable_integer.rs L74-84 (usize) and L172-182 (u32): [k] iterations left, [n] is
   the local variable [write].  Running through all iterations leaves the loop (L85): error. *)
Fixpoint write_varint_loop (k : nat) (n : N) (orig : N) : wr :=
  match k with
  | O => w_fail (VariableIntegerOverflow orig)
  | S k' =>
      let byte := n mod 128 in
      let n' := n / 128 in
      let byte := if 0 <? n' then N.lor byte 128 else byte in
      if n' =? 0 then w_put [byte]
      else w_put [byte] >>> write_varint_loop k' n' orig
  end.

(* variable_integer.rs L67-86 / L165-184: write_variable_integer *)
Definition write_varint (n : N) : wr :=
  if 268435455 <? n then w_fail (VariableIntegerOverflow n)
  else write_varint_loop 4 n n.

(* The loop of variable_integer.rs L135-146 / L233-244: fills the array of 4 zero bytes.  Result:
   the bytes of buf[0..length].  [length] is 1 initially and stays 1 if the loop is never left by break. *)
Fixpoint awrite_varint_loop (k : nat) (n : N) : option bytes :=
  match k with
  | O => None
  | S k' =>
      let byte := n mod 128 in
      let n' := n / 128 in
      let byte := if 0 <? n' then N.lor byte 128 else byte in
      if n' =? 0 then Some [byte]
      else match awrite_varint_loop k' n' with
           | Some l => Some (byte :: l)
           | None => None
           end
  end.

(* variable_integer.rs L125-149 / L223-247: write_async_variable_integer.  If the loop ended
   without break, length would still be 1 and one byte would be written. *)
Definition awrite_varint (n : N) : wr :=
  if 268435455 <? n then w_fail (VariableIntegerOverflow n)
  else match awrite_varint_loop 4 n with
       | Some l => w_put l
       | None => w_put [if 0 <? n / 128 then N.lor (n mod 128) 128 else n mod 128]
       end.

(* Outcome of the reading loops, common shape of variable_integer.rs L14-26, L35-44, L92-105,
   L112-122, L190-203, L210-220: value, number of bytes, rest. *)
Inductive vi_res := ViOk (v n : N) (rest : bytes) | ViMalformed | ViShort.

(* [k] iterations left, [i] the loop variable, [integer]/[length] the accumulators *)
Fixpoint read_varint_loop (k : nat) (i integer length : N) (buf : bytes) : vi_res :=
  match k with
  | O => ViMalformed
  | S k' =>
      match buf with
      | [] => ViShort
      | byte :: rest =>
          let length := length + 1 in
          let integer := integer + N.shiftl (N.land byte 127) (7 * i) in
          if N.land byte 128 =? 0 then ViOk integer length rest
          else read_varint_loop k' (i + 1) integer length rest
      end
  end.

(* packets/error.rs L78-84: ReadBytes<DeserializeError> *)
Inductive rb (A : Type) := RbOk (a : A) | RbErr (e : derr) | RbMore (n : N).
Arguments RbOk {A} a. Arguments RbErr {A} e. Arguments RbMore {A} n.

(* variable_integer.rs L10-27: read_fixed_header_rem_len (a look-ahead, nothing is consumed) *)
Definition read_rem_len (buf : bytes) : rb (N * N) :=
  match read_varint_loop 4 0 0 0 buf with
  | ViOk v n _ => RbOk (v, n)
  | ViMalformed => RbErr MalformedPacket
  | ViShort => RbMore 1
  end.

(* variable_integer.rs L88-106 (usize) and L186-204 (u32): read_variable_integer; returns
   (value, length) and the rest of the buffer *)
Definition read_varint (buf : bytes) : res (N * N * bytes) :=
  match read_varint_loop 4 0 0 0 buf with
  | ViOk v n rest => Ok (v, n, rest)
  | ViMalformed => Err MalformedPacket
  | ViShort => Err MalformedPacket
  end.

(* variable_integer.rs L29-45, L108-123 and L206-221: the three stream readers *)
Definition aread_varint (s : bytes) : ares N :=
  match read_varint_loop 4 0 0 0 s with
  | ViOk v n rest => AOk v n rest
  | ViMalformed => AErr MalformedPacket
  | ViShort => AShort
  end.
