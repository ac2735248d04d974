(* C01, C02: variable byte integers *)
From Verif Require Import Base VarInt SpecCodec VarIntFacts CodecMore.

(* C01.  [is_varint] and [groups_value] describe variable byte integers independently of the code. *)
Theorem C01_varint_roundtrip : forall n,
  (n <= 268435455 ->
     exists enc, is_varint enc /\ groups_value enc = n /\ 1 <= len enc <= 4 /\ variable_integer_len n = len enc /\
       (forall enc', is_varint enc' -> groups_value enc' = n -> len enc <= len enc') /\
       write_varint n = w_put enc /\ awrite_varint n = w_put enc /\
       (forall rest, read_rem_len (enc ++ rest) = RbOk (n, len enc) /\
                     read_varint (enc ++ rest) = Ok (n, len enc, rest) /\
                     aread_varint (enc ++ rest) = AOk n (len enc) rest)) /\
  (268435455 < n -> w_err (write_varint n) <> None /\ w_err (awrite_varint n) <> None /\
     w_bytes (write_varint n) = [] /\ w_bytes (awrite_varint n) = []).
Proof. exact varint_both. Qed.
Print Assumptions C01_varint_roundtrip.
Example C01_case : write_varint 16384 = w_put [128; 128; 1] /\ read_varint [128; 128; 1; 7] = Ok (16384, 3, [7]) /\
  (268435455 <? 268435456) = true.
Proof. vm_compute. auto. Qed.

(* C02.  The three cases exclude each other and cover every byte string. *)
Theorem C02_varint_classify : forall buf, all_bytes buf ->
  (exists enc rest, buf = enc ++ rest /\ is_varint enc /\ groups_value enc < 268435456 /\
     read_rem_len buf = RbOk (groups_value enc, len enc) /\
     read_varint buf = Ok (groups_value enc, len enc, rest) /\
     aread_varint buf = AOk (groups_value enc) (len enc) rest) \/
  (len buf < 4 /\ Forall (fun b => 128 <= b) buf /\
     read_rem_len buf = RbMore 1 /\ read_varint buf = Err MalformedPacket /\ aread_varint buf = AShort) \/
  (exists init rest, buf = init ++ rest /\ len init = 4 /\ Forall (fun b => 128 <= b) init /\
     read_rem_len buf = RbErr MalformedPacket /\ read_varint buf = Err MalformedPacket /\
     aread_varint buf = AErr MalformedPacket).
Proof. exact varint_classify. Qed.
Print Assumptions C02_varint_classify.
Example C02_case1 : read_rem_len [255; 127; 3] = RbOk (16383, 2).
Proof. reflexivity. Qed.
Example C02_case2 : read_rem_len [255; 200; 128] = RbMore 1.
Proof. reflexivity. Qed.
Example C02_case3 : aread_varint [255; 200; 128; 128; 0] = AErr MalformedPacket.
Proof. reflexivity. Qed.
