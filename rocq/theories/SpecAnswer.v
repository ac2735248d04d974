(* C43: how far the reading of the answer to CONNECT comes, from the sizes of the chunks alone *)
From Verif Require Import Base Packets SpecCodec TokioRead.

(* Chunks are taken, at least one, until n bytes are there: their number, and the chunks not taken *)
Fixpoint take_until (n have : N) (chunks : list bytes) : option (N * list bytes) :=
  match chunks with
  | [] => None
  | c :: rest => if n <=? have + len c then Some (have + len c, rest) else take_until n (have + len c) rest
  end.

Inductive fate := Received (rest : list bytes) | Panics | Waits.
(* A packet of a header of hl bytes and n more.  The chunk that completes the header may complete the
   packet.  Otherwise the client wants n bytes in all where it needs hl + n. *)
Definition fate_of (checked : bool) (hl n : N) (chunks : list bytes) : fate :=
  match take_until hl 0 chunks with
  | None => Waits
  | Some (k, rest) =>
      if hl + n <=? k then Received rest
      else if n <? k then if checked then Panics else Waits
      else match take_until n k rest with
           | None => Waits
           | Some (m, rest) => if hl + n <=? m then Received rest else Panics
           end
  end.

(* C41: a packet of a header of hl bytes and n more *)
Definition frame_sizes (b : bytes) (s : N * N) : Prop :=
  exists f v body, b = f :: v ++ body /\ is_varint v /\ fst s = 1 + len v /\ snd s = len body.
(* How many packets run hands over, and how many bytes it then keeps (None: it has panicked): at most one
   packet for each chunk; where overflow is checked a packet must not be kept with more than n bytes. *)
Fixpoint handed (checked : bool) (have : N) (sizes : list (N * N)) (chunks : list bytes) : nat * option N :=
  match chunks with
  | [] => (O, Some have)
  | c :: rest =>
      let have := have + len c in
      match sizes with
      | [] => handed checked have [] rest
      | (hl, n) :: more =>
          if hl + n <=? have then let (k, o) := handed checked (have - (hl + n)) more rest in (S k, o)
          else if checked && (hl <=? have) && (n <? have) then (O, None)
          else handed checked have sizes rest
      end
  end.

(* C42: the packets are of the given sizes.  How many have been read, and how many bytes the reading
   future has taken and how many wait; or: when it was dropped with bytes it had taken, and what follows. *)
Inductive course := Reads (k : nat) (taken waiting : N) | Loses (k : nat) (taken waiting : N) (later : list tevent).
Definition one_more (c : course) : course :=
  match c with Reads k t w => Reads (S k) t w | Loses k t w l => Loses (S k) t w l end.
Fixpoint course_of (taken waiting : N) (sizes : list N) (xs : list tevent) : course :=
  match xs with
  | [] => Reads O taken waiting
  | TArrive b :: xs => course_of taken (waiting + len b) sizes xs
  | TPoll :: xs =>
      match sizes with
      | s :: more => if s <=? taken + waiting then one_more (course_of 0 (taken + waiting - s) more xs) else course_of (taken + waiting) 0 sizes xs
      | [] => course_of (taken + waiting) 0 [] xs
      end
  | TDrop :: xs => if taken =? 0 then course_of 0 waiting sizes xs else Loses O taken waiting xs
  end.
