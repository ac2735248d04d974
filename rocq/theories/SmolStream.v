(* smol/stream.rs: reading bytes and framing packets.

   [chk] says whether arithmetic overflow is checked (debug builds: panic) or wraps around (release
   builds, 64 bit usize).  A chunk is what one call of the underlying stream's read returns; an empty
   chunk is the end of the stream. *)
From Verif Require Import Base VarInt Prims Props Codes Packets.

(* a - b on usize *)
Definition usize_sub (chk : bool) (a b : N) : option N :=
  if a <? b then if chk then None else Some (a + 2 ^ 64 - b) else Some (a - b).

Inductive message :=
| MPacket (p : packet) (rest : bytes)
| MMore (rest : bytes)
| MBad (e : derr)
| MPanic.

(* advance past the header, split_to the body, Packet::read_packet: L40-43, L95-99.  split_to panics if
   there are not enough bytes. *)
Definition finish (h : fixed_header) (hl : N) (buf : bytes) : message :=
  let buf := drop hl buf in
  if len buf <? fh_rem h then MPanic
  else match read_body h (take (fh_rem h) buf) with
       | Ok (p, _) => MPacket p (drop (fh_rem h) buf)
       | Err e => MBad e
       | Crash _ => MPanic
       end.

(* L33-49: parse_message *)
Definition parse_message (chk : bool) (buf : bytes) : message :=
  match read_fixed_header buf with
  | RbErr e => MBad e
  | RbMore _ => MMore buf
  | RbOk (h, hl) =>
    if len buf <? fh_rem h + hl then
      match usize_sub chk (fh_rem h) (len buf) with None => MPanic | Some _ => MMore buf end
    else finish h hl buf
  end.

(* What a reader has come to *)
Inductive reader :=
| Reading (buf : bytes)   (* waits for a chunk *)
| Malformed (e : derr)    (* deserialisation error *)
| Closed                  (* end of the stream *)
| Panic.

(* The read branch of smol_select (smol/network.rs L144-149) for one chunk after the other, as long as
   run does not return: read_bytes (L103-111) appends the chunk, parse_message is called once. *)
Fixpoint smol_reads (chk : bool) (buf : bytes) (chunks : list bytes) : list packet * reader :=
  match chunks with
  | [] => ([], Reading buf)
  | [] :: _ => ([], Closed)
  | ch :: rest =>
    match parse_message chk (buf ++ ch) with
    | MPacket p b => let (ps, r) := smol_reads chk b rest in (p :: ps, r)
    | MMore b => smol_reads chk b rest
    | MBad e => ([], Malformed e)
    | MPanic => ([], Panic)
    end
  end.

(* read (L80-101) is in read_required_bytes (L114-124): it has read wt_total of wt_need bytes.  wt_head:
   the header is known and the packet will be split off next; otherwise the header will be tried again. *)
Record waiting := Need { wt_need : N; wt_total : N; wt_head : option (fixed_header * N) }.

(* one round of the loop L81-100 up to the next call of read_required_bytes *)
Definition read_round (chk : bool) (buf : bytes) : waiting + message :=
  match read_fixed_header buf with
  | RbErr e => inr (MBad e)
  | RbMore n => inl (Need n 0 None)
  | RbOk (h, hl) =>
    if len buf <? hl + fh_rem h then
      match usize_sub chk (fh_rem h) (len buf) with
      | None => inr MPanic
      | Some n => inl (Need n 0 (Some (h, hl)))
      end
    else inr (finish h hl buf)
  end.

(* read_bytes has appended [ch] to the buffer, which is now [buf] *)
Definition read_more (chk : bool) (w : waiting) (ch buf : bytes) : waiting + message :=
  if wt_total w + len ch <? wt_need w then inl (Need (wt_need w) (wt_total w + len ch) (wt_head w))
  else match wt_head w with
       | Some (h, hl) => inr (finish h hl buf)
       | None => read_round chk buf
       end.

(* read, given the chunks that arrive *)
Inductive connecting :=
| GotPacket (p : packet) (buf : bytes) (chunks : list bytes)   (* and what is left *)
| Pending
| Broken (r : reader).
Fixpoint smol_read (chk : bool) (w : waiting) (buf : bytes) (chunks : list bytes) : connecting :=
  match chunks with
  | [] => Pending
  | [] :: _ => Broken Closed
  | ch :: rest =>
    match read_more chk w ch (buf ++ ch) with
    | inl w => smol_read chk w (buf ++ ch) rest
    | inr (MPacket p b) => GotPacket p b rest
    | inr (MMore _) => Pending (* read_round and finish never say so *)
    | inr (MBad e) => Broken (Malformed e)
    | inr MPanic => Broken Panic
    end
  end.
(* L68, on a new stream with an empty buffer *)
Definition read_answer (chk : bool) (chunks : list bytes) : connecting :=
  match read_round chk [] with inl w => smol_read chk w [] chunks | inr _ => Broken Panic (* the buffer is empty *) end.
