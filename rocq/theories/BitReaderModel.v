(* Model of lib/jxl/dec_bit_reader.h and lib/jxl/dec_bit_reader.cc.

   Pointers into the span are offsets from first_byte_: next_byte_ is [rnext] and
   end_minus_8_ is [zlen bs - 8] (negative when the span is shorter than 8 bytes; the
   C++ code relies on first_byte_ >= 8 for that subtraction).  Every memory access is
   a partial read of the span; an access outside it makes the operation return [None].
   A violated JXL_DASSERT (Consume of more bits than buffered, more than
   kMaxBitsPerCall bits at once) is also [None].
   Simplification: the counters bits_in_buf_, overread_bytes_ and the byte offsets are
   unbounded integers (in C++ 64-bit; wrapping them needs 2^61 operations).  buf_ is
   kept to 64 bits explicitly. *)
From Verif Require Import Base.

(* dec_bit_reader.h:33 static constexpr size_t kMaxBitsPerCall = 56; *)
Definition kMaxBitsPerCall : Z := 56.

(* dec_bit_reader.h:277-291, the mutable members buf_, bits_in_buf_, next_byte_,
   overread_bytes_. *)
Record reader := mkReader { rbuf : Z; rbits : Z; rnext : Z; rover : Z }.

(* lib/jxl/base/byte_order.h LoadLE64: eight bytes, least significant first. *)
Fixpoint load_le (n : nat) (bs : list Z) (p : Z) : option Z :=
  match n with
  | O => Some 0
  | S n' =>
      match znth bs p, load_le n' bs (p + 1) with
      | Some b, Some r => Some (b + 256 * r)
      | _, _ => None
      end
  end.

(* dec_bit_reader.cc:20-24, the loop reading whole bytes.  [fuel] is 8: bits_in_buf_
   grows by 8 in each iteration and starts non-negative. *)
Fixpoint refill_bytes (fuel : nat) (bs : list Z) (r : reader) : option reader :=
  if rbits r <? 64 - 8 then
    if zlen bs <=? rnext r then Some r
    else
      match fuel with
      | O => None
      | S f =>
          match znth bs (rnext r) with
          | None => None
          | Some b =>
              refill_bytes f bs
                (mkReader (Z.lor (rbuf r) (w64 (Z.shiftl b (rbits r))))
                          (rbits r + 8) (rnext r + 1) (rover r))
          end
      end
  else Some r.

(* dec_bit_reader.cc:16-36 BoundsCheckedRefill *)
Definition bounds_checked_refill (bs : list Z) (r : reader) : option reader :=
  match refill_bytes 8 bs r with
  | None => None
  | Some r1 =>
      let extra := (63 - rbits r1) / 8 in
      Some (mkReader (rbuf r1) (rbits r1 + extra * 8) (rnext r1) (rover r1 + extra))
  end.

(* dec_bit_reader.h:84-101 Refill *)
Definition refill (bs : list Z) (r : reader) : option reader :=
  if zlen bs - 8 <? rnext r then bounds_checked_refill bs r
  else
    match load_le 8 bs (rnext r) with
    | None => None
    | Some w =>
        Some (mkReader (Z.lor (rbuf r) (w64 (Z.shiftl w (rbits r))))
                       (Z.lor (rbits r) 56)
                       (rnext r + Z.shiftr (63 - rbits r) 3)
                       (rover r))
    end.

(* dec_bit_reader.h:44-53, constructor: empty buffer, then Refill. *)
Definition reader_init (bs : list Z) : option reader := refill bs (mkReader 0 0 0 0).

(* dec_bit_reader.h:113-127 PeekBits (the mask form; PeekFixedBits :106-111 is the same
   expression).  The DASSERT nbits <= kMaxBitsPerCall is a precondition. *)
Definition peek_bits (r : reader) (n : Z) : option Z :=
  if n <=? kMaxBitsPerCall then Some (Z.land (rbuf r) (2 ^ n - 1)) else None.

(* dec_bit_reader.h:132-145 Consume *)
Definition consume (r : reader) (n : Z) : option reader :=
  if n <=? rbits r then
    Some (mkReader (Z.shiftr (rbuf r) n) (rbits r - n) (rnext r) (rover r))
  else None.

(* dec_bit_reader.h:147-153 ReadBits (ReadFixedBits :155-162 is the same sequence) *)
Definition read_bits (bs : list Z) (r : reader) (n : Z) : option (Z * reader) :=
  match refill bs r with
  | None => None
  | Some r1 =>
      match peek_bits r1 n with
      | None => None
      | Some v => match consume r1 n with None => None | Some r2 => Some (v, r2) end
      end
  end.

(* dec_bit_reader.h:166-201 SkipBits *)
Definition skip_bits (bs : list Z) (r : reader) (skip : Z) : option reader :=
  if skip <=? rbits r then consume r skip
  else
    let skip1 := skip - rbits r in
    let whole := skip1 / 8 in
    let skip2 := skip1 mod 8 in
    if zlen bs - rnext r <? whole then
      match refill bs (mkReader 0 0 (zlen bs) (rover r)) with
      | None => None
      | Some r1 => consume r1 (skip2 + 8)
      end
    else
      match refill bs (mkReader 0 0 (rnext r + whole) (rover r)) with
      | None => None
      | Some r1 => consume r1 skip2
      end.

(* dec_bit_reader.h:203-206 TotalBitsConsumed *)
Definition total_bits_consumed (r : reader) : Z := (rnext r + rover r) * 8 - rbits r.

(* dec_bit_reader.h:208-215 JumpToByteBoundary; the boolean is the returned Status. *)
Definition jump_to_byte_boundary (bs : list Z) (r : reader) : option (bool * reader) :=
  let remainder := total_bits_consumed r mod 8 in
  if remainder =? 0 then Some (true, r)
  else
    match read_bits bs r (8 - remainder) with
    | None => None
    | Some (v, r') => Some (v =? 0, r')
    end.

(* dec_bit_reader.h:230-235 MarkUnhealthy *)
Definition mark_unhealthy (bs : list Z) (r : reader) : reader :=
  mkReader (rbuf r) (rbits r) (zlen bs) (rover r + 8).

(* dec_bit_reader.h:240-253 AllReadsWithinBounds (the bookkeeping for Close's debug
   message is in [close]). *)
Definition all_reads_within_bounds (bs : list Z) (r : reader) : bool :=
  negb (zlen bs * 8 <? total_bits_consumed r).

(* dec_bit_reader.h:257-266 Close; [checked] is checked_out_of_bounds_bits_. *)
Definition close (bs : list Z) (r : reader) (checked : Z) : bool :=
  negb ((checked <? total_bits_consumed r) && (zlen bs * 8 <? total_bits_consumed r)).

(* Operations a client can perform, with their observable results. *)
Inductive rop :=
| ORefill                  (* Refill() *)
| OPeek (n : Z)            (* PeekBits(n) *)
| OConsume (n : Z)         (* Consume(n) *)
| ORead (n : Z)            (* ReadBits(n) *)
| OSkip (n : Z)            (* SkipBits(n) *)
| OJump                    (* JumpToByteBoundary() *)
| OCheck.                  (* AllReadsWithinBounds() *)

Inductive rout := RUnit | RVal (v : Z) | RBool (b : bool).

Definition rstep (bs : list Z) (r : reader) (o : rop) : option (rout * reader) :=
  match o with
  | ORefill => match refill bs r with None => None | Some r' => Some (RUnit, r') end
  | OPeek n => match peek_bits r n with None => None | Some v => Some (RVal v, r) end
  | OConsume n => match consume r n with None => None | Some r' => Some (RUnit, r') end
  | ORead n => match read_bits bs r n with None => None | Some (v, r') => Some (RVal v, r') end
  | OSkip n => match skip_bits bs r n with None => None | Some r' => Some (RUnit, r') end
  | OJump => match jump_to_byte_boundary bs r with
             | None => None | Some (b, r') => Some (RBool b, r') end
  | OCheck => Some (RBool (all_reads_within_bounds bs r), r)
  end.

Fixpoint rrun (bs : list Z) (r : reader) (ops : list rop) : option (list rout * reader) :=
  match ops with
  | [] => Some ([], r)
  | o :: ops' =>
      match rstep bs r o with
      | None => None
      | Some (out, r1) =>
          match rrun bs r1 ops' with
          | None => None
          | Some (outs, r2) => Some (out :: outs, r2)
          end
      end
  end.
