(* Programs that use a BitReader.  Parsing code of the decoder (field coders, bundles,
   code-length readers, ...) is modelled as a term of [rprog]; such a term can be run
   on the BitReader model ([run_reader]) and on a plain bit string ([run_bits]).
   BitProgProofs.v shows that the two agree for every program, so that properties can
   be proved on bit strings.  Nothing here models a particular function. *)
From Verif Require Import Base BitReaderModel BitReaderSpec.

Inductive rprog (A : Type) : Type :=
| Ret (a : A)
| Read (n : Z) (k : Z -> rprog A)          (* ReadBits(n) / ReadFixedBits<n>() *)
| Skip (n : Z) (k : rprog A)               (* SkipBits(n) *)
| Jump (k : bool -> rprog A)               (* JumpToByteBoundary() *)
| Check (k : bool -> rprog A)              (* AllReadsWithinBounds() *)
| Pos (k : Z -> rprog A)                   (* TotalBitsConsumed() *)
| Refill (k : rprog A)                     (* Refill() *)
| Peek (n : Z) (k : Z -> rprog A)          (* PeekBits(n) / PeekFixedBits<n>() *)
| Consume (n : Z) (k : rprog A).           (* Consume(n) *)
Arguments Ret {A} a.
Arguments Read {A} n k.
Arguments Skip {A} n k.
Arguments Jump {A} k.
Arguments Check {A} k.
Arguments Pos {A} k.
Arguments Refill {A} k.
Arguments Peek {A} n k.
Arguments Consume {A} n k.

Fixpoint bind {A B} (p : rprog A) (f : A -> rprog B) : rprog B :=
  match p with
  | Ret a => f a
  | Read n k => Read n (fun v => bind (k v) f)
  | Skip n k => Skip n (bind k f)
  | Jump k => Jump (fun b => bind (k b) f)
  | Check k => Check (fun b => bind (k b) f)
  | Pos k => Pos (fun v => bind (k v) f)
  | Refill k => Refill (bind k f)
  | Peek n k => Peek n (fun v => bind (k v) f)
  | Consume n k => Consume n (bind k f)
  end.

Notation "'let!' x := p 'in' q" := (bind p (fun x => q))
  (at level 200, x pattern, p at level 100, q at level 200, right associativity).

Definition rd (n : Z) : rprog Z := Read n (fun v => Ret v).

(* On the reader model.  [None]: out-of-bounds access or violated precondition. *)
Fixpoint run_reader {A} (bs : list Z) (r : reader) (p : rprog A) : option (A * reader) :=
  match p with
  | Ret a => Some (a, r)
  | Read n k =>
      match read_bits bs r n with
      | None => None
      | Some (v, r') => run_reader bs r' (k v)
      end
  | Skip n k =>
      match skip_bits bs r n with
      | None => None
      | Some r' => run_reader bs r' k
      end
  | Jump k =>
      match jump_to_byte_boundary bs r with
      | None => None
      | Some (b, r') => run_reader bs r' (k b)
      end
  | Check k => run_reader bs r (k (all_reads_within_bounds bs r))
  | Pos k => run_reader bs r (k (total_bits_consumed r))
  | Refill k =>
      match refill bs r with
      | None => None
      | Some r' => run_reader bs r' k
      end
  | Peek n k =>
      match peek_bits r n with
      | None => None
      | Some v => run_reader bs r (k v)
      end
  | Consume n k =>
      match consume r n with
      | None => None
      | Some r' => run_reader bs r' k
      end
  end.

(* n bits of the bit string s (continued with zeros) from position p on *)
Definition bits_at (s : list bool) (p n : Z) : Z :=
  of_bits (window s (Z.to_nat p) (Z.to_nat n)).

(* On a bit string, from position [pos]; [av] is the number of bits that may still be
   peeked or consumed before the next refill.  The result is the value, the new position
   and the new [av].
   [None]: the program violates a precondition of the reader (more than 56 bits in one
   read, negative amounts, Peek/Consume of more than is guaranteed to be buffered), or it
   asks for the position after reading past the end (the reader does not promise an exact
   answer then). *)
Fixpoint run_bits {A} (s : list bool) (pos av : Z) (p : rprog A) : option (A * (Z * Z)) :=
  match p with
  | Ret a => Some (a, (pos, av))
  | Read n k =>
      if (0 <=? n) && (n <=? 56) then run_bits s (pos + n) (56 - n) (k (bits_at s pos n)) else None
  | Skip n k => if 0 <=? n then run_bits s (pos + n) 0 k else None
  | Jump k =>
      let pad := (- pos) mod 8 in
      run_bits s (pos + pad) 0 (k (bits_at s pos pad =? 0))
  | Check k => run_bits s pos av (k (pos <=? zlen s))
  | Pos k => if pos <=? zlen s then run_bits s pos av (k pos) else None
  | Refill k => run_bits s pos 56 k
  | Peek n k => if (0 <=? n) && (n <=? av) then run_bits s pos av (k (bits_at s pos n)) else None
  | Consume n k => if (0 <=? n) && (n <=? av) then run_bits s (pos + n) (av - n) k else None
  end.
