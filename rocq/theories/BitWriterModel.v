(* Model of lib/jxl/enc_bit_writer.{h,cc} together with the part of
   lib/jxl/padded_bytes.h it relies on.

   [wdata] is the whole allocation of PaddedBytes (capacity + 8 bytes), [] standing for
   a null data_.  Freshly allocated memory has arbitrary contents: it is delivered by an
   allocator oracle, indexed by the number of allocations made so far, which may fail.
   Outcomes: [WOk] normal, [WFail] a returned error Status, [WBad] an access outside the
   allocation or a violated JXL_DASSERT (undefined behaviour in release builds).
   Simplification: byte counts are unbounded integers except where the code checks for
   overflow (SafeAdd); the little-endian branch of Write is modelled. *)
From Verif Require Import Base.

Inductive outcome (A : Type) := WOk (a : A) | WFail | WBad.
Arguments WOk {A} a. Arguments WFail {A}. Arguments WBad {A}.

Definition bindo {A B} (x : outcome A) (f : A -> outcome B) : outcome B :=
  match x with WOk a => f a | WFail => WFail | WBad => WBad end.
Notation "'do' x <- a ; b" := (bindo a (fun x => b)) (at level 200, x pattern, a at level 100, b at level 200).

(* bits_written_, storage_ (data_, size_, capacity_), and the prev_bits_written_ of the
   chain current_allotment_, parent_, ... (innermost first). [wallocs]: ghost counter of
   allocations, used to index the oracle. *)
Record writer := mkWriter {
  wpos : Z; wdata : list Z; wsize : Z; wcap : Z; wframes : list Z; wallocs : nat }.

Definition writer0 : writer := mkWriter 0 [] 0 0 [] 0.

Section Writer.
(* AlignedMemory::Create(memory_manager, size): None is failure. *)
Variable alloc : nat -> Z -> option (list Z).

Definition set_nth (l : list Z) (i : Z) (v : Z) : list Z :=
  firstn (Z.to_nat i) l ++ [v] ++ skipn (S (Z.to_nat i)) l.

(* memcpy/memmove of [src] to offset [p]; fails if outside the allocation. *)
Definition store (l : list Z) (p : Z) (src : list Z) : option (list Z) :=
  if (0 <=? p) && (p + zlen src <=? zlen l) then
    Some (firstn (Z.to_nat p) l ++ src ++ skipn (Z.to_nat p + length src) l)
  else None.

(* padded_bytes.h:175-207 change_capacity *)
Definition change_capacity (w : writer) (c : Z) : outcome writer :=
  let c' := Z.max 64 c in
  if 2 ^ 64 <=? c' + 8 then WFail
  else
    match alloc (wallocs w) (c' + 8) with
    | None => WFail
    | Some fresh =>
        match
          match wdata w with
          | [] => store fresh 0 [0]
          | _ =>
              match store fresh 0 (firstn (Z.to_nat (wsize w)) (wdata w)) with
              | None => None
              | Some d => store d (wsize w) [0]
              end
          end
        with
        | None => WBad
        | Some d => WOk (mkWriter (wpos w) d (wsize w) c' (wframes w) (S (wallocs w)))
        end
    end.

(* padded_bytes.h:79-89 reserve *)
Definition reserve (w : writer) (c : Z) : outcome writer :=
  if c <=? wcap w then WOk w
  else
    let nc := wcap w + wcap w / 2 in
    if 2 ^ 64 <=? nc then WFail
    else change_capacity w (Z.max c nc).

(* padded_bytes.h:97-101 resize *)
Definition resize (w : writer) (s : Z) : outcome writer :=
  do w1 <- reserve w s;
  WOk (mkWriter (wpos w1) (wdata w1) s (wcap w1) (wframes w1) (wallocs w1)).

(* The eight bytes of a 64-bit value, least significant first (memcpy of v). *)
Fixpoint le_bytes (n : nat) (v : Z) : list Z :=
  match n with O => [] | S n' => v mod 256 :: le_bytes n' (v / 256) end.

(* enc_bit_writer.cc:181-208 BitWriter::Write *)
Definition write (w : writer) (n v : Z) : outcome writer :=
  if negb (Z.shiftr v n =? 0) then WBad           (* JXL_DASSERT((bits >> n_bits) == 0) *)
  else if 56 <? n then WBad                       (* JXL_DASSERT(n_bits <= kMaxBitsPerCall) *)
  else
    let p := wpos w / 8 in
    if wsize w <? p then WBad                     (* PaddedBytes::BoundsCheck *)
    else
      let sh := wpos w mod 8 in
      let bits := w64 (Z.shiftl v sh) in
      match znth (wdata w) p with
      | None => WBad
      | Some b =>
          if negb (Z.shiftr b sh =? 0) then WBad  (* JXL_DASSERT(v >> bits_in_first_byte == 0) *)
          else
            match store (wdata w) p (le_bytes 8 (Z.lor b bits)) with
            | None => WBad
            | Some d => WOk (mkWriter (wpos w + n) d (wsize w) (wcap w) (wframes w) (wallocs w))
            end
      end.

(* enc_bit_writer.h:91-97 ZeroPadToByte *)
Definition zero_pad_to_byte (w : writer) : outcome writer :=
  let rem := (wpos w + 7) / 8 * 8 - wpos w in
  if rem =? 0 then WOk w else write w rem 0.

(* enc_bit_writer.cc:37-49 Allotment::Init *)
Definition allot_init (w : writer) (max_bits : Z) : outcome writer :=
  let prev := wpos w in
  do w1 <- resize w (wsize w + (max_bits + 7) / 8);
  WOk (mkWriter (wpos w1) (wdata w1) (wsize w1) (wcap w1) (prev :: wframes w1) (wallocs w1)).

(* enc_bit_writer.cc:88-114 Allotment::PrivateReclaim (ReclaimAndCharge :70-86 only adds
   statistics to aux_out, which is not modelled; FinishedHistogram likewise). *)
Definition allot_reclaim (w : writer) (max_bits : Z) : outcome writer :=
  match wframes w with
  | [] => WBad
  | prev :: parents =>
      let used := wpos w - prev in
      if (used <? 0) || (max_bits <? used) then WBad   (* the two JXL_DASSERTs *)
      else
        let unused_bytes := (max_bits - used) / 8 in
        if wsize w <? unused_bytes then WFail          (* JXL_ENSURE *)
        else
          do w1 <- resize w (wsize w - unused_bytes);
          WOk (mkWriter (wpos w1) (wdata w1) (wsize w1) (wcap w1)
                        (map (fun q => q + used) parents) (wallocs w1))
  end.

(* enc_bit_writer.cc:116-131 AppendByteAligned(span) *)
Definition append_byte_aligned (w : writer) (span : list Z) : outcome writer :=
  match span with
  | [] => WOk w
  | _ =>
      do w1 <- resize w (wsize w + zlen span + 1);
      if negb (wpos w1 mod 8 =? 0) then WFail          (* JXL_ENSURE *)
      else
        let pos := wpos w1 / 8 in
        match store (wdata w1) pos span with
        | None => WBad
        | Some d =>
            let pos2 := pos + zlen span in
            if negb (pos2 <? wsize w1) then WFail      (* JXL_ENSURE *)
            else
              match store d pos2 [0] with
              | None => WBad
              | Some d2 =>
                  WOk (mkWriter (wpos w1 + zlen span * 8) d2 (wsize w1) (wcap w1)
                                (wframes w1) (wallocs w1))
              end
        end
  end.

(* enc_bit_writer.h:79 Shrink -> padded_bytes.h:91 shrink_to_fit *)
Definition shrink (w : writer) : outcome writer := change_capacity w (wsize w).

(* enc_bit_writer.h:61-70 TakeBytes *)
Definition take_bytes (w : writer) : outcome (list Z) :=
  if negb (wpos w mod 8 =? 0) then WBad
  else
    do w1 <- resize w ((wpos w + 7) / 8);
    WOk (firstn (Z.to_nat (wsize w1)) (wdata w1)).

(* A client program using the public interface. *)
Inductive wop :=
| PWrite (n v : Z)                     (* Write(n, v) *)
| PPad                                 (* ZeroPadToByte() *)
| PWith (max_bits : Z) (body : list wop)   (* WithMaxBits(max_bits, ..., body) *)
| PAppend (span : list Z)              (* AppendByteAligned(span) *)
| PShrink.                             (* Shrink() *)

Fixpoint run_op (w : writer) (o : wop) {struct o} : outcome writer :=
  match o with
  | PWrite n v => write w n v
  | PPad => zero_pad_to_byte w
  | PWith max_bits body =>
      (* enc_bit_writer.cc:23-34 WithMaxBits *)
      do w1 <- allot_init w max_bits;
      do w2 <- (fix run_list (w : writer) (l : list wop) {struct l} : outcome writer :=
                  match l with
                  | [] => WOk w
                  | o' :: l' => do w' <- run_op w o'; run_list w' l'
                  end) w1 body;
      allot_reclaim w2 max_bits
  | PAppend span => append_byte_aligned w span
  | PShrink => shrink w
  end.

Fixpoint run_ops (w : writer) (l : list wop) : outcome writer :=
  match l with
  | [] => WOk w
  | o :: l' => do w' <- run_op w o; run_ops w' l'
  end.

End Writer.
