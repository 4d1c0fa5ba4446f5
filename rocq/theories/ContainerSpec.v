(* What the container theorems talk about: byte strings, big-endian numbers, row layouts. *)
From Verif Require Import Base.

(* the two signatures of a JPEG XL file *)
Definition codestream_signature : list Z := [255; 10].
Definition container_signature : list Z := [0; 0; 0; 12; 74; 88; 76; 32; 13; 10; 135; 10].

Definition prefix_of (p s : list Z) : Prop := exists r, s = p ++ r.
Definition proper_prefix (p s : list Z) : Prop := exists x r, s = p ++ x :: r.

(* value of a big-endian byte string *)
Fixpoint big_endian (bs : list Z) : Z :=
  match bs with
  | [] => 0
  | b :: r => b * 2 ^ (8 * zlen r) + big_endian r
  end.

(* The header at the start of s says: header of h bytes, type t, total size n (0: up to the
   end of the file).  ISO/IEC 18181-2 box header. *)
Inductive box_header (s : list Z) : Z -> list Z -> Z -> Prop :=
| box_small sz t r :
    s = sz ++ t ++ r -> length sz = 4%nat -> length t = 4%nat -> big_endian sz <> 1 ->
    box_header s 8 t (big_endian sz)
| box_large sz t sz64 r :
    s = sz ++ t ++ sz64 ++ r -> length sz = 4%nat -> length t = 4%nat -> length sz64 = 8%nat ->
    big_endian sz = 1 ->
    box_header s 16 t (big_endian sz64).

(* a declared size is acceptable at a file position *)
Definition box_size_ok (h n file_pos : Z) : Prop := (n = 0 \/ h <= n) /\ file_pos + n < 2 ^ 64.

(* Layout of ysize rows of row_bits bits each, rows padded to a multiple of align:
   row_bytes is the least number of bytes holding row_bits, stride the least multiple of
   align not below it. *)
Definition least_multiple (a lo m : Z) : Prop := lo <= m < lo + a /\ (a | m).
Definition row_layout (row_bits align row_bytes stride : Z) : Prop :=
  least_multiple 8 row_bits (8 * row_bytes) /\ least_multiple (Z.max 1 align) row_bytes stride.
