(** * What a user expects of the transforms of a group, without the decoder's loops *)
From Coq Require Import ZArith List.
Import ListNotations.
Local Open Scope Z_scope.

(** A transform: the coordinates of its first block and its number in the file format *)
Definition transform : Type := (Z * Z * Z)%type.
(** Its width and height in blocks, by number: DCT, IDENTITY, DCT2X2, DCT4X4, DCT16X16, DCT32X32,
    DCT16X8 (16 rows of 8), DCT8X16, DCT32X8, DCT8X32, DCT32X16, DCT16X32, DCT4X8, DCT8X4, AFV0-3,
    DCT64X64, 64X32, 32X64, 128X128, 128X64, 64X128, 256X256, 256X128, 128X256 *)
Definition dims : list (Z * Z) :=
  [(1,1);(1,1);(1,1);(1,1);(2,2);(4,4);(1,2);(2,1);(1,4);(4,1);(2,4);(4,2);(1,1);(1,1);
   (1,1);(1,1);(1,1);(1,1);(8,8);(4,8);(8,4);(16,16);(8,16);(16,8);(32,32);(16,32);(32,16)].
Definition wide (t : Z) : Z := fst (nth (Z.to_nat t) dims (0,0)).
Definition high (t : Z) : Z := snd (nth (Z.to_nat t) dims (0,0)).

(** The block (a, b) belongs to the transform *)
Definition covers (p : transform) (a b : Z) : Prop :=
  let '(cx, cy, t) := p in cx <= a < cx + wide t /\ cy <= b < cy + high t.
(** The block (a, b) is in the rectangle *)
Definition inside (x0 y0 xs ys a b : Z) : Prop := x0 <= a < x0 + xs /\ y0 <= b < y0 + ys.
(** Blocks (a, b) and (c, d) are in the same group of 32 by 32 blocks *)
Definition same_group (a b c d : Z) : Prop := a / 32 = c / 32 /\ b / 32 = d / 32.

(** What is stored for a block: twice the number of the transform, plus one for its first block *)
Definition stored (p : transform) (a b v : Z) : Prop :=
  let '(cx, cy, t) := p in
  (a = cx /\ b = cy /\ v = 2 * t + 1) \/ (~ (a = cx /\ b = cy) /\ v = 2 * t).
