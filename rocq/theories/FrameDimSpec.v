(* Rectangles that tile a grid. *)
From Verif Require Import Base FrameDimModel.

Definition covers (r : rect) (x y : Z) : Prop :=
  rx0 r <= x < rx0 r + rxsize r /\ ry0 r <= y < ry0 r + rysize r.

(* rectangles number 0..n-1 are non-empty, lie inside the w x h grid, and every cell of the
   grid is in exactly one of them *)
Definition tiles (n : Z) (r : Z -> rect) (w h : Z) : Prop :=
  (forall g, 0 <= g < n -> 0 <= rx0 (r g) /\ 0 <= ry0 (r g) /\ 0 < rxsize (r g) /\ 0 < rysize (r g) /\
                           rx0 (r g) + rxsize (r g) <= w /\ ry0 (r g) + rysize (r g) <= h) /\
  (forall x y, 0 <= x < w -> 0 <= y < h ->
     exists g, 0 <= g < n /\ covers (r g) x y /\ forall g', 0 <= g' < n -> covers (r g') x y -> g' = g).

(* m is a rounded up to a multiple of k *)
Definition rounded_up (k a m : Z) : Prop := a <= m < a + k /\ (k | m).

(* parameters that occur: frame sizes are below 2^34 (two 32-bit quantities are never added),
   group_size_shift has two bits, chroma shifts and upsampling are powers of two up to 8 *)
Definition params_ok (xsize_px ysize_px group_size_shift max_hshift max_vshift upsampling : Z) : Prop :=
  1 <= xsize_px < 2 ^ 34 /\ 1 <= ysize_px < 2 ^ 34 /\ 0 <= group_size_shift <= 3 /\
  0 <= max_hshift <= 3 /\ 0 <= max_vshift <= 3 /\ (upsampling = 1 \/ upsampling = 2 \/ upsampling = 4 \/ upsampling = 8).
