(* What the palette theorems speak of: images as the rest of the program makes them. *)
From Verif Require Import Base PaletteModel.

(* the rows have the channel's size and the pixels are 32 bit integers *)
Definition channel_ok (c : channel) : Prop :=
  zlen (crows c) = ch c /\ 0 <= cw c < 2 ^ 31 /\ Forall (fun row => zlen row = cw c /\ Forall is_i32 row) (crows c).
Definition image_ok (img : image) : Prop :=
  Forall channel_ok (chans img) /\ 0 <= nb_meta img <= zlen (chans img).
(* all that the decoder knows of the channels before it reads them *)
Definition shape (c : channel) : Z * Z * Z * Z := (cw c, ch c, chs c, cvs c).
Definition image_shape (img : image) := (map shape (chans img), nb_meta img, depth img).
