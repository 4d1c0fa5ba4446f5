(* C27: the palette transform is lossless, and each index means a colour *)
From Verif Require Import Base PaletteModel PaletteSpec PaletteProofs PaletteTop.
From Coq Require Import Permutation.

(* When the encoder replaces channels by a palette, the decoder restores the image exactly, whatever order
   the palette is sorted in; and the channels it expects, which it works out from the shape of the image
   and the number of colours, are those the encoder has made. *)
Theorem C27_lossless : forall guess sort img begin_c end_c nb_colors img' n,
  (forall l, Permutation (sort l) l) -> image_ok img -> 0 <= begin_c -> nb_colors < 2 ^ 31 -> depth img <= 24 ->
  fwd_palette sort img begin_c end_c nb_colors = Ret (img', n) ->
  inv_palette guess img' begin_c 0 true = Ret img /\
  exists m, meta_palette img begin_c end_c n 0 = Ret m /\ image_shape m = image_shape img'.
Proof.
  intros guess sort img b e nc img' n PS OK Hb Hn Hd H.
  exact (conj (palette_lossless guess sort img b e nc img' n PS OK Hb Hn Hd H) (palette_shape sort img b e nc img' n Hb H)).
Qed.
Print Assumptions C27_lossless.

(* Every index, negative, within the palette or beyond it, has a colour, a 32 bit integer, in each channel
   of the palette: nothing outside the palette is read and nothing overflows. *)
Theorem C27_every_index : forall pal index c bit_depth,
  channel_ok pal -> 0 <= c < ch pal -> 0 <= bit_depth <= 24 ->
  exists v, get_palette_value (crows pal) index c (cw pal) bit_depth = Some v /\ is_i32 v.
Proof.
  intros pal index c d (L & W & R) Hc Hd. refine (value_total (crows pal) (cw pal) index c d _ _ R Hd); [exact (proj1 W)|rewrite L; exact Hc].
Qed.
Print Assumptions C27_every_index.

(* Whatever the channels contain, the number of deltas and the predictor, the decoder refuses the image or
   makes another whole image. *)
Theorem C27_any_image : forall guess img begin_c nb_deltas zero_predictor,
  image_ok img -> 0 <= begin_c -> 0 <= depth img ->
  inv_palette guess img begin_c nb_deltas zero_predictor <> Bad /\
  forall img', inv_palette guess img begin_c nb_deltas zero_predictor = Ret img' -> image_ok img' /\ depth img' = depth img.
Proof. exact inv_palette_total. Qed.
Print Assumptions C27_any_image.

(* The encoder makes no access out of bounds either. *)
Theorem C27_encoder_safe : forall sort img begin_c end_c nb_colors,
  image_ok img -> 0 <= begin_c -> 0 <= depth img -> fwd_palette sort img begin_c end_c nb_colors <> Bad.
Proof. exact fwd_palette_total. Qed.
Print Assumptions C27_encoder_safe.

Definition no_guess (w : Z) (above : list (list Z)) (left : list Z) : Z := 0.
Definition three (bd : Z) (a b c : list (list Z)) : image := Img [Chan 3 2 0 0 a; Chan 3 2 0 0 b; Chan 3 2 0 0 c] 0 bd.
(* at 8 bits: a colour of the implicit small cube, (32, 32, 32) at index 0 of it, and explicit ones *)
Definition rgb := three 8 [[32; 7; 200]; [32; 7; 7]] [[32; 8; 100]; [32; 8; 9]] [[32; -9; 50]; [32; -9; 9]].

Example rgb_encoded : exists img', fwd_palette (@rev (list Z)) rgb 0 2 10 = Ret (img', 3) /\
  map (fun c => (cw c, ch c, crows c)) (chans img') = [(3, 3, [[7; 200; 7]; [9; 100; 8]; [9; 50; -9]]); (3, 2, [[3; 2; 1]; [3; 2; 0]])].
Proof. eexists. vm_compute. split; reflexivity. Qed.
Example one_channel : exists img', fwd_palette (fun l => l) (Img [Chan 2 2 0 0 [[5; -70000]; [5; 9]]] 0 8) 0 0 10 = Ret (img', 3) /\
  map crows (chans img') = [[[-70000; 5; 9]]; [[1; 0]; [1; 2]]].
Proof. eexists. vm_compute. split; reflexivity. Qed.
Example rgb_ok : image_ok rgb.
Proof. unfold image_ok, rgb, three, channel_ok, is_i32. cbn. repeat constructor; cbn; lia. Qed.

(* A bit depth above 24 is not covered: the encoder computes the implicit colours with the bit depth of the
   image and the decoder with at most 24 bits, so pixels that equal implicit colours are not restored. *)
Theorem C27_deep_refuted : exists guess sort img begin_c end_c nb_colors img' n img'',
  (forall l, Permutation (sort l) l) /\ image_ok img /\ 0 <= begin_c /\ nb_colors < 2 ^ 31 /\ depth img = 28 /\
  fwd_palette sort img begin_c end_c nb_colors = Ret (img', n) /\
  inv_palette guess img' begin_c 0 true = Ret img'' /\ img'' <> img.
Proof.
  exists no_guess, (fun l => l), (Img [Chan 2 1 0 0 [[33554432; 100663295]]; Chan 2 1 0 0 [[33554432; 33554432]]] 0 28), 0, 1, 10.
  eexists _, _, _. split; [intros l; reflexivity|]. split; [unfold image_ok, channel_ok, is_i32; cbn; repeat constructor; cbn; lia|].
  split; [lia|]. split; [lia|]. split; [reflexivity|]. split; [vm_compute; reflexivity|]. split; [vm_compute; reflexivity|]. discriminate.
Qed.
Print Assumptions C27_deep_refuted.
