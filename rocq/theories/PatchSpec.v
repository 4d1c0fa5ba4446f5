(** * What patches should do, without the interval tree and the segments of rows. *)
From Coq Require Import ZArith List Bool Permutation Sorted.
From Verif Require Import Base PatchModel.
Import ListNotations.
Local Open Scope Z_scope.

(** A patch of a frame: the rectangle of a reference frame it shows, where its top
    left corner goes, and how it is blended with each channel. *)
Record patch := Patch { k_rect : refpos; k_x : Z; k_y : Z; k_blends : list blend }.

Definition touches (p : patch) (x y : Z) : bool :=
  (k_x p <=? x) && (x <? k_x p + r_xs (k_rect p)) && (k_y p <=? y) && (y <? k_y p + r_ys (k_rect p)).

(** What is drawn over a pixel: reference frame, column and row there, and blending. *)
Definition source : Type := (Z * Z * Z * list blend)%type.

(** The patches that touch the pixel, in the order of the codestream, each with the
    pixel at the same offset from its corner. *)
Definition drawn_over (ps : list patch) (x y : Z) : list source :=
  map (fun p => (r_ref (k_rect p), r_x0 (k_rect p) + (x - k_x p), r_y0 (k_rect p) + (y - k_y p), k_blends p))
      (filter (fun p => touches p x y) ps).

(** The patches that a dictionary stands for. *)
Definition patch_of (d : dict) (i : nat) (p : ppos) : patch :=
  Patch (nth (p_idx p) (refs d) (RefPos 0 0 0 0 0)) (p_x p) (p_y p)
        (firstn (stride d) (skipn (i * stride d) (blends d))).
Fixpoint number {A B} (f : nat -> A -> B) (i : nat) (l : list A) : list B :=
  match l with [] => [] | a :: r => f i a :: number f (S i) r end.
Definition patches (d : dict) : list patch := number (patch_of d) 0 (positions d).

(** A dictionary without dangling references, whose patches have rows and columns. *)
Definition sound (d : dict) : Prop :=
  Forall (fun p => exists rp, nth_error (refs d) (p_idx p) = Some rp /\ 1 <= r_xs rp /\ 1 <= r_ys rp) (positions d) /\
  Forall (fun p => 0 <= p_x p /\ 0 <= p_y p) (positions d) /\
  (length (positions d) * stride d <= length (blends d))%nat.

(** What drawing a segment of row [y] that starts at column [x0] does to column [x]. *)
Definition over_pixel (ds : list draw) (x0 x : Z) : list source :=
  map (fun w => (d_ref w, d_base w + (x - x0), d_row w, d_blends w))
      (filter (fun w => (d_from w <=? x - x0) && (x - x0 <? d_from w + d_count w)) ds).

(** Any sorting function. *)
Definition sorts {A} (key : A -> Z) (f : list A -> list A) : Prop :=
  forall l, Permutation l (f l) /\ StronglySorted (fun a b => key a <= key b) (f l).

(** A rectangle that lies inside of a reference frame that can be used. *)
Definition inside (frames : list rframe) (rp : refpos) : Prop :=
  exists f, 0 <= r_ref rp < 4 /\ nth_error frames (Z.to_nat (r_ref rp)) = Some f /\ f_xyb f = true /\
  0 <= r_x0 rp /\ 1 <= r_xs rp /\ r_x0 rp + r_xs rp <= f_xs f /\
  0 <= r_y0 rp /\ 1 <= r_ys rp /\ r_y0 rp + r_ys rp <= f_ys f.

(** A patch that lies inside of the frame, with its source inside of a reference. *)
Definition fits (frames : list rframe) (xsize ysize : Z) (p : patch) : Prop :=
  inside frames (k_rect p) /\ 0 <= k_x p /\ k_x p + r_xs (k_rect p) <= xsize /\
  0 <= k_y p /\ k_y p + r_ys (k_rect p) <= ysize.

(** A blending that can be written.  Modes 4 to 7 use an alpha channel, which is coded
    if there is a choice; modes 3 to 7 can be clamped.  What is not coded has its
    default. *)
Definition blend_ok (nec : nat) (b : blend) : Prop :=
  0 <= b_mode b < 8 /\
  (if (4 <=? b_mode b) && (1 <? nec)%nat then 0 <= b_alpha b < Z.of_nat nec else b_alpha b = 0) /\
  (b_mode b < 3 -> b_clamp b = false).
