(** * Splitting AC coefficients into passes (enc_progressive_split.{h,cc}) and adding them
    up again (dec_group.cc)

    A block is a function of the place of a coefficient; [X], [Y] are its sides in
    blocks in canonical order (CoefficientLayout).  Coefficients are 32-bit integers; the
    sums do not overflow as every one of them lies between 0 and the coefficient
    (C59_every_prefix).  16-bit blocks are the same with fewer bits. *)
From Coq Require Import ZArith List Bool Lia.
From Verif Require Import Base.
Import ListNotations.
Local Open Scope Z_scope.

(** PassDefinition, enc_progressive_split.h:30-43, without the downsampling *)
Record pass := Pass { ncoef : Z; pshift : Z }.

(** shift_right_round0, enc_progressive_split.cc:25-29 *)
Definition round0 (v s : Z) : Z :=
  let neg := Z.shiftr (w32 v) 31 in
  let add := Z.shiftl neg s - neg in
  Z.shiftr (v + add) s.

(** The coefficients that the loops enc_progressive_split.cc:46-48 visit: the square of
    [n] in every block (at most 8), interleaved *)
Definition inside (X Y n pos : Z) : bool :=
  (pos mod (X * 8) <? X * n) && (pos / (X * 8) <? Y * n).

(** One pass, enc_progressive_split.cc:38-64: [done] is ncoeffs_all_done_from_earlier_passes,
    [prev] is previous_pass_shift *)
Definition split_pass (X Y : Z) (block : Z -> Z) (p : pass) (done prev pos : Z) : Z :=
  if negb (inside X Y (ncoef p) pos) then 0 else
  if inside X Y done pos then 0 else
  let v := block pos in
  let v := if prev =? 0 then v else v - round0 v prev * 2 ^ prev in
  round0 v (pshift p).

(** enc_progressive_split.cc:38-72 *)
Fixpoint split_passes (X Y : Z) (block : Z -> Z) (ps : list pass) (done prev : Z) : list (Z -> Z) :=
  match ps with
  | [] => []
  | p :: r =>
      split_pass X Y block p done prev ::
      split_passes X Y block r (if pshift p =? 0 then ncoef p else done) (pshift p)
  end.

(** ProgressiveSplitter::SplitACCoefficients, enc_progressive_split.cc:20-73 *)
Definition split (X Y : Z) (ps : list pass) (block : Z -> Z) : list (Z -> Z) :=
  match ps with
  | [_] => [block]
  | _ => split_passes X Y block ps 1 0
  end.

(** The shifts in the frame header, InitPasses, enc_progressive_split.h:83-104 and
    frame_header.cc:150-154: the last is 0 *)
Fixpoint header_shifts (ps : list pass) : list Z :=
  match ps with
  | [] => []
  | [_] => [0]
  | p :: r => pshift p :: header_shifts r
  end.

(** What the decoder has after the passes it was given: dec_group.cc:514-530 and 668-677 *)
Fixpoint add_up (shifts : list Z) (outs : list (Z -> Z)) (pos : Z) : Z :=
  match shifts, outs with
  | s :: ss, o :: os => o pos * 2 ^ s + add_up ss os pos
  | _, _ => 0
  end.

(** The modes of SetProgressiveMode, enc_frame.cc:262-290 *)
Definition mode_default : list pass := [Pass 8 0].
Definition mode_progressive : list pass := [Pass 2 0; Pass 3 0; Pass 8 0].
Definition mode_qprogressive : list pass := [Pass 8 1; Pass 8 0].

(** What the constructor of ProgressiveMode asserts, enc_progressive_split.h:54-66 *)
Fixpoint asserted (n s : Z) (ps : list pass) : bool :=
  match ps with
  | [] => true
  | p :: r => ((ncoef p >? n) || ((ncoef p =? n) && (pshift p <? s))) && asserted (ncoef p) (pshift p) r
  end.
