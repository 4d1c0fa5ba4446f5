(** * Modes whose passes give the coefficients back *)
From Coq Require Import ZArith List Bool.
From Verif Require Import Base SplitModel.
Import ListNotations.
Local Open Scope Z_scope.

(** Passes that refine: after a pass that is complete (shift 0) the next has at least as many
    coefficients; after one that is not, the next has the same coefficients with more
    bits.  The last one is complete and has all coefficients. *)
Fixpoint refining (n s : Z) (ps : list pass) : Prop :=
  match ps with
  | [] => n = 8 /\ s = 0
  | p :: r =>
      1 <= ncoef p <= 8 /\ 0 <= pshift p /\
      ((s = 0 /\ n <= ncoef p) \/ (0 < s /\ ncoef p = n /\ pshift p < s)) /\
      refining (ncoef p) (pshift p) r
  end.

(** Row and column of a coefficient in a block of [X] blocks per row *)
Definition row (X pos : Z) : Z := pos / (X * 8).
Definition col (X pos : Z) : Z := pos mod (X * 8).

(** The square of n x n coefficients of every block *)
Definition in_square (X Y n pos : Z) : Prop := col X pos < X * n /\ row X pos < Y * n.
