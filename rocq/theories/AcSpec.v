(** * What a block context map, a block and an order must be *)
From Coq Require Import ZArith List Bool Permutation.
From Verif Require Import Base AcModel.
Import ListNotations.
Local Open Scope Z_scope.

(** What a context map decoder delivers (C16, C46): as many entries as asked for, all
    below the number of contexts it announces. *)
Definition good_map (read_map : Z -> option (list Z * Z)) : Prop :=
  forall n l k, read_map n = Some (l, k) -> zlen l = n /\ Forall (fun x => 0 <= x < k) l.

(** A block context map that the decoder may end up with: the default one or one that
    was decoded. *)
Definition usable (m : bctx) : Prop :=
  m = default_bctx \/ exists d0 d1 d2 q read_map, good_map read_map /\ decode_bctx d0 d1 d2 q read_map = Some m.

(** The lowest frequencies of a block: the corner of [rows] x [columns] coefficients, where
    the smaller side is the rows. *)
Definition low (v : vblock) (i : Z) : Prop :=
  i / (Z.max (v_cx v) (v_cy v) * 8) < Z.min (v_cx v) (v_cy v) /\
  i mod (Z.max (v_cx v) (v_cy v) * 8) < Z.max (v_cx v) (v_cy v).

(** A block of a group: sides are powers of two up to 32, the order goes through each
    coefficient once, and contexts and buckets exist. *)
Definition well_formed (m : bctx) (v : vblock) : Prop :=
  (exists a b, 0 <= a <= 5 /\ 0 <= b <= 5 /\ v_cx v = 2 ^ a /\ v_cy v = 2 ^ b) /\
  0 <= v_x v /\ 0 <= v_y v /\ 0 <= v_c v < 3 /\ 0 <= v_ord v < num_orders /\
  (exists x y b, v_dc v = dc_bucket m x y b) /\
  Forall (fun k => 0 <= v_order v k < bsize v) (range 0 (Z.to_nat (bsize v))).

(** The order starts with the lowest frequencies and visits every coefficient. *)
Definition full_order (v : vblock) : Prop :=
  Permutation (map (v_order v) (range 0 (Z.to_nat (bsize v)))) (range 0 (Z.to_nat (bsize v))) /\
  forall k, 0 <= k < bsize v -> (low v (v_order v k) <-> k < covered v).

(** Coefficients that can be coded: 32-bit integers (and representable by the decoder), and
    nothing in the lowest frequencies, which are coded elsewhere; a single DC
    coefficient does not matter. *)
Definition codable (bits : Z) (v : vblock) (b : Z -> Z) : Prop :=
  (forall i, - 2 ^ (bits - 1) <= b i < 2 ^ (bits - 1)) /\
  (covered v <> 1 -> forall i, 0 <= i < bsize v -> low v i -> b i = 0).

(** A place of a channel that one of the blocks covers *)
Definition seen (prev : list vblock) (c x y : Z) : Prop :=
  Exists (fun v => v_c v = c /\ v_x v <= x < v_x v + v_cx v /\ v_y v <= y < v_y v + v_cy v) prev.

(** Blocks that come after the ones to the left and above of their corner *)
Fixpoint in_order (prev l : list vblock) : Prop :=
  match l with
  | [] => True
  | v :: r =>
      (v_x v <> 0 -> seen prev (v_c v) (v_x v - 1) (v_y v)) /\
      (v_y v <> 0 -> seen prev (v_c v) (v_x v) (v_y v - 1)) /\ in_order (v :: prev) r
  end.

(** Eight buckets of one count, then buckets of two up to 64 *)
Definition count_bucket (nz : Z) : Z := if nz <? 8 then nz else if nz <? 64 then 4 + nz / 2 else 36.
