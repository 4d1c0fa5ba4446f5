(* Specification for the orders of coefficients (C41).  A transform, given by its number o, has
   area o = 64 * covered blocks coefficients, stored in rows of 8 * columns o. *)
From Verif Require Import Base LehmerSpec COrderModel.

Definition is_transform (o : Z) : Prop := 0 <= o < 27.

(* the position of the k-th low-frequency coefficient: one per 8x8 block covered, row by row *)
Definition low_position (o k : Z) : Z := k / columns o * (8 * columns o) + k mod columns o.

(* An order in which each coefficient comes once and the low-frequency ones come first. *)
Definition valid_order (o : Z) (l : list Z) : Prop :=
  is_permutation (area o) l /\ forall k, 0 <= k < llf o -> znth l k = Some (low_position o k).

(* How far a position is in the zigzag over a square: the diagonal, then the place along it.
   Diagonals are walked in alternating directions; rows are spread out to make a square. *)
Definition zigzag_rank (o pos : Z) : Z :=
  let w := 8 * columns o in
  let x := pos mod w in
  let y := pos / w in
  let d := x + y * (columns o / rows o) in
  d * w + (if Z.even d then x else w - 1 - x).

(* the natural order: the low frequencies, then the others by rank *)
Definition is_natural (o : Z) (l : list Z) : Prop :=
  valid_order o l /\
  forall i j a b, llf o <= i < j -> znth l i = Some a -> znth l j = Some b -> zigzag_rank o a < zigzag_rank o b.

(* the order of channel c for transform o in a buffer *)
Definition order_in (buf : Z -> Z) (o c : Z) : list Z := map buf (zseq (order_offset (bucket o) c) (Z.to_nat (area o))).

(* does a mask of transforms have one of the same kind as o? *)
Definition in_use (used_acs o : Z) : Prop := exists o', is_transform o' /\ bucket o' = bucket o /\ Z.testbit used_acs o' = true.

(* ---- the encoder's state over several calls (one per part of a frame) ---- *)

(* Whatever floating point makes of the number of zeros: it is not negative, and 0 for the low
   frequencies, whose number of zeros is set to -1. *)
Definition counts_ok (count : Z -> Z -> Z -> Z) : Prop :=
  forall o c p, is_transform o -> 0 <= c < 3 ->
    0 <= count (bucket o) c p < 2 ^ 48 /\
    ((exists k, 0 <= k < llf o /\ p = low_position o k) -> count (bucket o) c p = 0).

(* The orders are fixed for the kinds of transforms in acs, with stored ones among them in [all]. *)
Definition orders_fixed (all acs : Z) (buf : Z -> Z) : Prop :=
  (forall b, 0 <= b -> Z.testbit all b = true -> Z.testbit acs b = true) /\
  forall o c, is_transform o -> 0 <= c < 3 -> Z.testbit acs (bucket o) = true ->
    valid_order o (order_in buf o c) /\ (Z.testbit all (bucket o) = false -> is_natural o (order_in buf o c)).

(* the part of a call: orders are stored only for transforms that the part has *)
Definition part_ok (p : (Z -> Z -> Z -> Z) * Z * Z) : Prop :=
  let '(count, acs, orders) := p in counts_ok count /\ forall x, 0 <= x -> Z.testbit orders x = true -> Z.testbit acs x = true.

(* ---- the decoder ---- *)

(* all orders a decoder can come to use are valid, and those not stored are natural *)
Definition orders_ok (used_orders used_acs : Z) (b : Z -> Z) : Prop :=
  forall o c, is_transform o -> 0 <= c < 3 -> in_use used_acs o ->
    valid_order o (order_in b o c) /\ (Z.testbit used_orders (bucket o) = false -> is_natural o (order_in b o c)).

(* the orders in use are those of the encoder's buffer, or natural if not stored *)
Definition orders_match (used_orders used_acs : Z) (ebuf b : Z -> Z) : Prop :=
  forall o c, is_transform o -> 0 <= c < 3 -> in_use used_acs o ->
    if Z.testbit used_orders (bucket o) then order_in b o c = order_in ebuf o c else is_natural o (order_in b o c).
