(* Specification of the move-to-front coding of a list of bytes. *)
From Verif Require Import Base.

(* The bytes, most recently used first. *)
Definition byte_list : list Z := map Z.of_nat (seq 0 256).

(* The value at position [i] of the list, and the list with that value moved to the front. *)
Definition to_front (l : list Z) (i : Z) : list Z :=
  nth (Z.to_nat i) l 0 :: firstn (Z.to_nat i) l ++ skipn (S (Z.to_nat i)) l.

(* [recall l is] are the values denoted by the positions [is], where l is the list of recently
   used values. *)
Fixpoint recall (l : list Z) (is : list Z) : list Z :=
  match is with
  | [] => []
  | i :: is' => nth (Z.to_nat i) l 0 :: recall (to_front l i) is'
  end.

(* the vector lengths of the supported processors *)
Definition lane_count (n : Z) : Prop := exists k, 0 <= k <= 6 /\ n = 2 ^ k.
