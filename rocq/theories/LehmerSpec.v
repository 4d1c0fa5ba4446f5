(* Specification vocabulary for permutations and their codes. *)
From Verif Require Import Base.

(* p lists the numbers 0, ..., n-1 in some order, each exactly once *)
Definition is_permutation (n : Z) (p : list Z) : Prop :=
  zlen p = n /\ NoDup p /\ forall v, In v p <-> 0 <= v < n.

(* the element at position i can be any of the n - i remaining ones *)
Definition valid_code (n : Z) (c : list Z) : Prop :=
  zlen c = n /\ forall i v, znth c i = Some v -> 0 <= v /\ v + i < n.

(* the code of an element: how many smaller elements are not among the earlier ones *)
Definition rank_among (earlier : list Z) (v : Z) : Z :=
  v - zlen (filter (fun u => u <? v) earlier).
