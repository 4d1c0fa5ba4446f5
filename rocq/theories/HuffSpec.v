(* Canonical prefix codes, without tables.  [lengths] gives every symbol the length of its
   code word, 0 for symbols without one.  Code words are numbered by increasing length,
   symbols of equal length by increasing symbol; a word of length l takes 2^(15-l) of the
   2^15 bit strings of 15 bits.  A code is complete if the words take all of them. *)
From Verif Require Import Base.

Definition zsum (l : list Z) : Z := fold_right Z.add 0 l.
Definition count_len (l : Z) (lengths : list Z) : Z := zlen (filter (Z.eqb l) lengths).

Definition lengths_ok (lengths : list Z) : Prop := Forall (fun l => 0 <= l <= 15) lengths.
Definition complete (lengths : list Z) : Prop :=
  zsum (map (fun l => if l =? 0 then 0 else 2 ^ (15 - l)) lengths) = 2 ^ 15.

(* how many of the 15-bit strings are taken by the words before that of symbol [s], whose
   length is [l] *)
Definition start (lengths : list Z) (s l : Z) : Z :=
  zsum (map (fun k => 2 ^ (15 - k) * count_len k lengths) (zseq 1 (Z.to_nat (l - 1)))) +
  2 ^ (15 - l) * count_len l (firstn (Z.to_nat s) lengths).

(* the word: the leading [l] bits of [start], most significant first *)
Definition codeword (lengths : list Z) (s l : Z) : list bool :=
  rev (to_bits (Z.to_nat l) (start lengths s l / 2 ^ (15 - l))).
