(* Specification of the field codes, following the prose of lib/jxl/fields.h and of the
   codestream format, independent of the coders. *)
From Verif Require Import Base FieldsModel.

(* One of the four distributions of a U32 field: a single value, or an offset plus n
   extra bits. *)
Inductive distr := DVal (v : Z) | DBits (n off : Z).

Definition distr_ok (d : distr) : Prop :=
  match d with
  | DVal v => 0 <= v < 2 ^ 31
  | DBits n off => 1 <= n <= 32 /\ 0 <= off < 2 ^ 26
  end.

(* How a distribution is written in C++: Val(v), BitsOffset(n, off) *)
Definition pack (d : distr) : Z :=
  match d with DVal v => Val v | DBits n off => BitsOffset n off end.

Definition enc4 (a b c d : distr) : u32enc := U32 (pack a) (pack b) (pack c) (pack d).

(* [u32_code a b c d w v]: the bit string w is one of the codes of v *)
Inductive distr_code : distr -> list bool -> Z -> Prop :=
| dc_val v : distr_code (DVal v) [] v
| dc_bits n off x : 0 <= x < 2 ^ n -> distr_code (DBits n off) (to_bits (Z.to_nat n) x) (off + x).

Inductive u32_code (a b c d : distr) : list bool -> Z -> Prop :=
| uc0 w v : distr_code a w v -> u32_code a b c d (false :: false :: w) v
| uc1 w v : distr_code b w v -> u32_code a b c d (true :: false :: w) v
| uc2 w v : distr_code c w v -> u32_code a b c d (false :: true :: w) v
| uc3 w v : distr_code d w v -> u32_code a b c d (true :: true :: w) v.

(* Size promised by fields.h:72-75 for a U64 field. *)
Definition u64_len (v : Z) : Z :=
  if v =? 0 then 2
  else if v <=? 16 then 6
  else if v <=? 272 then 10
  else if v <? 2 ^ 12 then 15
  else if v <? 2 ^ 20 then 24
  else if v <? 2 ^ 28 then 33
  else if v <? 2 ^ 36 then 42
  else if v <? 2 ^ 44 then 51
  else if v <? 2 ^ 52 then 60
  else if v <? 2 ^ 60 then 69
  else 73.

(* The number denoted by a finite binary16 pattern, times 2^149 (an integer). *)
Definition half_finite (h : Z) : bool := negb ((h / 1024) mod 32 =? 31).
Definition half_mag (h : Z) : Z :=
  let e := (h / 1024) mod 32 in
  let m := h mod 1024 in
  if e =? 0 then m * 2 ^ (149 - 24) else (1024 + m) * 2 ^ (149 - 25 + e).
Definition half_scaled (h : Z) : Z := if h <? 32768 then half_mag h else - half_mag h.
(* The number denoted by a finite binary32 pattern, times 2^149. *)
Definition single_scaled (f : Z) : Z :=
  let e := (f / 2 ^ 23) mod 256 in
  let m := f mod 2 ^ 23 in
  let mag := if e =? 0 then m else (2 ^ 23 + m) * 2 ^ (e - 1) in
  if f <? 2 ^ 31 then mag else - mag.
