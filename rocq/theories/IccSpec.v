(* What the transform of ICC profiles must do *)
From Verif Require Import Base.

(* Numbers in base 128, the least significant digit first; all bytes but the last have 128 added. *)
Inductive varint : list Z -> Z -> Prop :=
| varint_last b : 0 <= b < 128 -> varint [b] b
| varint_more b bs v : 0 <= b < 128 -> varint bs v -> varint (b + 128 :: bs) (b + 128 * v).

(* The profile contains the four bytes "rXYZ" at p, followed by the number v in big endian order. *)
Definition rXYZ_at (icc : list Z) (p v : Z) : Prop :=
  exists before a b c d after, icc = before ++ [114; 88; 89; 90; a; b; c; d] ++ after /\ zlen before = p /\ v = 16777216 * a + 65536 * b + 256 * c + d.
