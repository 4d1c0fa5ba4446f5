(* Histograms as the encoder's normalization leaves them, see enc_ans.cc:86-195 and 394-528.
   RebalanceHistogram chooses among the histograms described here with floating point
   estimates; how it chooses is not modelled. *)
From Verif Require Import Base AliasSpec HistoModel.

(* count of a symbol *)
Definition cnt (counts : list Z) (s : Z) : Z := nth (Z.to_nat s) counts 0.
(* the symbols that occur *)
Definition occurring (n : Z) (counts : list Z) : list Z := filter (fun s => 0 <? cnt counts s) (zseq 0 (Z.to_nat n)).
(* enc_ans.cc:170-178: the low bits of a count that are not stored are zero *)
Definition representable (shift c : Z) : Prop := c mod 2 ^ (Z.log2 c - population_precision (Z.log2 c) shift) = 0.

Definition normalized (h : ehist) : Prop :=
  let n := alphabet_size h in
  let counts := e_counts h in
  0 <= n <= 256 /\ n <= zlen counts /\
  Forall (fun c => c = 0) (skipn (Z.to_nat n) counts) /\ Forall (fun c => 0 <= c) counts /\
  (* the sum is the table size *)
  (0 < n -> zsum counts = 4096) /\
  (* the last symbol occurs, so that n is the size of the alphabet *)
  (0 < n -> 0 < cnt counts (n - 1)) /\
  (* the code of equal counts *)
  ((method h = 0 /\ 0 < n /\ firstn (Z.to_nat n) counts = create_flat_histogram n 4096) \/
   (1 <= method h <= 12 /\ num_symbols h = zlen (occurring n counts) /\
    (* symbols_ has room for two *)
    (forall k, 0 <= k < 2 -> k < num_symbols h -> znth (e_symbols h) k = znth (occurring n counts) k) /\
    (3 <= num_symbols h ->
       (* the balancing bin occurs, what precedes it is below 2048 *)
       0 <= omit_pos h < n /\ 0 < cnt counts (omit_pos h) /\ (forall i, 0 <= i < omit_pos h -> cnt counts i < 2048) /\
       (* all others are stored with as many bits as the method has *)
       forall i, 0 <= i < n -> i <> omit_pos h -> 0 < cnt counts i -> representable (method h - 1) (cnt counts i)))).

(* what the entropy coder uses: an empty histogram stands for the symbol 0 *)
Definition coded_with (h : ehist) : list Z :=
  if alphabet_size h =? 0 then [4096] else firstn (Z.to_nat (alphabet_size h)) (e_counts h).
