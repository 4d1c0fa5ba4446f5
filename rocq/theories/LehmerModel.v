(* The Lehmer code of a permutation: lib/jxl/lehmer_code.h.  Arrays are a size and a
   function; accesses outside the size are an error (None), so that a theorem that gives
   Some includes memory safety.  Exhausted fuel is also None. *)
From Verif Require Import Base HybridUintModel.
From Verif Require Export Arr.

(* lehmer_code.h:22-25 ValueOfLowest1Bit on uint32_t *)
Definition lowest1 (t : Z) : Z := Z.land t (w32 (- t)).
Definition fuel0 : nat := 64.

(* lehmer_code.h:39-45: the sum in the Fenwick tree *)
Fixpoint fen_sum (fuel : nat) (size : Z) (t : Z -> Z) (i penalty : Z) : option Z :=
  if i =? 0 then Some penalty
  else match fuel with
       | O => None
       | S f => do v <- get size t i; fen_sum f size t (Z.land i (w32 (i - 1))) (w32 (penalty + v))
       end.
(* lehmer_code.h:49-53: the update of the Fenwick tree *)
Fixpoint fen_add (fuel : nat) (n : Z) (size : Z) (t : Z -> Z) (i : Z) : option (Z -> Z) :=
  if i <? n + 1 then
    match fuel with
    | O => None
    | S f => do v <- get size t i; do t' <- set size t i (w32 (v + 1)); fen_add f n size t' (w32 (i + lowest1 i))
    end
  else Some t.
(* lehmer_code.h:35-54: the loop over the permutation *)
Fixpoint compute_loop (n : Z) (t : Z -> Z) (perm : list Z) : option (list Z) :=
  match perm with
  | [] => Some []
  | s :: perm' =>
      do penalty <- fen_sum fuel0 (n + 1) t (w32 (s + 1)) 0;
      if s <? penalty then None
      else
        do t' <- fen_add fuel0 n (n + 1) t (w32 (s + 1));
        do code <- compute_loop n t' perm';
        Some (s - penalty :: code)
  end.
(* lehmer_code.h:27-56 ComputeLehmerCode; temp has n + 1 elements *)
Definition compute_lehmer (perm : list Z) : option (list Z) := compute_loop (zlen perm) (fun _ => 0) perm.

(* lehmer_code.h:80-88: the search in the order-statistics tree *)
Fixpoint descend (b : nat) (size : Z) (t : Z -> Z) (bit next rank : Z) : option Z :=
  match b with
  | O => Some next
  | S b' =>
      let cand := next + bit in
      if cand <? 1 then None
      else
        do v <- get size t (cand - 1);
        if v <? rank then descend b' size t (Z.shiftr bit 1) cand (w32 (rank - v))
        else descend b' size t (Z.shiftr bit 1) next rank
  end.
(* lehmer_code.h:92-97: mark as used; next is size_t *)
Fixpoint mark (fuel : nat) (padded : Z) (t : Z -> Z) (next : Z) : option (Z -> Z) :=
  if next <=? padded then
    match fuel with
    | O => None
    | S f => do v <- get padded t (next - 1); do t' <- set padded t (next - 1) (w32 (v - 1));
             mark f padded t' (next + Z.land next (w64 (- next)))
    end
  else Some t.
(* lehmer_code.h:74-99 *)
Fixpoint decode_loop (n log2n padded : Z) (t : Z -> Z) (i : Z) (code : list Z) : option (list Z) :=
  match code with
  | [] => Some []
  | c :: code' =>
      if n <=? c + i then None
      else
        do next <- descend (S (Z.to_nat log2n)) padded t padded 0 (w32 (c + 1));
        do t' <- mark fuel0 padded t (next + 1);
        do perm <- decode_loop n log2n padded t' (i + 1) code';
        Some (next :: perm)
  end.
(* lehmer_code.h:58-101 DecodeLehmerCode; temp has 1 << CeilLog2(n) elements *)
Definition decode_lehmer (code : list Z) : option (list Z) :=
  let n := zlen code in
  if n =? 0 then None
  else
    let log2n := ceil_log2 n in
    let padded := 2 ^ log2n in
    decode_loop n log2n padded (fun i => lowest1 (i + 1)) 0 code.
