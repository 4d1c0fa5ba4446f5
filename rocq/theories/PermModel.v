(* Permutations in the codestream: lib/jxl/coeff_order.cc and enc_coeff_order.cc.
   As in CodesModel.v, [option (option _)]: None is undefined behaviour, Some None a
   failure status. *)
From Verif Require Import Base BitProg HybridUintModel.
From Verif Require Export LehmerModel AliasModel AnsModel TokProg CodesModel.

(* coeff_order.h:49 *)
Definition kPermutationContexts : nat := 8.

(* coeff_order.cc:30-34 CoeffOrderContext; the parameter is uint32_t *)
Definition coeff_order_context (val : Z) : Z :=
  let '(token, _, _) := hybrid_encode (HC 0 0 0) (w32 val) in Z.min token 7.

(* coeff_order.cc:49-57: the loop over the code; [None] is the failure of line 55.  The
   comparison is made in size_t, and i < end <= size. *)
Fixpoint read_lehmer (n : nat) (i last size : Z) : tprog (option (list Z)) :=
  match n with
  | O => TRet (Some [])
  | S n' =>
      TRead (coeff_order_context last) (fun v =>
        if size - i <=? v then TRet None
        else tbind (read_lehmer n' (i + 1) v size) (fun r => TRet (do l <- r; Some (v :: l))))
  end.

(* coeff_order.cc:37-57: the first part of ReadPermutation, which reads the Lehmer code.
   [end] is uint32_t, so the sum wraps.  Elements before skip and from end on are 0. *)
Definition read_permutation (skip size : Z) : tprog (option (list Z)) :=
  TRead (coeff_order_context size) (fun v =>
    let end_ := w32 (v + skip) in
    if size <? end_ then TRet None
    else
      let n := Z.to_nat (end_ - skip) in
      tbind (read_lehmer n skip 0 size) (fun r =>
        TRet (do l <- r; Some (repeat 0 (Z.to_nat skip) ++ l ++ repeat 0 (Z.to_nat (size - skip) - n))))).

(* coeff_order.cc:40-42,59-61: the last part of ReadPermutation.  temp has 2 * size elements,
   of which DecodeLehmerCode needs 1 << CeilLog2(size).  None: undefined behaviour, or a failure of
   DecodeLehmerCode, which is shown not to happen. *)
Definition finish_permutation (size : Z) (lehmer : list Z) : option (list Z) :=
  if 2 * size <? 2 ^ ceil_log2 size then None else decode_lehmer lehmer.

(* coeff_order.cc:66-82 DecodePermutation *)
Definition decode_permutation (M : machine) (skip size : Z) : rprog (option (option (list Z))) :=
  let! h := decode_histograms M 3 kPermutationContexts false in
  match h with
  | None => Ret None
  | Some None => Ret (Some None)
  | Some (Some d) =>
      let! r := run_stream (d_code d) (d_map d) 0 (read_permutation skip size) in
      match r with
      | None => Ret None
      | Some (None, _) => Ret (Some None)
      | Some (Some lehmer, reader) =>
          match finish_permutation size lehmer with
          | None => Ret None
          | Some perm => Ret (Some (if check_final_state reader then Some perm else None))
          end
      end
  end.

(* enc_coeff_order.cc:253-257 *)
Fixpoint lehmer_tokens (last : Z) (l : list Z) : list token :=
  match l with
  | [] => []
  | v :: l' => Token false (coeff_order_context last) v :: lehmer_tokens v l'
  end.

(* enc_coeff_order.cc:241-259 TokenizePermutation.  What is left after the loop that
   decreases [end] (248-250) is the code after skip without its trailing zeros. *)
Definition tokenize_permutation (order : list Z) (skip : Z) : option (list token) :=
  do lehmer <- compute_lehmer order;
  let l := pop_trailing_zeros (skipn (Z.to_nat skip) lehmer) in
  Some (Token false (coeff_order_context (zlen order)) (w32 (zlen l)) :: lehmer_tokens 0 l).

(* enc_coeff_order.cc:263-277 EncodePermutation.  What BuildAndEncodeHistograms decides (the
   clustering, the kind of code, LZ77) is the plan p with mp for its context map; ts are the
   tokens after LZ77. *)
Definition encode_with_plan (mem : Z -> entry) (mp : map_plan) (p : plan) (ts : list token) : option (list (Z * Z)) :=
  do (fs, codes) <- encode_histograms mem mp p;
  do ws <- write_tokens codes 0 ts;
  Some (fs ++ ws).
