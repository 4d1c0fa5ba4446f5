(* Model of the move-to-front transform of context maps: lib/jxl/enc_context_map.cc (encoder)
   and lib/jxl/inverse_mtf-inl.h (decoder, vector code). *)
From Verif Require Import Base AliasModel.
From Verif Require Export Arr.

(* ---- the encoder ---- *)

(* enc_context_map.cc:33-39: IndexOf, the first position of [value] in the vector of [size]
   elements, or [size]; [fuel] is the number of positions left *)
Fixpoint index_of (fuel : nat) (i : Z) (v : Z -> Z) (value : Z) : Z :=
  match fuel with
  | O => i
  | S fuel' => if v i =? value then i else index_of fuel' (i + 1) v value
  end.

(* enc_context_map.cc:43-45 and inverse_mtf-inl.h:35: for (; i; --i) v[i] = v[i - 1] *)
Fixpoint shift_up (size : Z) (i : nat) (v : Z -> Z) : option (Z -> Z) :=
  match i with
  | O => Some v
  | S i' =>
      do x <- get size v (Z.of_nat i');
      do v <- set size v (Z.of_nat i) x;
      shift_up size i' v
  end.

(* enc_context_map.cc:41-47: MoveToFront *)
Definition move_to_front (size : Z) (v : Z -> Z) (index : Z) : option (Z -> Z) :=
  do value <- get size v index;
  do v <- shift_up size (Z.to_nat index) v;
  set size v 0 value.

(* enc_context_map.cc:54-60: the loop of MoveToFrontTransform *)
Fixpoint mtf_loop (size : Z) (mtf : Z -> Z) (v : list Z) : option (list Z) :=
  match v with
  | [] => Some []
  | x :: v' =>
      let index := index_of (Z.to_nat size) 0 mtf x in
      do mtf <- move_to_front size mtf index;
      do rest <- mtf_loop size mtf v';
      Some (w8 index :: rest)
  end.

(* enc_context_map.cc:49-62: MoveToFrontTransform *)
Definition mtf_transform (v : list Z) : option (list Z) :=
  match v with
  | [] => Some []
  | _ => mtf_loop (fold_right Z.max 0 v + 1) (fun i => w8 i) v
  end.

(* ---- the decoder ---- *)

(* the size of mtf[256 + 64], inverse_mtf-inl.h:55 *)
Definition kMtfSize : Z := 256 + 64.

(* Highway's Load/LoadU/StoreU of a vector of [lanes] bytes at v + p *)
Definition load_lanes (lanes : Z) (v : Z -> Z) (p : Z) : option (Z -> Z) :=
  if (0 <=? p) && (p + lanes <=? kMtfSize) then Some (fun k => v (p + k)) else None.
Definition store_lanes (lanes : Z) (x : Z -> Z) (v : Z -> Z) (p : Z) : option (Z -> Z) :=
  if (0 <=? p) && (p + lanes <=? kMtfSize)
  then Some (fun j => if (p <=? j) && (j <? p + lanes) then x (j - p) else v j) else None.

(* inverse_mtf-inl.h:45-49: while (i) { ... }; [None] also when the fuel is used up *)
Fixpoint shift_vectors (fuel : nat) (lanes i : Z) (v : Z -> Z) : option (Z -> Z) :=
  if i =? 0 then Some v
  else match fuel with
  | O => None
  | S fuel' =>
      let i := w8 (i - lanes) in
      do vec <- load_lanes lanes v i;
      do v <- store_lanes lanes vec v (i + 1);
      shift_vectors fuel' lanes i v
  end.

(* inverse_mtf-inl.h:31-52: MoveToFront; [lanes] is Lanes(d), a power of two up to 64 that
   depends on the processor *)
Definition move_to_front_simd (lanes : Z) (v : Z -> Z) (index : Z) : option (Z -> Z) :=
  do value <- get kMtfSize v index;
  do v <- (if index <? 4 then shift_up kMtfSize (Z.to_nat index) v
           else
             let tail := Z.land index (lanes - 1) in
             if tail =? 0 then shift_vectors 256 lanes index v
             else
               let i := w8 (index - tail) in
               do vec <- load_lanes lanes v i;
               do prev <- load_lanes lanes v (i + 1);
               do v <- store_lanes lanes (fun k => if k <? tail then vec k else prev k) v (i + 1);
               shift_vectors 256 lanes i v);
  set kMtfSize v 0 value.

(* inverse_mtf-inl.h:66-70: the loop of InverseMoveToFrontTransform *)
Fixpoint inverse_mtf_loop (lanes : Z) (mtf : Z -> Z) (v : list Z) : option (list Z) :=
  match v with
  | [] => Some []
  | index :: v' =>
      do x <- get kMtfSize mtf index;
      do mtf <- (if index =? 0 then Some mtf else move_to_front_simd lanes mtf index);
      do rest <- inverse_mtf_loop lanes mtf v';
      Some (x :: rest)
  end.

(* inverse_mtf-inl.h:54-71: InverseMoveToFrontTransform; [mem] is what the uninitialised last
   64 bytes of the table hold.  Simplification: v_len, an int, is the length of the list (a
   context map has far fewer than 2^31 entries). *)
Definition inverse_mtf (lanes : Z) (mem : Z -> Z) (v : list Z) : option (list Z) :=
  inverse_mtf_loop lanes (fun i => if (0 <=? i) && (i <? 256) then w8 i else mem i) v.
