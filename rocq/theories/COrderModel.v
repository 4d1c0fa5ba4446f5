(* The orders of the coefficients: lib/jxl/ac_strategy.{h,cc}, coeff_order.{h,cc},
   enc_coeff_order.cc, dec_cache.cc.  As in PermModel.v, [option (option _)]: None is undefined
   behaviour or a failed assertion, Some None a failure status. *)
From Verif Require Import Base BitProg HybridUintModel.
From Verif Require Export PermModel.

(* ac_strategy.h:148-164: covered_blocks_x and covered_blocks_y *)
Definition covered_x : list Z := [1; 1; 1; 1; 2; 4; 1; 2; 1; 4; 2; 4; 1; 1; 1; 1; 1; 1; 8; 4; 8; 16; 8; 16; 32; 16; 32].
Definition covered_y : list Z := [1; 1; 1; 1; 2; 4; 2; 1; 4; 1; 4; 2; 1; 1; 1; 1; 1; 1; 8; 8; 4; 16; 16; 8; 32; 32; 16].
(* coeff_order.h:44-47 *)
Definition strategy_order : list Z := [0; 1; 1; 1; 2; 3; 4; 4; 5; 5; 6; 6; 1; 1; 1; 1; 1; 1; 7; 8; 8; 9; 10; 10; 11; 12; 12].
(* coeff_order.h:24-33 *)
Definition order_offsets : list Z :=
  [0; 1; 2; 3; 4; 5; 6; 10; 14; 18; 34; 50; 66; 68; 70; 72; 76; 80; 84; 92; 100; 108; 172; 236; 300; 332; 364; 396; 652; 908;
   1164; 1292; 1420; 1548; 2572; 3596; 4620; 5132; 5644; 6156].
(* ac_strategy.h:92 kNumValidStrategies *)
Definition strategies : list Z := zseq 0 27.
Definition covx (o : Z) : Z := nth (Z.to_nat o) covered_x 0.
Definition covy (o : Z) : Z := nth (Z.to_nat o) covered_y 0.
Definition bucket (o : Z) : Z := nth (Z.to_nat o) strategy_order 0.
(* coeff_order.h:36-37 CoeffOrderOffset *)
Definition order_offset (ord c : Z) : Z := nth (Z.to_nat (3 * ord + c)) order_offsets 0 * 64.
(* coeff_order.cc:89-90 and elsewhere *)
Definition llf (o : Z) : Z := covx o * covy o.
Definition area (o : Z) : Z := 64 * llf o.
(* coeff_order_fwd.h:30-45 CoefficientLayout *)
Definition columns (o : Z) : Z := Z.max (covx o) (covy o).
Definition rows (o : Z) : Z := Z.min (covx o) (covy o).

(* ---- the natural order ---- *)

(* ac_strategy.cc:44-52, 68-73: one turn of the inner loops; [out] is the list of the places and
   positions (val, y * cx * 8 + x) met so far, the last one first *)
Definition cell_step (cx cy : Z) (first : bool) (i : Z) (st : Z * list (Z * Z)) (j : Z) : Z * list (Z * Z) :=
  let '(cur, out) := st in
  let x := if first then j else cx * 8 - 1 - (i - j) in
  let y := if first then i - j else cx * 8 - 1 - j in
  let '(x, y) := if i mod 2 =? 0 then (x, y) else (y, x) in
  let xs := cx / cy in
  if Z.land y (xs - 1) =? 0 then
    let y := Z.shiftr y (ceil_log2 xs) in
    if first && ((x <? cx) && (y <? cy)) then (cur, (y * cx + x, y * cx * 8 + x) :: out)
    else (cur + 1, (cur, y * cx * 8 + x) :: out)
  else st.
(* ac_strategy.cc:43-79: the loops; size_t, nothing wraps *)
Definition cells (cx cy : Z) : list (Z * Z) :=
  let n := Z.to_nat (cx * 8) in
  let first := fold_left (fun st i => fold_left (cell_step cx cy true i) (zseq 0 (S (Z.to_nat i))) st) (zseq 0 n) (cx * cy, []) in
  let second := fold_left (fun st ip => fold_left (cell_step cx cy false (ip - 1)) (zseq 0 (Z.to_nat ip)) st) (rev (zseq 1 (n - 1))) first in
  rev' (snd second).
(* stores to an array *)
Fixpoint store_all (size : Z) (t : Z -> Z) (l : list (Z * Z)) : option (Z -> Z) :=
  match l with
  | [] => Some t
  | (i, v) :: l' => do t' <- set size t i v; store_all size t' l'
  end.
(* ac_strategy.cc:82-84 ComputeNaturalCoeffOrder: t is the array that is overwritten *)
Definition natural_order (o : Z) (t : Z -> Z) : option (Z -> Z) :=
  store_all (area o) t (cells (columns o) (rows o)).
(* ac_strategy.cc:85-87 ComputeNaturalCoeffOrderLut *)
Definition natural_lut (o : Z) (t : Z -> Z) : option (Z -> Z) :=
  store_all (area o) t (map (fun p => (snd p, fst p)) (cells (columns o) (rows o))).

(* ---- the decoder ---- *)

(* (m & (1 << b)) != 0 *)
Definition has (m b : Z) : bool := Z.testbit m b.

(* dec_cache.cc:102-109: the size of the orders of one pass *)
Definition orders_size (used_acs : Z) : Z :=
  fold_left (fun acc o => if has used_acs o then Z.max (nth (Z.to_nat (3 * (bucket o + 1))) order_offsets 0 * 64) acc else acc) strategies 0.
(* coeff_order.cc:116-120 *)
Definition acs_mask (used_acs : Z) : Z :=
  fold_left (fun m o => if has used_acs o then Z.lor m (Z.shiftl 1 (bucket o)) else m) strategies 0.

(* copies of a whole list to a buffer *)
Fixpoint store (size : Z) (t : Z -> Z) (at_ : Z) (l : list Z) : option (Z -> Z) :=
  match l with
  | [] => Some t
  | v :: l' => do t' <- set size t at_ v; store size t' (at_ + 1) l'
  end.
Fixpoint gets (size : Z) (t : Z -> Z) (l : list Z) : option (list Z) :=
  match l with
  | [] => Some []
  | i :: l' => do v <- get size t i; do r <- gets size t l'; Some (v :: r)
  end.

(* coeff_order.cc:84-100 DecodeCoeffOrder.  buf is the buffer of bsize elements for all orders; [used]
   is whether order != nullptr.  The permutation is not first put into the buffer: lines 96-98
   overwrite it there in place. *)
Definition decode_order (o : Z) (used : bool) (natural : Z -> Z) (bsize off : Z) (buf : Z -> Z) : tprog (option (option (Z -> Z))) :=
  tbind (read_permutation (llf o) (area o)) (fun r =>
    match r with
    | None => TRet (Some None)
    | Some lehmer =>
        if used then
          TRet (do p <- finish_permutation (area o) lehmer;
                do l <- gets (area o) natural p;
                do b <- store bsize buf off l; Some (Some b))
        else TRet (Some (Some buf))
    end).

(* programs that go on after success *)
Definition tseq {A B} (p : tprog (option (option A))) (f : A -> tprog (option (option B))) : tprog (option (option B)) :=
  tbind p (fun r => match r with None => TRet None | Some None => TRet (Some None) | Some (Some a) => f a end).

(* coeff_order.cc:121-152: the loop over the strategies.  The array of the natural order is
   allocated only when needed; its earlier contents are not used (nat0). *)
Fixpoint decode_loop (os : list Z) (used_orders mask computed : Z) (nat0 : Z -> Z) (bsize : Z) (buf : Z -> Z) : tprog (option (option (Z -> Z))) :=
  match os with
  | [] => TRet (Some (Some buf))
  | o :: os' =>
      let ord := bucket o in
      if has computed ord then decode_loop os' used_orders mask computed nat0 bsize buf
      else
        let computed := Z.lor computed (Z.shiftl 1 ord) in
        let used := has mask ord in
        match (if used || has used_orders ord then natural_order o nat0 else Some nat0) with
        | None => TRet None
        | Some natural =>
            if has used_orders ord then
              tseq (decode_order o used natural bsize (order_offset ord 0) buf) (fun buf =>
              tseq (decode_order o used natural bsize (order_offset ord 1) buf) (fun buf =>
              tseq (decode_order o used natural bsize (order_offset ord 2) buf) (fun buf =>
                decode_loop os' used_orders mask computed natural bsize buf)))
            else if used then
              match (do l <- gets (area o) natural (zseq 0 (Z.to_nat (area o)));
                     do buf <- store bsize buf (order_offset ord 0) l;
                     do buf <- store bsize buf (order_offset ord 1) l;
                     store bsize buf (order_offset ord 2) l) with
              | None => TRet None
              | Some buf => decode_loop os' used_orders mask computed natural bsize buf
              end
            else decode_loop os' used_orders mask computed natural bsize buf
        end
  end.

(* coeff_order.cc:102-159 DecodeCoeffOrders.  Without used orders there is no reader; a use of it
   would be undefined behaviour. *)
Definition decode_orders (M : machine) (used_orders used_acs : Z) (nat0 buf : Z -> Z) : rprog (option (option (Z -> Z))) :=
  let p := decode_loop strategies used_orders (acs_mask used_acs) 0 nat0 (orders_size used_acs) buf in
  if used_orders =? 0 then Ret (match p with TRet r => r | TRead _ _ => None end)
  else
    let! h := decode_histograms M 3 kPermutationContexts false in
    match h with
    | None => Ret None
    | Some None => Ret (Some None)
    | Some (Some d) =>
        let! r := run_stream (d_code d) (d_map d) 0 p in
        match r with
        | None => Ret None
        | Some (None, _) => Ret None
        | Some (Some None, _) => Ret (Some None)
        | Some (Some (Some buf), reader) => Ret (Some (if check_final_state reader then Some buf else None))
        end
    end.

(* ---- the encoder ---- *)

(* coeff_order.h:39 kCoeffOrderMaxSize: the encoder's buffer of orders *)
Definition max_orders : Z := 6156 * 64.

(* a stretch of the buffer *)
Definition stretch (size : Z) (t : Z -> Z) (off len : Z) : option (list Z) := gets size t (zseq off (Z.to_nat len)).

(* enc_coeff_order.cc:281-292 EncodeCoeffOrder *)
Definition order_tokens (o : Z) (lut : Z -> Z) (buf : Z -> Z) (off : Z) : option (list token) :=
  do l <- stretch max_orders buf off (area o);
  do zigzag <- gets (area o) lut l;
  tokenize_permutation zigzag (llf o).

(* enc_coeff_order.cc:301-321: the loop of EncodeCoeffOrders *)
Fixpoint encode_loop (os : list Z) (used_orders computed : Z) (lut0 : Z -> Z) (buf : Z -> Z) : option (list token) :=
  match os with
  | [] => Some []
  | o :: os' =>
      let ord := bucket o in
      if has computed ord then encode_loop os' used_orders computed lut0 buf
      else
        let computed := Z.lor computed (Z.shiftl 1 ord) in
        if has used_orders ord then
          do lut <- natural_lut o lut0;
          do t0 <- order_tokens o lut buf (order_offset ord 0);
          do t1 <- order_tokens o lut buf (order_offset ord 1);
          do t2 <- order_tokens o lut buf (order_offset ord 2);
          do r <- encode_loop os' used_orders computed lut buf;
          Some (t0 ++ t1 ++ t2 ++ r)
        else encode_loop os' used_orders computed lut0 buf
  end.
(* enc_coeff_order.cc:293-335 EncodeCoeffOrders: the tokens; they are written by
   BuildAndEncodeHistograms and WriteTokens (PermModel.v, encode_with_plan) unless used_orders is 0 *)
Definition orders_tokens (used_orders : Z) (lut0 buf : Z -> Z) : option (list token) :=
  encode_loop strategies used_orders 0 lut0 buf.

(* enc_coeff_order.cc:200-216: sort by count_and_idx.  The keys are distinct, so that std::sort has
   one possible result; insertion stands for it. *)
Fixpoint insert_by (x : Z * Z) (l : list (Z * Z)) : list (Z * Z) :=
  match l with
  | [] => [x]
  | y :: l' => if fst x <? fst y then x :: l else y :: insert_by x l'
  end.
Definition sort_by (l : list (Z * Z)) : list (Z * Z) := fold_right insert_by [] l.
(* enc_coeff_order.cc:200-222: one new order.  [count pos] is line 206, which rounds the number of zeros in
   floating point: any values, see COrderSpec.v. *)
Definition new_order (o : Z) (natural count : Z -> Z) : option (list Z) :=
  do l <- gets (area o) natural (zseq 0 (Z.to_nat (area o)));
  Some (map snd (sort_by (map (fun p => (Z.lor (Z.shiftl (count (snd p)) 16) (fst p), snd p)) (combine (zseq 0 (Z.to_nat (area o))) l)))).

Definition same_list (a b : list Z) : bool := (zlen a =? zlen b) && forallb (fun p => fst p =? snd p) (combine a b).

(* enc_coeff_order.cc:165-233: the loop of ComputeCoeffOrder; the result is current_used_orders and the
   buffer.  [count ord c pos].  None includes the failure of JXL_ENSURE (192, 204). *)
Fixpoint compute_loop (os : list Z) (count : Z -> Z -> Z -> Z) (all_used prev_acs cur_acs cur_orders computed : Z) (nat0 buf : Z -> Z) : option (Z * (Z -> Z)) :=
  match os with
  | [] => Some (cur_orders, buf)
  | o :: os' =>
      let ord := bucket o in
      if has computed ord then compute_loop os' count all_used prev_acs cur_acs cur_orders computed nat0 buf
      else
        let computed := Z.lor computed (Z.shiftl 1 ord) in
        if negb (has cur_acs ord) || has prev_acs ord || has all_used ord then
          compute_loop os' count all_used prev_acs cur_acs cur_orders computed nat0 buf
        else
          do natural <- natural_order o nat0;
          let put c l buf := if order_offset ord (c + 1) - order_offset ord c =? area o then store max_orders buf (order_offset ord c) l else None in
          do nl <- gets (area o) natural (zseq 0 (Z.to_nat (area o)));
          if negb (has cur_orders ord) then
            do buf <- put 0 nl buf; do buf <- put 1 nl buf; do buf <- put 2 nl buf;
            compute_loop os' count all_used prev_acs cur_acs cur_orders computed natural buf
          else
            do l0 <- new_order o natural (count ord 0); do buf <- put 0 l0 buf;
            do l1 <- new_order o natural (count ord 1); do buf <- put 1 l1 buf;
            do l2 <- new_order o natural (count ord 2); do buf <- put 2 l2 buf;
            let nondefault := negb (same_list nl l0 && same_list nl l1 && same_list nl l2) in
            let cur_orders := if nondefault then cur_orders else Z.land cur_orders (Z.lnot (Z.shiftl 1 ord)) in
            compute_loop os' count all_used prev_acs cur_acs cur_orders computed natural buf
  end.
(* enc_coeff_order.cc:66-236 ComputeCoeffOrder, without the counting of zeros (78-155): the new
   all_used_orders and the buffer *)
Definition compute_orders (count : Z -> Z -> Z -> Z) (all_used prev_acs cur_acs cur_orders : Z) (nat0 buf : Z -> Z) : option (Z * (Z -> Z)) :=
  do (cur, buf) <- compute_loop strategies count all_used prev_acs cur_acs cur_orders 0 nat0 buf;
  Some (Z.lor all_used cur, buf).

(* enc_frame.cc:1170-1185 ComputeAllCoeffOrders, one pass, for one part of a frame after the other
   (EncodeFrameStreaming, enc_frame.cc:2047; a frame that is not streamed has one part): the stored
   orders, the kinds of transforms met and the buffer *)
Fixpoint compute_parts (nat0 : Z -> Z) (calls : list ((Z -> Z -> Z -> Z) * Z * Z)) (all acs : Z) (buf : Z -> Z) : option (Z * Z * (Z -> Z)) :=
  match calls with
  | [] => Some (all, acs, buf)
  | (count, cur_acs, cur) :: calls' =>
      do (all, buf) <- compute_orders count all acs cur_acs cur nat0 buf;
      compute_parts nat0 calls' all (Z.lor acs cur_acs) buf
  end.
