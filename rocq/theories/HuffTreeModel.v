(* How prefix codes are stored: lib/jxl/enc_huffman.cc and enc_huffman_tree.cc (writer),
   lib/jxl/dec_huffman.cc (reader).  The writer's output is a list of (width, value) fields.
   A reader function returns [None] for undefined behaviour or exhausted fuel,
   [Some None] for a refusal ("return false"), [Some (Some a)] for success. *)
From Verif Require Import Base BitProg.
From Verif Require Export HuffModel.

(* ---- the run-length code of code lengths, written ---- *)

(* enc_huffman_tree.cc:163-172 and 194-203: the digits of a repetition count, least significant
   first; code 16 has 2 extra bits and code 17 has 3 *)
Fixpoint rep_codes (fuel : nat) (code nbits repetitions : Z) : option (list (Z * Z)) :=
  match fuel with
  | O => None
  | S f =>
      let e := (code, Z.land repetitions (Z.shiftl 1 nbits - 1)) in
      let repetitions := Z.shiftr repetitions nbits in
      if repetitions =? 0 then Some [e]
      else do r <- rep_codes f code nbits (repetitions - 1); Some (e :: r)
  end.

(* enc_huffman_tree.cc:142-177 WriteHuffmanTreeRepetitions: what is appended to tree and
   extra_bits_data, as pairs.  Reverse (131-140) of both arrays is [rev] of the pairs. *)
Definition write_repetitions (previous_value value repetitions : Z) : option (list (Z * Z)) :=
  let (out, repetitions) :=
    if previous_value =? value then ([], repetitions) else ([(value, 0)], repetitions - 1) in
  let (out, repetitions) :=
    if repetitions =? 7 then (out ++ [(value, 0)], repetitions - 1) else (out, repetitions) in
  if repetitions <? 3 then Some (out ++ repeat (value, 0) (Z.to_nat repetitions))
  else do r <- rep_codes 64 16 2 (repetitions - 3); Some (out ++ rev r).

(* enc_huffman_tree.cc:179-208 WriteHuffmanTreeRepetitionsZeros *)
Definition write_repetitions_zeros (repetitions : Z) : option (list (Z * Z)) :=
  let (out, repetitions) :=
    if repetitions =? 11 then ([(0, 0)], repetitions - 1) else ([], repetitions) in
  if repetitions <? 3 then Some (out ++ repeat (0, 0) (Z.to_nat repetitions))
  else do r <- rep_codes 64 17 3 (repetitions - 3); Some (out ++ rev r).

(* how many of the first elements of [l] are [v] (the inner loops at 219-222 and 268-270) *)
Fixpoint run_length (v : Z) (l : list Z) : Z :=
  match l with
  | x :: l' => if x =? v then 1 + run_length v l' else 0
  | [] => 0
  end.

(* enc_huffman_tree.cc:210-236 DecideOverRleUse: (use_rle_for_non_zero, use_rle_for_zero).
   [t..] are total_reps_.., [c..] count_reps_.. *)
Fixpoint decide_over_rle_use (fuel : nat) (depth : list Z) (tz tnz cz cnz : Z) : option (bool * bool) :=
  match depth with
  | [] => Some (2 * cnz <? tnz, 2 * cz <? tz)
  | value :: depth' =>
      match fuel with
      | O => None
      | S f =>
          let reps := 1 + run_length value depth' in
          let z := (3 <=? reps) && (value =? 0) in
          let nz := (4 <=? reps) && negb (value =? 0) in
          decide_over_rle_use f (skipn (Z.to_nat reps) depth)
            (if z then tz + reps else tz) (if nz then tnz + reps else tnz)
            (if z then cz + 1 else cz) (if nz then cnz + 1 else cnz)
      end
  end.

(* enc_huffman_tree.cc:243-250: throw away trailing zeros *)
Fixpoint drop_zeros (l : list Z) : list Z :=
  match l with
  | 0 :: l' => drop_zeros l'
  | _ => l
  end.
Definition trim (depth : list Z) : list Z := rev (drop_zeros (rev depth)).

(* enc_huffman_tree.cc:262-280 *)
Fixpoint write_runs (fuel : nat) (rle_nz rle_z : bool) (previous_value : Z) (depth : list Z) : option (list (Z * Z)) :=
  match depth with
  | [] => Some []
  | value :: depth' =>
      match fuel with
      | O => None
      | S f =>
          let reps := if (negb (value =? 0) && rle_nz) || ((value =? 0) && rle_z) then 1 + run_length value depth' else 1 in
          do here <- if value =? 0 then write_repetitions_zeros reps else write_repetitions previous_value value reps;
          do rest <- write_runs f rle_nz rle_z (if value =? 0 then previous_value else value) (skipn (Z.to_nat reps) depth);
          Some (here ++ rest)
      end
  end.

(* enc_huffman_tree.cc:238-281 WriteHuffmanTree *)
Definition write_huffman_tree (depth : list Z) : option (list (Z * Z)) :=
  let d := trim depth in
  let fuel := length depth in
  do (nz, z) <- if 50 <? zlen depth then decide_over_rle_use fuel d 0 0 1 1 else Some (false, false);
  write_runs fuel nz z 8 d.

(* ---- storing a code ---- *)

(* enc_huffman.cc:26-27, dec_huffman.cc:23-25: the same order on both sides *)
Definition kStorageOrder : list Z := [1; 2; 3; 4; 0; 5; 17; 6; 16; 7; 8; 9; 10; 11; 12; 13; 14; 15].
Definition kCodeLengthCodeOrder : list Z := [1; 2; 3; 4; 0; 5; 17; 6; 16; 7; 8; 9; 10; 11; 12; 13; 14; 15].
(* enc_huffman.cc:38-41 *)
Definition kBitLengthSymbols : list Z := [0; 7; 3; 2; 1; 15].
Definition kBitLengthBitLengths : list Z := [2; 4; 3; 2; 2; 4].

Fixpoint mapM {A B} (f : A -> option B) (l : list A) : option (list B) :=
  match l with
  | [] => Some []
  | x :: l' => do y <- f x; do r <- mapM f l'; Some (y :: r)
  end.

(* enc_huffman.cc:23-66 StoreHuffmanTreeOfHuffmanTreeToBitMask *)
Definition store_tree_of_tree (num_codes : Z) (bitdepth : list Z) : option (list (Z * Z)) :=
  do ordered <- mapM (znth bitdepth) kStorageOrder;
  let codes := if 1 <? num_codes then trim ordered else ordered in
  do d0 <- znth ordered 0; do d1 <- znth ordered 1; do d2 <- znth ordered 2;
  let skip_some := if (d0 =? 0) && (d1 =? 0) then (if d2 =? 0 then 3 else 2) else 0 in
  do fs <- mapM (fun l => do n <- znth kBitLengthBitLengths l; do v <- znth kBitLengthSymbols l; Some (n, v))
             (skipn (Z.to_nat skip_some) codes);
  Some ((2, skip_some) :: fs).

(* enc_huffman.cc:68-93 StoreHuffmanTreeToBitMask *)
Definition store_code (bitdepth symbols : list Z) (e : Z * Z) : option (list (Z * Z)) :=
  let (ix, extra) := e in
  do n <- znth bitdepth ix; do v <- znth symbols ix;
  if ix =? 16 then Some [(n, v); (2, extra)]
  else if ix =? 17 then Some [(n, v); (3, extra)]
  else Some [(n, v)].
Definition store_tree_to_bit_mask (bitdepth symbols : list Z) (tree : list (Z * Z)) : option (list (Z * Z)) :=
  do fs <- mapM (store_code bitdepth symbols) tree; Some (concat fs).

(* enc_huffman.cc:128-179 StoreHuffmanTree.  [bitdepth] is what CreateHuffmanTree returned for
   the histogram of the codes of [tree] (line 163); num_codes (143-155) is 0, 1 or 2 (for more). *)
Definition distinct_codes (tree : list (Z * Z)) : list Z :=
  filter (fun i => existsb (fun e => fst e =? i) tree) (zseq 0 18).
Definition store_huffman_tree (bitdepth depths : list Z) : option (list (Z * Z)) :=
  do tree <- write_huffman_tree depths;
  do symbols <- convert_bit_depths bitdepth (repeat 0 18);
  let codes := distinct_codes tree in
  let num_codes := Z.min 2 (zlen codes) in
  do head <- store_tree_of_tree num_codes bitdepth;
  let bitdepth' := if num_codes =? 1 then map (fun i => if existsb (Z.eqb i) codes then 0 else nth (Z.to_nat i) bitdepth 0) (zseq 0 18) else bitdepth in
  do body <- store_tree_to_bit_mask bitdepth' symbols tree;
  Some (head ++ body).

(* enc_huffman.cc:95-125 StoreSimpleHuffmanTree.  [symbols] are the 2, 3 or 4 symbols in
   increasing order. *)
Definition swap_if (depths : list Z) (i j : Z) (l : list Z) : option (list Z) :=
  do a <- znth l i; do b <- znth l j; do da <- znth depths a; do db <- znth depths b;
  if db <? da then
    Some (map (fun k => if k =? i then b else if k =? j then a else nth (Z.to_nat k) l 0) (zseq 0 (length l)))
  else Some l.
Fixpoint sort_inner (depths : list Z) (i : Z) (js : list Z) (l : list Z) : option (list Z) :=
  match js with
  | [] => Some l
  | j :: js' => do l' <- swap_if depths i j l; sort_inner depths i js' l'
  end.
Fixpoint sort_outer (depths : list Z) (is : list Z) (l : list Z) : option (list Z) :=
  match is with
  | [] => Some l
  | i :: is' => do l' <- sort_inner depths i (zseq (i + 1) (Z.to_nat (zlen l - (i + 1)))) l; sort_outer depths is' l'
  end.
Definition store_simple (depths symbols : list Z) (max_bits : Z) : option (list (Z * Z)) :=
  do sorted <- sort_outer depths (zseq 0 (length symbols)) symbols;
  let head := [(2, 1); (2, zlen symbols - 1)] ++ map (fun s => (max_bits, s)) sorted in
  if (zlen symbols =? 2) || (zlen symbols =? 3) then Some head
  else do s0 <- znth sorted 0; do d0 <- znth depths s0;
       Some (head ++ [(1, if d0 =? 1 then 1 else 0)]).

(* enc_huffman.cc:199-204 *)
Fixpoint max_bits_loop (fuel : nat) (counter max_bits : Z) : option Z :=
  if counter =? 0 then Some max_bits
  else match fuel with
       | O => None
       | S f => max_bits_loop f (Z.shiftr counter 1) (max_bits + 1)
       end.

(* ---- reading ---- *)

(* dec_huffman.cc:32-36: the variables of ReadHuffmanCodeLengths; [lens] is the part of
   code_lengths written so far, last first, and symbol is its length *)
Record rle := Rle { lens : list Z; prev_code_len : Z; repeat_ : Z; repeat_code_len : Z; space : Z }.

(* dec_huffman.cc:55-61 *)
Definition rle_literal (r : rle) (code_len : Z) : rle :=
  if code_len =? 0 then Rle (0 :: lens r) (prev_code_len r) 0 (repeat_code_len r) (space r)
  else Rle (code_len :: lens r) code_len 0 (repeat_code_len r) (space r - Z.shiftr 32768 code_len).

(* dec_huffman.cc:62-90, [extra] being the value of ReadBits(extra_bits).  [None]: more symbols
   than there are. *)
Definition rle_repeat (num_symbols : Z) (r : rle) (code_len extra : Z) : option rle :=
  let extra_bits := code_len - 14 in
  let new_len := if code_len =? 16 then prev_code_len r else 0 in
  let old_repeat := if repeat_code_len r =? new_len then repeat_ r else 0 in
  let repeat := if 0 <? old_repeat then Z.shiftl (old_repeat - 2) extra_bits else old_repeat in
  let repeat := repeat + (extra + 3) in
  let repeat_delta := repeat - old_repeat in
  if num_symbols <? zlen (lens r) + repeat_delta then None
  else Some (Rle (List.repeat new_len (Z.to_nat repeat_delta) ++ lens r) (prev_code_len r) repeat new_len
               (if new_len =? 0 then space r else space r - Z.shiftl repeat_delta (15 - new_len))).

(* dec_huffman.cc:48-97.  Every round stores at least one length, [fuel] is num_symbols.
   All numbers stay within the ranges of their types, see C14_no_overflow. *)
Fixpoint read_lengths_loop (fuel : nat) (table : Z -> Z * Z) (num_symbols : Z) (r : rle) : rprog (option (option (list Z))) :=
  if (zlen (lens r) <? num_symbols) && (0 <? space r) then
    match fuel with
    | O => Ret None
    | S f =>
        Refill (Peek 5 (fun i =>
          match get 32 table i with
          | None => Ret None
          | Some (nbits, v) =>
              Consume nbits (
                let code_len := w8 v in
                if code_len <? 16 then read_lengths_loop f table num_symbols (rle_literal r code_len)
                else
                  let! extra := rd (code_len - 14) in
                  match rle_repeat num_symbols r code_len extra with
                  | None => Ret (Some None)
                  | Some r' => read_lengths_loop f table num_symbols r'
                  end)
          end))
    end
  else if space r =? 0 then
    Ret (Some (Some (rev (lens r) ++ repeat 0 (Z.to_nat (num_symbols - zlen (lens r))))))
  else Ret (Some None).

(* dec_huffman.cc:29-97 ReadHuffmanCodeLengths.  [mem] is the uninitialised array table. *)
Definition read_code_lengths (mem : Z -> Z * Z) (garbage : Z -> Z) (cl : list Z) (num_symbols : Z) : rprog (option (option (list Z))) :=
  match count_depths cl (fun _ => 0) with
  | None => Ret None
  | Some counts =>
      match build_huffman_table 32 mem 5 cl counts garbage with
      | None => Ret None
      | Some (total, table) =>
          if total =? 0 then Ret (Some None)
          else read_lengths_loop (Z.to_nat num_symbols) table num_symbols (Rle [] 8 0 0 32768)
      end
  end.

(* dec_huffman.cc:209-212 *)
Definition huff16 : list (Z * Z) :=
  [(2, 0); (2, 4); (2, 3); (3, 2); (2, 0); (2, 4); (2, 3); (4, 1);
   (2, 0); (2, 4); (2, 3); (3, 2); (2, 0); (2, 4); (2, 3); (4, 5)].

(* dec_huffman.cc:213-226: the lengths of the code length codes; [cl] are the 18 lengths,
   [order] what is left of kCodeLengthCodeOrder *)
Fixpoint read_cl_loop (order : list Z) (cl : Z -> Z) (space num_codes : Z) : rprog (option ((Z -> Z) * Z * Z)) :=
  match order with
  | [] => Ret (Some (cl, space, num_codes))
  | code_len_idx :: order' =>
      if 0 <? space then
        Refill (Peek 4 (fun i =>
          match znth huff16 i with
          | None => Ret None
          | Some (nbits, v) =>
              Consume nbits (
                match set 18 cl code_len_idx v with
                | None => Ret None
                | Some cl' =>
                    if v =? 0 then read_cl_loop order' cl' space num_codes
                    else read_cl_loop order' cl' (space - Z.shiftr 32 v) (num_codes + 1)
                end)
          end))
      else Ret (Some (cl, space, num_codes))
  end.

(* dec_huffman.cc:99-113: up to 4 symbols *)
Fixpoint read_symbols (n : nat) (alphabet_size max_bits : Z) : rprog (option (list Z)) :=
  match n with
  | O => Ret (Some [])
  | S n' =>
      let! symbol := rd max_bits in
      if alphabet_size <=? w16 symbol then Ret None
      else let! r := read_symbols n' alphabet_size max_bits in
           Ret (option_map (cons (w16 symbol)) r)
  end.

(* dec_huffman.cc:115-119 *)
Fixpoint all_distinct (l : list Z) : bool :=
  match l with
  | [] => true
  | x :: l' => negb (existsb (Z.eqb x) l') && all_distinct l'
  end.

(* if (symbols[i] > symbols[j]) swap_symbols(i, j) *)
Definition order2 (i j : nat) (l : list Z) : list Z :=
  let a := nth i l 0 in let b := nth j l 0 in
  if b <? a then map (fun k => if (k =? i)%nat then b else if (k =? j)%nat then a else nth k l 0) (seq 0 4) else l.

(* dec_huffman.cc:130-179: the first table_size entries *)
Definition simple_entries (num_symbols : Z) (symbols : list Z) : option (list (Z * Z)) :=
  let s := fun l i => nth i l 0 in
  match num_symbols with
  | 1 => Some [(0, s symbols 0%nat)]
  | 2 => let l := order2 0 1 symbols in Some [(1, s l 0%nat); (1, s l 1%nat)]
  | 3 => let l := order2 1 2 symbols in Some [(1, s l 0%nat); (2, s l 1%nat); (1, s l 0%nat); (2, s l 2%nat)]
  | 4 => let l := order2 2 3 (order2 1 3 (order2 1 2 (order2 0 3 (order2 0 2 (order2 0 1 symbols))))) in
         Some [(2, s l 0%nat); (2, s l 2%nat); (2, s l 1%nat); (2, s l 3%nat)]
  | 5 => let l := order2 2 3 symbols in
         Some [(1, s l 0%nat); (2, s l 1%nat); (1, s l 0%nat); (3, s l 2%nat);
               (1, s l 0%nat); (2, s l 1%nat); (1, s l 0%nat); (3, s l 3%nat)]
  | _ => None
  end.

(* dec_huffman.cc:99-189 ReadSimpleCode.  The array symbols has 4 elements, initially 0.
   The doubling at 181-186 is [double_loop] of HuffModel. *)
Definition read_simple_code (alphabet_size : Z) (mem : Z -> Z * Z) : rprog (option (option (Z -> Z * Z))) :=
  let max_bits := if 1 <? alphabet_size then Z.log2 (alphabet_size - 1) + 1 else 0 in
  let! n := rd 2 in
  let! syms := read_symbols (Z.to_nat (n + 1)) alphabet_size max_bits in
  match syms with
  | None => Ret (Some None)
  | Some symbols =>
      if negb (all_distinct symbols) then Ret (Some None)
      else
        let! extra := (if n + 1 =? 4 then rd 1 else Ret 0) in
        match simple_entries (n + 1 + extra) (symbols ++ repeat 0 (4 - length symbols)) with
        | None => Ret (Some None)
        | Some es =>
            Ret (do t <- double_loop 9 256 (fun i => nth (Z.to_nat i) es (mem i)) (zlen es) 256; Some (Some t))
        end
  end.

(* dec_huffman.cc:191-243 HuffmanDecodingData::ReadFromBitStream: the table.  Memory allocated
   with vector::resize is zeroed. *)
Definition read_from_bit_stream (mem : Z -> Z * Z) (garbage : Z -> Z) (alphabet_size : Z) : rprog (option (option htable)) :=
  if Z.shiftl 1 PREFIX_MAX_BITS <? alphabet_size then Ret (Some None)
  else
    let! simple_code_or_skip := rd 2 in
    if simple_code_or_skip =? 1 then
      let! t := read_simple_code alphabet_size (fun _ => (0, 0)) in
      Ret (option_map (option_map (fun t => (256, t))) t)
    else
      let! r := read_cl_loop (skipn (Z.to_nat simple_code_or_skip) kCodeLengthCodeOrder) (fun _ => 0) 32 0 in
      match r with
      | None => Ret None
      | Some (cl, space, num_codes) =>
          if (num_codes =? 1) || (space =? 0) then
            let! lengths := read_code_lengths mem garbage (map cl (zseq 0 18)) alphabet_size in
            match lengths with
            | Some (Some code_lengths) =>
                match count_depths code_lengths (fun _ => 0) with
                | None => Ret None
                | Some counts =>
                    match build_huffman_table (alphabet_size + 376) (fun _ => (0, 0)) 8 code_lengths counts garbage with
                    | None => Ret None
                    | Some (total, t) => if 0 <? total then Ret (Some (Some (total, t))) else Ret (Some None)
                    end
                end
            | Some None => Ret (Some None)
            | None => Ret None
            end
          else Ret (Some None)
      end.
