(* Prefix codes: the decoder's lookup tables (lib/jxl/huffman_table.cc) and the encoder's
   code words (lib/jxl/enc_huffman_tree.cc).  Arrays are Arr.v arrays; [None] is an access
   out of bounds or exhausted fuel. *)
From Verif Require Import Base.
From Verif Require Export Arr AnsModel.

(* ans_params.h:28 *)
Definition PREFIX_MAX_BITS : Z := 15.

(* huffman_table.cc:19-25 GetNextKey *)
Fixpoint next_key_step (fuel : nat) (key step : Z) : option Z :=
  if Z.land key step =? 0 then Some step
  else match fuel with
       | O => None
       | S f => next_key_step f key (Z.shiftr step 1)
       end.
Definition get_next_key (key len : Z) : option Z :=
  do step <- next_key_step 32 key (Z.shiftl 1 (len - 1));
  Some (Z.land key (step - 1) + step).

(* huffman_table.cc:29-35 ReplicateValue; [base] is where the pointer points *)
Fixpoint replicate_value (fuel : nat) (size : Z) (t : Z -> Z * Z) (base step end_ : Z) (code : Z * Z)
  : option (Z -> Z * Z) :=
  match fuel with
  | O => None
  | S f =>
      let end_ := end_ - step in
      do t' <- set size t (base + end_) code;
      if 0 <? end_ then replicate_value f size t' base step end_ code else Some t'
  end.
Definition replicate (size : Z) (t : Z -> Z * Z) (base step end_ : Z) (code : Z * Z) : option (Z -> Z * Z) :=
  replicate_value (S (Z.to_nat end_)) size t base step end_ code.

(* huffman_table.cc:40-50 NextTableBitSize *)
Fixpoint next_table_loop (fuel : nat) (count : Z -> Z) (left len : Z) : option Z :=
  if len <? PREFIX_MAX_BITS then
    do c <- get 16 count len;
    if left <=? c then Some len
    else match fuel with
         | O => None
         | S f => next_table_loop f count (w64 (Z.shiftl (w64 (left - c)) 1)) (len + 1)
         end
  else Some len.
Definition next_table_bit_size (count : Z -> Z) (len root_bits : Z) : option Z :=
  do l <- next_table_loop 16 count (Z.shiftl 1 (len - root_bits)) len;
  Some (l - root_bits).

(* huffman_table.cc:75-84: the offsets, the number of symbols and the greatest length *)
Fixpoint offsets_loop (n : nat) (count : Z -> Z) (len sum max_length : Z) (offset : Z -> Z)
  : option (Z * (Z -> Z)) :=
  match n with
  | O => Some (max_length, offset)
  | S n' =>
      do offset' <- set 16 offset len sum;
      do c <- get 16 count len;
      if c =? 0 then offsets_loop n' count (len + 1) sum max_length offset'
      else offsets_loop n' count (len + 1) (w16 (sum + c)) len offset'
  end.

(* huffman_table.cc:87-91: sort by length *)
Fixpoint sort_loop (n : Z) (lengths : list Z) (symbol : Z) (offset : Z -> Z) (sorted : Z -> Z)
  : option ((Z -> Z) * (Z -> Z)) :=
  match lengths with
  | [] => Some (offset, sorted)
  | l :: lengths' =>
      if l =? 0 then sort_loop n lengths' (symbol + 1) offset sorted
      else
        do o <- get 16 offset l;
        do sorted' <- set n sorted o (w16 symbol);
        do offset' <- set 16 offset l (w16 (o + 1));
        sort_loop n lengths' (symbol + 1) offset' sorted'
  end.

(* the variables of the filling loops: table, count, key, symbol *)
Record fill := Fill { f_table : Z -> Z * Z; f_count : Z -> Z; f_key : Z; f_symbol : Z }.

(* huffman_table.cc:119-123: the symbols of one length in the root table *)
Fixpoint root_inner (fuel : nat) (size n : Z) (sorted : Z -> Z) (bits step table_size : Z) (s : fill) : option fill :=
  do c <- get 16 (f_count s) bits;
  if c =? 0 then Some s
  else match fuel with
       | O => None
       | S f =>
           do v <- get n sorted (f_symbol s);
           do t <- replicate size (f_table s) (f_key s) step table_size (bits, v);
           do key <- get_next_key (f_key s) bits;
           do count <- set 16 (f_count s) bits (w16 (c - 1));
           root_inner f size n sorted bits step table_size (Fill t count key (f_symbol s + 1))
       end.
(* huffman_table.cc:118-125: do ... while (++code.bits <= table_bits) *)
Fixpoint root_loop (fuel : nat) (size n : Z) (sorted : Z -> Z) (bits step table_bits table_size : Z) (s : fill) : option fill :=
  match fuel with
  | O => None
  | S f =>
      do s' <- root_inner (Z.to_nat 32768) size n sorted bits step table_size s;
      if bits + 1 <=? table_bits
      then root_loop f size n sorted (bits + 1) (Z.shiftl step 1) table_bits table_size s'
      else Some s'
  end.

(* huffman_table.cc:129-132: doubling by memcpy.  The regions do not overlap. *)
Fixpoint copy_range (count : nat) (size : Z) (t : Z -> Z * Z) (dst src : Z) : option (Z -> Z * Z) :=
  match count with
  | O => Some t
  | S c => do v <- get size t src; do t' <- set size t dst v; copy_range c size t' (dst + 1) (src + 1)
  end.
Fixpoint double_loop (fuel : nat) (size : Z) (t : Z -> Z * Z) (table_size total : Z) : option (Z -> Z * Z) :=
  if table_size =? total then Some t
  else match fuel with
       | O => None
       | S f => do t' <- copy_range (Z.to_nat table_size) size t table_size 0;
                double_loop f size t' (Z.shiftl table_size 1) total
       end.

(* the variables of the second-level loop: in addition table (as an index), table_size,
   total_size, low *)
Record sub := Sub { s_fill : fill; s_table : Z; s_tsize : Z; s_total : Z; s_low : Z }.

(* huffman_table.cc:138-154 for one symbol *)
Definition sub_step (size n root_bits : Z) (sorted : Z -> Z) (len step mask : Z) (s : sub) : option sub :=
  let f := s_fill s in
  do s <- (if negb (Z.land (f_key f) mask =? s_low s) then
             let table := s_table s + s_tsize s in
             do table_bits <- next_table_bit_size (f_count f) len root_bits;
             let table_size := Z.shiftl 1 table_bits in
             let low := Z.land (f_key f) mask in
             do t <- set size (f_table f) low (w8 (table_bits + root_bits), w16 (table - low));
             Some (Sub (Fill t (f_count f) (f_key f) (f_symbol f)) table table_size (s_total s + table_size) low)
           else Some s);
  let f := s_fill s in
  do v <- get n sorted (f_symbol f);
  do t <- replicate size (f_table f) (s_table s + Z.shiftr (f_key f) root_bits) step (s_tsize s) (w8 (len - root_bits), v);
  do key <- get_next_key (f_key f) len;
  do c <- get 16 (f_count f) len;
  do count <- set 16 (f_count f) len (w16 (c - 1));
  Some (Sub (Fill t count key (f_symbol f + 1)) (s_table s) (s_tsize s) (s_total s) (s_low s)).

Fixpoint sub_inner (fuel : nat) (size n root_bits : Z) (sorted : Z -> Z) (len step mask : Z) (s : sub) : option sub :=
  do c <- get 16 (f_count (s_fill s)) len;
  if c =? 0 then Some s
  else match fuel with
       | O => None
       | S f => do s' <- sub_step size n root_bits sorted len step mask s;
                sub_inner f size n root_bits sorted len step mask s'
       end.
Fixpoint sub_loop (fuel : nat) (size n root_bits : Z) (sorted : Z -> Z) (len step mask max_length : Z) (s : sub) : option sub :=
  if len <=? max_length then
    match fuel with
    | O => None
    | S f => do s' <- sub_inner (Z.to_nat 32768) size n root_bits sorted len step mask s;
             sub_loop f size n root_bits sorted (len + 1) (Z.shiftl step 1) mask max_length s'
    end
  else Some s.

(* huffman_table.cc:108-110 *)
Fixpoint fill_all (count : nat) (size : Z) (t : Z -> Z * Z) (key : Z) (code : Z * Z) : option (Z -> Z * Z) :=
  match count with
  | O => Some t
  | S c => do t' <- set size t key code; fill_all c size t' (key + 1) code
  end.

(* huffman_table.cc:52-158 BuildHuffmanTable: (total size, table).  [size] is the number of
   elements root_table points to, [t] what is in them; [garbage] is the content of the
   uninitialised array offset.  [lengths] are bytes. *)
Definition build_huffman_table (size : Z) (t : Z -> Z * Z) (root_bits : Z) (lengths : list Z) (count : Z -> Z)
  (garbage : Z -> Z) : option (Z * (Z -> Z * Z)) :=
  let n := zlen lengths in
  if Z.shiftl 1 PREFIX_MAX_BITS <? n then Some (0, t)
  else
    do (max_length, offset) <- offsets_loop 15 count 1 0 1 garbage;
    do (offset', sorted) <- sort_loop n lengths 0 offset (fun _ => 0);
    let total_size := Z.shiftl 1 root_bits in
    do o15 <- get 16 offset' PREFIX_MAX_BITS;
    if o15 =? 1 then
      do v <- get n sorted 0;
      do t' <- fill_all (Z.to_nat total_size) size t 0 (0, v);
      Some (total_size, t')
    else
      let table_bits := if max_length <? root_bits then max_length else root_bits in
      let table_size := Z.shiftl 1 table_bits in
      do s <- root_loop 16 size n sorted 1 2 table_bits table_size (Fill t count 0 0);
      do t' <- double_loop 16 size (f_table s) table_size total_size;
      do r <- sub_loop 16 size n root_bits sorted (root_bits + 1) 2 (total_size - 1) max_length
                (Sub (Fill t' (f_count s) (f_key s) (f_symbol s)) 0 total_size total_size (-1));
      Some (s_total r, f_table (s_fill r)).

(* ---- encoder ---- *)

(* enc_huffman_tree.cc:291-303 ReverseBits *)
Definition kLut : list Z := [0x0; 0x8; 0x4; 0xc; 0x2; 0xa; 0x6; 0xe; 0x1; 0x9; 0x5; 0xd; 0x3; 0xb; 0x7; 0xf].
Definition lut (i : Z) : Z := nth (Z.to_nat i) kLut 0.
Fixpoint reverse_loop (fuel : nat) (num_bits i bits retval : Z) : option Z :=
  if i <? num_bits then
    match fuel with
    | O => None
    | S f => let bits := Z.shiftr bits 4 in
             reverse_loop f num_bits (i + 4) bits (Z.lor (Z.shiftl retval 4) (lut (Z.land bits 0xf)))
    end
  else Some retval.
Definition reverse_bits (num_bits bits : Z) : option Z :=
  do r <- reverse_loop 4 num_bits 4 bits (lut (Z.land bits 0xf));
  Some (w16 (Z.shiftr r (Z.land (- num_bits) 0x3))).

(* enc_huffman_tree.cc:312-318 *)
Fixpoint count_depths (depth : list Z) (bl_count : Z -> Z) : option (Z -> Z) :=
  match depth with
  | [] => Some bl_count
  | d :: depth' => do c <- get 16 bl_count d; do b <- set 16 bl_count d (w16 (c + 1)); count_depths depth' b
  end.
(* enc_huffman_tree.cc:322-326 *)
Fixpoint next_code_loop (n : nat) (bl_count : Z -> Z) (i code : Z) (next : Z -> Z) : option (Z -> Z) :=
  match n with
  | O => Some next
  | S n' => do c <- get 16 bl_count (i - 1);
            let code := s32 (2 * (code + c)) in
            do next' <- set 16 next i (w16 code);
            next_code_loop n' bl_count (i + 1) code next'
  end.
(* enc_huffman_tree.cc:328-332; [bits] is what the array contains before *)
Fixpoint assign_codes (depth bits : list Z) (next : Z -> Z) : option (list Z) :=
  match depth, bits with
  | [], _ => Some []
  | d :: depth', b :: bits' =>
      if d =? 0 then do r <- assign_codes depth' bits' next; Some (b :: r)
      else
        do c <- get 16 next d;
        do v <- reverse_bits d c;
        do next' <- set 16 next d (w16 (c + 1));
        do r <- assign_codes depth' bits' next';
        Some (v :: r)
  | _, _ => None
  end.
(* enc_huffman_tree.cc:307-333 ConvertBitDepthsToSymbols *)
Definition convert_bit_depths (depth bits : list Z) : option (list Z) :=
  do bl_count <- count_depths depth (fun _ => 0);
  do bl_count <- set 16 bl_count 0 0;
  do next <- next_code_loop 15 bl_count 1 0 (fun _ => 0);
  assign_codes depth bits next.
