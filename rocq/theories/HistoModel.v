(* How histograms are stored: lib/jxl/enc_ans.cc (ANSEncodingHistogram::Encode) and
   lib/jxl/dec_ans.cc (ReadHistogram).  The writer's output is a list of (width, value)
   fields, [None] is an access out of bounds.  The reader returns [None] for undefined
   behaviour, [Some None] for a refusal, [Some (Some counts)] for success.  Arrays are
   functions, see Arr.v. *)
From Verif Require Import Base BitProg.
From Verif Require Export Arr AliasModel AnsModel.

(* ans_params.h:24 *)
Definition ANS_MAX_ALPHABET_SIZE : Z := 256.

(* enc_ans.cc:52-64 StoreVarLenUint8, 66-77 StoreVarLenUint16: [wide] is 3 or 4 *)
Definition store_var_len (wide n : Z) : list (Z * Z) :=
  if n =? 0 then [(1, 0)]
  else let nbits := Z.log2 n in [(1, 1); (wide, nbits); (nbits, n - Z.shiftl 1 nbits)].
(* dec_ans.cc:32-43 DecodeVarLenUint8, 46-57 DecodeVarLenUint16 *)
Definition decode_var_len (wide : Z) : rprog Z :=
  let! b := rd 1 in
  if b =? 0 then Ret 0
  else
    let! nbits := rd wide in
    if nbits =? 0 then Ret 1
    else let! v := rd nbits in Ret (v + Z.shiftl 1 nbits).

(* ans_common.h:27-33 GetPopulationCountPrecision *)
Definition population_precision (logcount shift : Z) : Z :=
  let r := Z.min logcount (shift - Z.shiftr (ANS_LOG_TAB_SIZE - logcount) 1) in
  if r <? 0 then 0 else r.

(* ans_common.h:38-49 CreateFlatHistogram *)
Definition create_flat_histogram (length total_count : Z) : list Z :=
  let count := total_count / length in
  let rem_counts := total_count mod length in
  map (fun i => if i <? rem_counts then count + 1 else count) (zseq 0 (Z.to_nat length)).

(* ---- writing ---- *)

(* enc_ans.cc:531-536: the fields used; [symbols] are the first two symbols that occur *)
Record ehist := Ehist { method : Z; omit_pos : Z; alphabet_size : Z; num_symbols : Z; e_symbols : list Z; e_counts : list Z }.

(* enc_ans.cc:262-274: [i] and the following [k] - 1 values of i *)
Fixpoint same_loop (k : nat) (alphabet_size omit_pos : Z) (counts : list Z) (i last : Z) (same : Z -> Z) : option (Z -> Z) :=
  match k with
  | O => Some same
  | S k' =>
      do stop <- (if (i =? alphabet_size) || (i =? omit_pos) || (i =? omit_pos + 1) then Some true
                  else do a <- znth counts i; do b <- znth counts last; Some (negb (a =? b)));
      if stop then
        do same <- set ANS_MAX_ALPHABET_SIZE same last (w8 (i - last));
        same_loop k' alphabet_size omit_pos counts (i + 1) i same
      else same_loop k' alphabet_size omit_pos counts (i + 1) last same
  end.

(* enc_ans.cc:276-289: bit_width but for omit_pos, and omit_width *)
Fixpoint width_loop (k : nat) (omit_pos : Z) (counts : list Z) (i : Z) (bit_width : Z -> Z) (omit_width : Z) : option ((Z -> Z) * Z) :=
  match k with
  | O => Some (bit_width, omit_width)
  | S k' =>
      do c <- znth counts i;
      if negb (i =? omit_pos) && (0 <? c) then
        let w := w8 (Z.log2 c + 1) in
        do bit_width <- set ANS_MAX_ALPHABET_SIZE bit_width i w;
        width_loop k' omit_pos counts (i + 1) bit_width (Z.max omit_width (w + (if i <? omit_pos then 1 else 0)))
      else width_loop k' omit_pos counts (i + 1) bit_width omit_width
  end.

(* enc_ans.cc:293-299 *)
Definition kBitWidthLengths : list Z := [5; 4; 4; 4; 4; 4; 3; 3; 3; 3; 3; 6; 7; 7].
Definition kBitWidthSymbols : list Z := [17; 11; 15; 3; 9; 7; 4; 2; 5; 6; 0; 33; 1; 65].
Definition kMinReps : Z := 5.
Definition rep : Z := ANS_LOG_TAB_SIZE + 1.
Definition width_field (w : Z) : option (Z * Z) :=
  do n <- znth kBitWidthLengths w; do v <- znth kBitWidthSymbols w; Some (n, v).

(* enc_ans.cc:303-312 *)
Fixpoint write_widths (fuel : nat) (alphabet_size : Z) (same bit_width : Z -> Z) (i : Z) : option (list (Z * Z)) :=
  if i <? alphabet_size then
    match fuel with
    | O => None
    | S f =>
        do w <- get ANS_MAX_ALPHABET_SIZE bit_width i;
        do e <- width_field w;
        do s <- get ANS_MAX_ALPHABET_SIZE same i;
        if kMinReps <=? s then
          do r <- width_field rep;
          do fs <- write_widths f alphabet_size same bit_width (i + (s - 1) + 1);
          Some (e :: r :: store_var_len 3 (s - kMinReps) ++ fs)
        else
          do fs <- write_widths f alphabet_size same bit_width (i + 1);
          Some (e :: fs)
    end
  else Some [].

(* enc_ans.cc:316-327 *)
Fixpoint write_mantissas (fuel : nat) (alphabet_size omit_pos shift : Z) (counts : list Z) (same bit_width : Z -> Z) (i : Z) : option (list (Z * Z)) :=
  if i <? alphabet_size then
    match fuel with
    | O => None
    | S f =>
        do w <- get ANS_MAX_ALPHABET_SIZE bit_width i;
        do c <- znth counts i;
        let here :=
          if (1 <? w) && negb (i =? omit_pos) then
            let bitcount := population_precision (w - 1) shift in
            let drop_bits := w - 1 - bitcount in
            [(bitcount, Z.shiftr c drop_bits - Z.shiftl 1 bitcount)]
          else [] in
        do s <- get ANS_MAX_ALPHABET_SIZE same i;
        do fs <- write_mantissas f alphabet_size omit_pos shift counts same bit_width
                   (if kMinReps <=? s then i + (s - 1) + 1 else i + 1);
        Some (here ++ fs)
    end
  else Some [].

(* enc_ans.cc:246-252: Elias gamma-like code of the method *)
Definition store_method (method : Z) : list (Z * Z) :=
  let upper_bound_log := Z.log2 (ANS_LOG_TAB_SIZE + 1) in
  let log := Z.log2 method in
  [(log, Z.shiftl 1 log - 1)] ++ (if log =? upper_bound_log then [] else [(1, 0)]) ++
  [(log, Z.land (Z.shiftl 1 log - 1) method)].

(* enc_ans.cc:198-326 ANSEncodingHistogram::Encode, with a BitWriter; the checks that return an
   error are [None] *)
Definition encode_histogram (h : ehist) : option (list (Z * Z)) :=
  let n := alphabet_size h in
  if ANS_MAX_ALPHABET_SIZE <? n then None
  else if method h =? 0 then
    if n <=? 0 then None else Some ([(1, 0); (1, 1)] ++ store_var_len 3 (n - 1))
  else if num_symbols h <=? 2 then
    if num_symbols h =? 0 then Some ([(1, 1); (1, 0)] ++ store_var_len 3 0)
    else if num_symbols h =? 1 then
      do s0 <- znth (e_symbols h) 0;
      Some ([(1, 1); (1, 0)] ++ store_var_len 3 s0)
    else
      do s0 <- znth (e_symbols h) 0; do s1 <- znth (e_symbols h) 1; do c0 <- znth (e_counts h) s0;
      Some ([(1, 1); (1, 1)] ++ store_var_len 3 s0 ++ store_var_len 3 s1 ++ [(ANS_LOG_TAB_SIZE, c0)])
  else
    do same <- same_loop (Z.to_nat n) n (omit_pos h) (e_counts h) 1 0 (fun _ => 0);
    do (bit_width, omit_width) <- width_loop (Z.to_nat n) (omit_pos h) (e_counts h) 0 (fun _ => 0) 10;
    do bit_width <- set ANS_MAX_ALPHABET_SIZE bit_width (omit_pos h) (w8 omit_width);
    do widths <- write_widths (Z.to_nat n) n same bit_width 0;
    let shift := method h - 1 in
    do mantissas <- (if shift =? 0 then Some [] else write_mantissas (Z.to_nat n) n (omit_pos h) shift (e_counts h) same bit_width 0);
    Some ([(1, 0); (1, 0)] ++ store_method (method h) ++ store_var_len 3 (n - 3) ++ widths ++ mantissas).

(* ---- reading ---- *)

(* dec_ans.cc:104-122 *)
Definition huff128 : list (Z * Z) := [
  (3, 10); (7, 12); (3, 7); (4, 3); (3, 6); (3, 8); (3, 9); (4, 5);
  (3, 10); (4, 4);  (3, 7); (4, 1); (3, 6); (3, 8); (3, 9); (4, 2);
  (3, 10); (5, 0);  (3, 7); (4, 3); (3, 6); (3, 8); (3, 9); (4, 5);
  (3, 10); (4, 4);  (3, 7); (4, 1); (3, 6); (3, 8); (3, 9); (4, 2);
  (3, 10); (6, 11); (3, 7); (4, 3); (3, 6); (3, 8); (3, 9); (4, 5);
  (3, 10); (4, 4);  (3, 7); (4, 1); (3, 6); (3, 8); (3, 9); (4, 2);
  (3, 10); (5, 0);  (3, 7); (4, 3); (3, 6); (3, 8); (3, 9); (4, 5);
  (3, 10); (4, 4);  (3, 7); (4, 1); (3, 6); (3, 8); (3, 9); (4, 2);
  (3, 10); (7, 13); (3, 7); (4, 3); (3, 6); (3, 8); (3, 9); (4, 5);
  (3, 10); (4, 4);  (3, 7); (4, 1); (3, 6); (3, 8); (3, 9); (4, 2);
  (3, 10); (5, 0);  (3, 7); (4, 3); (3, 6); (3, 8); (3, 9); (4, 5);
  (3, 10); (4, 4);  (3, 7); (4, 1); (3, 6); (3, 8); (3, 9); (4, 2);
  (3, 10); (6, 11); (3, 7); (4, 3); (3, 6); (3, 8); (3, 9); (4, 5);
  (3, 10); (4, 4);  (3, 7); (4, 1); (3, 6); (3, 8); (3, 9); (4, 2);
  (3, 10); (5, 0);  (3, 7); (4, 3); (3, 6); (3, 8); (3, 9); (4, 5);
  (3, 10); (4, 4);  (3, 7); (4, 1); (3, 6); (3, 8); (3, 9); (4, 2)].

(* the variables of dec_ans.cc:124-147 *)
Record logs := Logs { logcounts : Z -> Z; r_same : Z -> Z; omit_log : Z; r_omit : Z }.

(* dec_ans.cc:129-147 *)
Fixpoint read_logs (fuel : nat) (length i : Z) (r : logs) : rprog (option logs) :=
  if i <? length then
    match fuel with
    | O => Ret None
    | S f =>
        Refill (Peek 7 (fun idx =>
          match znth huff128 idx with
          | None => Ret None
          | Some (nbits, v) => Consume nbits (
              match set length (logcounts r) i (v - 1) with
              | None => Ret None
              | Some lc =>
                  if v - 1 =? ANS_LOG_TAB_SIZE then
                    let! rle_length := decode_var_len 3 in
                    match set length (r_same r) i (rle_length + 5) with
                    | None => Ret None
                    | Some sm => read_logs f length (i + (rle_length + 3) + 1) (Logs lc sm (omit_log r) (r_omit r))
                    end
                  else if omit_log r <? v - 1 then read_logs f length (i + 1) (Logs lc (r_same r) (v - 1) i)
                  else read_logs f length (i + 1) (Logs lc (r_same r) (omit_log r) (r_omit r))
              end)
          end))
    end
  else Ret (Some r).

(* dec_ans.cc:154-184: [i] and the following; the result is counts and total_count *)
Fixpoint read_counts (k : nat) (length shift : Z) (r : logs) (i prev numsame : Z) (counts : Z -> Z) (total : Z) : rprog (option ((Z -> Z) * Z)) :=
  match k with
  | O => Ret (Some (counts, total))
  | S k' =>
      match get length (r_same r) i, (if 0 <? i then get length counts (i - 1) else Some 0), get length (logcounts r) i with
      | Some s, Some before, Some code =>
          let numsame := if negb (s =? 0) then s - 1 else numsame in
          let prev := if negb (s =? 0) then before else prev in
          let next v numsame :=
            match set length counts i v with
            | None => Ret None
            | Some counts' => read_counts k' length shift r (i + 1) prev numsame counts' (total + v)
            end in
          if 0 <? numsame then next prev (numsame - 1)
          else if (i =? r_omit r) || (code <? 0) then read_counts k' length shift r (i + 1) prev numsame counts total
          else if (shift =? 0) || (code =? 0) then next (Z.shiftl 1 code) numsame
          else
            let bitcount := population_precision code shift in
            let! b := rd bitcount in
            next (Z.shiftl 1 code + Z.shiftl b (code - bitcount)) numsame
      | _, _, _ => Ret None
      end
  end.

(* dec_ans.cc:91-94 *)
Fixpoint read_log (k : nat) (log : Z) : rprog Z :=
  match k with
  | O => Ret log
  | S k' => let! b := rd 1 in if b =? 0 then Ret log else read_log k' (log + 1)
  end.

(* dec_ans.cc:59-196 ReadHistogram with precision_bits = ANS_LOG_TAB_SIZE *)
Definition read_histogram : rprog (option (option (list Z))) :=
  let range := ANS_TAB_SIZE in
  let! simple_code := rd 1 in
  if simple_code =? 1 then
    let! b := rd 1 in
    let! s0 := decode_var_len 3 in
    if b =? 0 then
      Ret (Some (Some (map (fun i => if i =? s0 then range else 0) (zseq 0 (Z.to_nat (s0 + 1))))))
    else
      let! s1 := decode_var_len 3 in
      if s0 =? s1 then Ret (Some None)
      else
        let! c0 := rd ANS_LOG_TAB_SIZE in
        Ret (Some (Some (map (fun i => if i =? s1 then range - c0 else if i =? s0 then c0 else 0) (zseq 0 (Z.to_nat (Z.max s0 s1 + 1))))))
  else
    let! is_flat := rd 1 in
    if is_flat =? 1 then
      let! a := decode_var_len 3 in
      if range <? a + 1 then Ret (Some None) else Ret (Some (Some (create_flat_histogram (a + 1) range)))
    else
      let! log := read_log (Z.to_nat (Z.log2 (ANS_LOG_TAB_SIZE + 1))) 0 in
      let! m := rd log in
      let shift := Z.lor m (Z.shiftl 1 log) - 1 in
      if ANS_LOG_TAB_SIZE + 1 <? shift then Ret (Some None)
      else
        let! l := decode_var_len 3 in
        let length := l + 3 in
        let! r := read_logs (Z.to_nat length) length 0 (Logs (fun _ => 0) (fun _ => 0) (-1) (-1)) in
        match r with
        | None => Ret None
        | Some r =>
            if r_omit r <? 0 then Ret (Some None)
            else
              match (if r_omit r + 1 <? length then get length (logcounts r) (r_omit r + 1) else Some 0) with
              | None => Ret None
              | Some after =>
                  if (r_omit r + 1 <? length) && (after =? ANS_LOG_TAB_SIZE) then Ret (Some None)
                  else
                    let! c := read_counts (Z.to_nat length) length shift r 0 0 0 (fun _ => 0) 0 in
                    match c with
                    | None => Ret None
                    | Some (counts, total) =>
                        match set length counts (r_omit r) (range - total) with
                        | None => Ret None
                        | Some counts =>
                            if range - total <=? 0 then Ret (Some None)
                            else Ret (Some (Some (map counts (zseq 0 (Z.to_nat length)))))
                        end
                    end
              end
        end.
