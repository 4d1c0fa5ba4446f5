(* Model of the ANS coder and of the token writer and symbol reader built on it:
   lib/jxl/enc_ans.h, lib/jxl/enc_ans.cc (ANSBuildInfoTable, WriteTokens),
   lib/jxl/dec_ans.h, lib/jxl/dec_ans.cc (ANSSymbolReader). *)
From Verif Require Import Base BitProg HybridUintModel AliasModel.
From Verif Require Export Arr.

(* ans_params.h:21-29 *)
Definition ANS_SIGNATURE : Z := 0x13.
(* enc_ans.h:33: RECIPROCAL_PRECISION *)
Definition RECIPROCAL_PRECISION : Z := 32 + ANS_LOG_TAB_SIZE.

(* enc_ans.h:38-48: ANSEncSymbolInfo.  [reverse_map] is a vector of [freq] elements;
   the prefix code members are [depth] and [bits]. *)
Record sym_info := SymInfo {
  freq : Z; reverse_map : Z -> Z; ifreq : Z; depth : Z; bits : Z }.

(* enc_ans.cc:329-353: ANSBuildInfoTable.  [counts] are the first alphabet_size_ counts of the
   normalized histogram.  A new reverse map is zero-filled (vector::resize). *)
Definition info_init (f : Z) : sym_info :=
  let f16 := w16 f in
  SymInfo f16 (fun _ => 0)
    (if f =? 0 then 1 else (Z.shiftl 1 RECIPROCAL_PRECISION + f16 - 1) / f16) 0 0.

Definition info_step (log_alpha_size : Z) (table : Z -> entry) (info : list sym_info) (i : Z)
  : option (list sym_info) :=
  do (s, o, _) <- lookup12 log_alpha_size table i;
  do e <- znth info s;
  do m <- set (freq e) (reverse_map e) o (w16 i);
  Some (firstn (Z.to_nat s) info
        ++ SymInfo (freq e) m (ifreq e) (depth e) (bits e) :: skipn (S (Z.to_nat s)) info).

Fixpoint info_loop (log_alpha_size : Z) (table : Z -> entry) (info : list sym_info) (is : list Z)
  : option (list sym_info) :=
  match is with
  | [] => Some info
  | i :: is' => do info' <- info_step log_alpha_size table info i;
                info_loop log_alpha_size table info' is'
  end.

Definition build_info_table (log_alpha_size : Z) (table : Z -> entry) (counts : list Z)
  : option (list sym_info) :=
  let info := match counts with [] => [info_init ANS_TAB_SIZE] | _ => map info_init counts end in
  info_loop log_alpha_size table info (zseq 0 (Z.to_nat ANS_TAB_SIZE)).

(* enc_ans.h:50-75: ANSCoder::PutSymbol, state -> (bits, nbits, new state).  The product is a
   64-bit one.  [None] is a reverse-map access out of bounds. *)
Definition put_symbol (t : sym_info) (state : Z) : option (Z * Z * Z) :=
  let '(b, nb, state) :=
    if freq t <=? Z.shiftr state (32 - ANS_LOG_TAB_SIZE)
    then (Z.land state 0xffff, 16, Z.shiftr state 16) else (0, 0, state) in
  let v := w32 (Z.shiftr (w64 (state * ifreq t)) RECIPROCAL_PRECISION) in
  do offset <- get (freq t) (reverse_map t) (w32 (state - w32 (v * freq t)));
  Some (b, nb, w32 (w32 (Z.shiftl v ANS_LOG_TAB_SIZE) + offset)).

(* enc_ans.h:82-89: Token *)
Record token := Token { is_lz77_length : bool; context : Z; value : Z }.

(* dec_ans.h:107-122: LZ77Params *)
Record lz77_params := LZ77 {
  lz_enabled : bool; min_symbol : Z; min_length : Z; length_uint_config : hconfig;
  distance_context : Z }.

(* enc_ans.h:96-104: EntropyEncodingData, the members WriteTokens uses *)
Record enc_codes := EncCodes {
  encoding_info : list (list sym_info); e_use_prefix : bool; e_uint_config : list hconfig;
  e_lz77 : lz77_params; context_map : list Z }.

(* enc_ans.cc:1244-1250, 1286-1293: what a token is coded as: histogram, symbol and
   extra bits.  [ctx] is context_offset + token.context. *)
Definition token_code (codes : enc_codes) (context_offset : Z) (t : token)
  : option (sym_info * Z * Z) :=
  do histo <- znth (context_map codes) (context_offset + context t);
  do cfg <- (if is_lz77_length t then Some (length_uint_config (e_lz77 codes))
             else znth (e_uint_config codes) histo);
  let '(tok, nb, b) := hybrid_encode cfg (value t) in
  let tok := w32 (tok + (if is_lz77_length t then min_symbol (e_lz77 codes) else 0)) in
  do infos <- znth (encoding_info codes) histo;
  do info <- znth infos tok;
  Some (info, nb, b).

(* enc_ans.cc:1302-1308: the other branch: one context, no LZ77 *)
Definition token_code0 (codes : enc_codes) (t : token) : option (sym_info * Z * Z) :=
  do cfg <- znth (e_uint_config codes) 0;
  let '(tok, nb, b) := hybrid_encode cfg (value t) in
  do infos <- znth (encoding_info codes) 0;
  do info <- znth infos tok;
  Some (info, nb, b).

(* enc_ans.cc:1243-1259: WriteTokens with prefix codes, as (width, value) writes *)
Fixpoint write_tokens_prefix (codes : enc_codes) (context_offset : Z) (tokens : list token)
  : option (list (Z * Z)) :=
  match tokens with
  | [] => Some []
  | t :: tokens' =>
      do (info, nb, b) <- token_code codes context_offset t;
      let data := Z.lor (bits info) (w64 (Z.shiftl b (depth info))) in
      do rest <- write_tokens_prefix codes context_offset tokens';
      Some ((depth info + nb, data) :: rest)
  end.

(* enc_ans.cc:1262-1281: the reversed bit buffer: allbits, numallbits and the finished
   words, the last one first *)
Record rev_buf := RB { allbits : Z; numallbits : Z; out : list (Z * Z) }.

(* lib/jxl/enc_bit_writer.h:36: BitWriter::kMaxBitsPerCall *)
Definition kMaxBitsPerCall : Z := 56.

Definition addbits (r : rev_buf) (b nb : Z) : rev_buf :=
  if nb =? 0 then r
  else
    let r := if kMaxBitsPerCall <? numallbits r + nb
             then RB 0 0 ((numallbits r, allbits r) :: out r) else r in
    RB (Z.lor (w64 (Z.shiftl (allbits r) nb)) b) (numallbits r + nb) (out r).

(* enc_ans.cc:1284-1314: the loop over the tokens, last token first *)
Fixpoint ans_loop (code : token -> option (sym_info * Z * Z)) (tokens : list token)
  (state : Z) (r : rev_buf) : option (Z * rev_buf) :=
  match tokens with
  | [] => Some (state, r)
  | t :: tokens' =>
      do (info, nb, b) <- code t;
      let r := addbits r b nb in
      do (ab, anb, state) <- put_symbol info state;
      ans_loop code tokens' state (addbits r ab anb)
  end.

Definition write_tokens_ans (codes : enc_codes) (context_offset : Z) (tokens : list token)
  : option (list (Z * Z)) :=
  let code := if lz_enabled (e_lz77 codes) || (1 <? zlen (context_map codes))
              then token_code codes context_offset else token_code0 codes in
  do (state, r) <- ans_loop code (rev tokens) (Z.shiftl ANS_SIGNATURE 16) (RB 0 0 []);
  Some ((32, state) :: (numallbits r, allbits r) :: out r).

(* enc_ans.cc:1238-1322: WriteTokens *)
Definition write_tokens (codes : enc_codes) (context_offset : Z) (tokens : list token)
  : option (list (Z * Z)) :=
  if e_use_prefix codes then write_tokens_prefix codes context_offset tokens
  else write_tokens_ans codes context_offset tokens.

(* ---- the reader ---- *)

(* huffman_table.h:14-17: HuffmanCode, as (bits, value); a table is its size and contents *)
Definition htable : Type := Z * (Z -> Z * Z).
Definition kHuffmanTableBits : Z := 8.

(* dec_huffman.h:27-42: HuffmanDecodingData::ReadSymbol.  [None] is an access outside
   the table. *)
Definition huff_read (t : htable) : rprog (option Z) :=
  Peek kHuffmanTableBits (fun i =>
    match get (fst t) (snd t) i with
    | None => Ret None
    | Some (n_bits, v) =>
        if kHuffmanTableBits <? n_bits then
          Consume kHuffmanTableBits (
            Peek (n_bits - kHuffmanTableBits) (fun j =>
              match get (fst t) (snd t) (i + v + j) with
              | None => Ret None
              | Some (n_bits', v') => Consume n_bits' (Ret (Some v'))
              end))
        else Consume n_bits (Ret (Some v))
    end).

(* dec_ans.h:153-167: ANSCode, the members the reader uses *)
Record ans_code := AnsCode {
  alias_tables : list (Z -> entry); huffman_data : list htable; use_prefix_code : bool;
  log_alpha_size : Z; uint_config : list hconfig; lz77 : lz77_params }.

(* dec_ans.h:178-207: ReadSymbolANSWithoutRefill, state -> symbol and new state *)
Definition ans_read (log_alpha_size : Z) (table : Z -> entry) (state : Z) : rprog (option (Z * Z)) :=
  let res := Z.land state (ANS_TAB_SIZE - 1) in
  match lookup12 log_alpha_size table res with
  | None => Ret None
  | Some (sym, offset, f) =>
      let state := w32 (f * Z.shiftr state ANS_LOG_TAB_SIZE + offset) in
      Peek 16 (fun b =>
        let new_state := Z.lor (w32 (Z.shiftl state 16)) b in
        let normalize := state <? Z.shiftl 1 16 in
        Consume (if normalize then 16 else 0)
          (Ret (Some (sym, if normalize then new_state else state))))
  end.

(* dec_ans.h:214-221: ReadSymbolWithoutRefill *)
Definition read_symbol (code : ans_code) (histo : Z) (state : Z) : rprog (option (Z * Z)) :=
  if use_prefix_code code then
    match znth (huffman_data code) histo with
    | None => Ret None
    | Some t => let! s := huff_read t in Ret (option_map (fun s => (s, state)) s)
    end
  else
    match znth (alias_tables code) histo with
    | None => Ret None
    | Some t => ans_read (log_alpha_size code) t state
    end.

(* dec_ans.h:448-485: the mutable members of ANSSymbolReader.  [window] is the 2^20-entry
   LZ77 window, [None] where it was never written; [unhealthy] records a call to
   BitReader::MarkUnhealthy. *)
Record sreader := SReader {
  state : Z; num_decoded : Z; num_to_copy : Z; copy_pos : Z; window : Z -> option Z;
  unhealthy : bool }.

(* dec_ans.h:124-125 *)
Definition kWindowSize : Z := Z.shiftl 1 20.
Definition kWindowMask : Z := kWindowSize - 1.
Definition kNumSpecialDistances : Z := 120.

(* dec_ans.h:127-143 *)
Definition kSpecialDistances : list (Z * Z) :=
  [(0, 1);  (1, 0);  (1, 1);  (-1, 1); (0, 2);  (2, 0);  (1, 2);  (-1, 2);
   (2, 1);  (-2, 1); (2, 2);  (-2, 2); (0, 3);  (3, 0);  (1, 3);  (-1, 3);
   (3, 1);  (-3, 1); (2, 3);  (-2, 3); (3, 2);  (-3, 2); (0, 4);  (4, 0);
   (1, 4);  (-1, 4); (4, 1);  (-4, 1); (3, 3);  (-3, 3); (2, 4);  (-2, 4);
   (4, 2);  (-4, 2); (0, 5);  (3, 4);  (-3, 4); (4, 3);  (-4, 3); (5, 0);
   (1, 5);  (-1, 5); (5, 1);  (-5, 1); (2, 5);  (-2, 5); (5, 2);  (-5, 2);
   (4, 4);  (-4, 4); (3, 5);  (-3, 5); (5, 3);  (-5, 3); (0, 6);  (6, 0);
   (1, 6);  (-1, 6); (6, 1);  (-6, 1); (2, 6);  (-2, 6); (6, 2);  (-6, 2);
   (4, 5);  (-4, 5); (5, 4);  (-5, 4); (3, 6);  (-3, 6); (6, 3);  (-6, 3);
   (0, 7);  (7, 0);  (1, 7);  (-1, 7); (5, 5);  (-5, 5); (7, 1);  (-7, 1);
   (4, 6);  (-4, 6); (6, 4);  (-6, 4); (2, 7);  (-2, 7); (7, 2);  (-7, 2);
   (3, 7);  (-3, 7); (7, 3);  (-7, 3); (5, 6);  (-5, 6); (6, 5);  (-6, 5);
   (8, 0);  (4, 7);  (-4, 7); (7, 4);  (-7, 4); (8, 1);  (8, 2);  (6, 6);
   (-6, 6); (8, 3);  (5, 7);  (-5, 7); (7, 5);  (-7, 5); (8, 4);  (6, 7);
   (-6, 7); (7, 6);  (-7, 6); (8, 5);  (7, 7);  (-7, 7); (8, 6);  (8, 7)].

(* dec_ans.h:144-148: SpecialDistance (int arithmetic; [None] on overflow) *)
Definition special_distance (index multiplier : Z) : option Z :=
  do (a, b) <- znth kSpecialDistances index;
  let p := s32 multiplier * b in
  let dist := a + p in
  if (- 2 ^ 31 <=? p) && (p <? 2 ^ 31) && (- 2 ^ 31 <=? dist) && (dist <? 2 ^ 31)
  then Some (if 1 <? dist then dist else 1) else None.

(* dec_ans.cc:388-421: the constructor.  The special distance table is recomputed on use. *)
Definition reader_create (code : ans_code) : rprog sreader :=
  if use_prefix_code code
  then Ret (SReader (w32 (Z.shiftl ANS_SIGNATURE 16)) 0 0 0 (fun _ => None) false)
  else let! s := rd 32 in Ret (SReader s 0 0 0 (fun _ => None) false).

(* dec_ans.h:197-201: CheckANSFinalState (the production build) *)
Definition check_final_state (r : sreader) : bool := state r =? Z.shiftl ANS_SIGNATURE 16.

(* dec_ans.h:294-298, 343-346: the next value of a copy in progress *)
Definition copy_step (r : sreader) : option (Z * sreader) :=
  do ret <- window r (Z.land (copy_pos r) kWindowMask);
  Some (ret, SReader (state r) (w32 (num_decoded r + 1)) (w32 (num_to_copy r - 1))
               (w32 (copy_pos r + 1))
               (fun i => if i =? Z.land (num_decoded r) kWindowMask then Some ret else window r i)
               (unhealthy r)).

(* dec_ans.h:311-342: the effect of a length and a distance code *)
Definition start_copy (code : ans_code) (distance_multiplier : Z) (r : sreader) (n d : Z)
  : option (Z * sreader) :=
  let num_special := if distance_multiplier =? 0 then 0 else kNumSpecialDistances in
  let num_to_copy := w32 (n + min_length (lz77 code)) in
  do distance <- (if d <? num_special then special_distance d distance_multiplier
                  else Some (w64 (d + 1 - num_special)));
  let distance := if num_decoded r <? distance then num_decoded r else distance in
  let distance := if kWindowSize <? distance then kWindowSize else distance in
  let copy_pos := w32 (num_decoded r - distance) in
  let to_fill := Z.min num_to_copy kWindowSize in
  let window := if distance =? 0
                then fun i => if (0 <=? i) && (i <? to_fill) then Some 0 else window r i
                else window r in
  if num_to_copy <? min_length (lz77 code)
  then Some (0, SReader (state r) (num_decoded r) 0 copy_pos window true)
  else copy_step (SReader (state r) (num_decoded r) num_to_copy copy_pos window (unhealthy r)).

Definition set_state (r : sreader) (s : Z) : sreader :=
  SReader s (num_decoded r) (num_to_copy r) (copy_pos r) (window r) (unhealthy r).

(* dec_ans.h:288-353: ReadHybridUintClusteredInlined<true>; [histo] is a clustered context.
   The threshold is 1 << 20 when LZ77 is off (dec_ans.h:481). [None] is an access out of
   bounds or of uninitialised window memory. *)
Definition read_hybrid_clustered (code : ans_code) (distance_multiplier : Z) (r : sreader)
  (histo : Z) : rprog (option (Z * sreader)) :=
  if 0 <? num_to_copy r then Ret (copy_step r)
  else
    Refill (
      let! t := read_symbol code histo (state r) in
      match t with
      | None => Ret None
      | Some (token, s1) =>
          let threshold := if lz_enabled (lz77 code) then min_symbol (lz77 code) else Z.shiftl 1 20 in
          let r := set_state r s1 in
          if threshold <=? token then
            let! n := hybrid_read (length_uint_config (lz77 code)) (token - threshold) in
            let lz77_ctx := if lz_enabled (lz77 code) then distance_context (lz77 code) else 0 in
            Refill (
              let! t2 := read_symbol code lz77_ctx (state r) in
              match t2, znth (uint_config code) lz77_ctx with
              | Some (d_token, s2), Some cfg =>
                  let! d := hybrid_read cfg d_token in
                  Ret (start_copy code distance_multiplier (set_state r s2) n d)
              | _, _ => Ret None
              end)
          else
            match znth (uint_config code) histo with
            | None => Ret None
            | Some cfg =>
                let! v := hybrid_read cfg token in
                Ret (Some (v,
                  if lz_enabled (lz77 code)
                  then SReader (state r) (w32 (num_decoded r + 1)) (num_to_copy r) (copy_pos r)
                         (fun i => if i =? Z.land (num_decoded r) kWindowMask then Some v else window r i)
                         (unhealthy r)
                  else r))
            end
      end).

(* dec_ans.h:381-384: ReadHybridUint *)
Definition read_hybrid (code : ans_code) (cmap : list Z) (distance_multiplier : Z) (r : sreader)
  (ctx : Z) : rprog (option (Z * sreader)) :=
  match znth cmap ctx with
  | None => Ret None
  | Some h => read_hybrid_clustered code distance_multiplier r h
  end.

(* dec_ans.h:240-256 used by FastDC/RLE paths (ReadHybridUintClusteredHuffRleOnly) is not
   modelled. *)
