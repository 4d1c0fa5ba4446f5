(* Model of the whole description of an entropy code in the stream: lib/jxl/enc_ans.cc
   (BuildAndEncodeHistograms, BuildAndStoreEntropyCodes), lib/jxl/enc_context_map.cc,
   lib/jxl/dec_ans.cc (DecodeHistograms, DecodeANSCodes), lib/jxl/dec_context_map.cc.
   The reader returns [None] for undefined behaviour, [Some None] for a refusal,
   [Some (Some r)] for success.  The writer returns [None] for undefined behaviour and for
   refusals. *)
From Verif Require Import Base BitProg FieldsModel BundleModel HeadersModel HybridUintModel.
From Verif Require Export Arr AliasModel AnsModel TokProg HistoModel HuffTreeModel HuffCreateModel MtfModel.

(* dec_ans.cc:312-321 LZ77Params::VisitFields; members: 0 enabled, 1 min_symbol, 2 min_length *)
Definition LZ77Params : prog :=
  steps [ FBool 0 0;
          If (isset 0)
             (steps [ FU32 (Val 224) (Val 512) (Val 4096) (BitsOffset 15 8) 224 1;
                      FU32 (Val 3) (Val 4) (BitsOffset 2 5) (BitsOffset 8 9) 3 2 ]) Done ].
Definition lz_env (lz : lz77_params) : env :=
  fun x => if x =? 0 then b2z (lz_enabled lz) else if x =? 1 then min_symbol lz else if x =? 2 then min_length lz else 0.

(* dec_ans.cc:309, dec_ans.h:118: a new LZ77Params *)
Definition lz_init : lz77_params := LZ77 false 224 3 (HC 0 0 0) 0.

(* ---- reading ---- *)

(* What the decoder finds in memory it has not initialised, and its vector length. *)
Record machine := Machine {
  m_lanes : Z; m_mtf : Z -> Z; m_alias : Z -> entry; m_huff : Z -> Z * Z; m_offset : Z -> Z }.

(* dec_ans.h:153-167: the ANSCode with its other members, and the context map *)
Record decoded := Decoded { d_code : ans_code; d_map : list Z; max_num_bits : Z; degenerate : list Z }.

(* dec_ans.cc:323-346 UpdateMaxNumBits (size_t arithmetic; n_extra_bits is a uint32_t) *)
Definition update_max_num_bits (lz : lz77_params) (cfgs : list hconfig) (ctx symbol maxb : Z) : option Z :=
  do cfg <- znth cfgs ctx;
  let as_length := lz_enabled lz && negb (distance_context lz =? ctx) && (min_symbol lz <=? symbol) in
  let symbol := if as_length then symbol - min_symbol lz else symbol in
  let cfg := if as_length then length_uint_config lz else cfg in
  if symbol <? split_token cfg then Some (Z.max maxb (split_exponent cfg))
  else
    let n_extra_bits := w32 (split_exponent cfg - (msb_in_token cfg + lsb_in_token cfg)
                         + Z.shiftr (symbol - split_token cfg) (msb_in_token cfg + lsb_in_token cfg)) in
    Some (Z.max maxb (msb_in_token cfg + lsb_in_token cfg + n_extra_bits + 1)).

Fixpoint update_all (lz : lz77_params) (cfgs : list hconfig) (ctx : Z) (symbols : list Z) (maxb : Z) : option Z :=
  match symbols with
  | [] => Some maxb
  | s :: l => do maxb <- update_max_num_bits lz cfgs ctx s maxb; update_all lz cfgs ctx l maxb
  end.

(* dec_ans.cc:223-227: the values of the table entries that are not pointers *)
Definition table_symbols (t : htable) : list Z :=
  map (fun i => snd (snd t i))
    (filter (fun i => fst (snd t i) <=? kHuffmanTableBits) (zseq 0 (Z.to_nat (fst t)))).

(* dec_ans.cc:205-210: the alphabet sizes, stored as uint16_t *)
Fixpoint read_sizes (n : nat) (max_alphabet_size : Z) : rprog (option (list Z)) :=
  match n with
  | O => Ret (Some [])
  | S n' =>
      let! v := decode_var_len 4 in
      let size := w16 (v + 1) in
      if max_alphabet_size <? size then Ret None
      else
        let! l := read_sizes n' max_alphabet_size in
        Ret (option_map (cons size) l)
  end.

(* dec_ans.cc:211-228: the tables and max_num_bits; [c] is the number of the first one *)
Fixpoint read_tables (M : machine) (lz : lz77_params) (cfgs : list hconfig) (sizes : list Z) (c maxb : Z)
  : rprog (option (option (list htable * Z))) :=
  match sizes with
  | [] => Ret (Some (Some ([], maxb)))
  | size :: sizes' =>
      let! r := (if 1 <? size then read_from_bit_stream (m_huff M) (m_offset M) size
                 else Ret (Some (Some (Z.shiftl 1 kHuffmanTableBits, fun _ => (0, 0))))) in
      match r with
      | None => Ret None
      | Some None => Ret (Some None)
      | Some (Some t) =>
          match update_all lz cfgs c (table_symbols t) maxb with
          | None => Ret None
          | Some maxb =>
              let! rest := read_tables M lz cfgs sizes' (c + 1) maxb in
              Ret (option_map (option_map (fun x => (t :: fst x, snd x))) rest)
          end
      end
  end.

(* dec_ans.cc:244-261: the symbols that occur; the degenerate symbol, or -1 *)
Definition symbols_of (counts : list Z) : list Z :=
  filter (fun s => negb (nth (Z.to_nat s) counts 0 =? 0)) (zseq 0 (length counts)).
Definition degenerate_of (counts : list Z) : Z :=
  let d := match counts with [] => 0 | _ => zlen counts - 1 end in
  if forallb (Z.eqb 0) (firstn (Z.to_nat d) counts) then d else -1.

(* dec_ans.cc:234-265: the alias tables, max_num_bits and degenerate_symbols *)
Fixpoint read_alias_tables (M : machine) (la : Z) (lz : lz77_params) (cfgs : list hconfig) (n : nat) (c maxb : Z)
  : rprog (option (option (list (Z -> entry) * Z * list Z))) :=
  match n with
  | O => Ret (Some (Some ([], maxb, [])))
  | S n' =>
      let! r := read_histogram in
      match r with
      | None => Ret None
      | Some None => Ret (Some None)
      | Some (Some counts) =>
          if Z.shiftl 1 la <? zlen counts then Ret (Some None)
          else
            let counts := pop_trailing_zeros counts in
            match update_all lz cfgs c (symbols_of counts) maxb, init_alias_table counts la (m_alias M) with
            | Some maxb, Some t =>
                let! rest := read_alias_tables M la lz cfgs n' (c + 1) maxb in
                Ret (option_map (option_map (fun x =>
                  let '(ts, maxb, ds) := x in (t :: ts, maxb, degenerate_of counts :: ds))) rest)
            | _, _ => Ret None
            end
      end
  end.

(* dec_ans.cc:195-270 DecodeANSCodes.  The two JXL_ENSURE on max_alphabet_size hold because
   log_alpha_size is 15 for prefix codes and at most 8 otherwise; allocation does not fail. *)
Definition decode_ans_codes (M : machine) (prefix : bool) (la : Z) (lz : lz77_params) (cfgs : list hconfig) (cmap : list Z)
  : rprog (option (option decoded)) :=
  let n := length cfgs in
  if prefix then
    let! sizes := read_sizes n (Z.shiftl 1 la) in
    match sizes with
    | None => Ret (Some None)
    | Some sizes =>
        let! r := read_tables M lz cfgs sizes 0 0 in
        Ret (option_map (option_map (fun x =>
          Decoded (AnsCode [] (fst x) true la cfgs lz) cmap (snd x) (repeat (-1) n))) r)
    end
  else
    let! r := read_alias_tables M la lz cfgs n 0 0 in
    Ret (option_map (option_map (fun x =>
      let '(ts, maxb, ds) := x in Decoded (AnsCode ts [] false la cfgs lz) cmap maxb ds)) r).

(* dec_context_map.cc:27-45 VerifyContextMap: the distinct entries are counted *)
Fixpoint count_distinct (seen : list Z) (l : list Z) : Z :=
  match l with
  | [] => 0
  | x :: l' => if existsb (Z.eqb x) seen then count_distinct seen l' else 1 + count_distinct (x :: seen) l'
  end.
Definition verify_context_map (l : list Z) (num_htrees : Z) : bool :=
  forallb (fun x => x <? num_htrees) l && (count_distinct [] l =? num_htrees).

(* dec_context_map.cc:57-59: the entries of a simple map *)
Fixpoint read_entries (n : nat) (bits_per_entry : Z) : rprog (list Z) :=
  match n with
  | O => Ret []
  | S n' => let! v := rd bits_per_entry in let! l := read_entries n' bits_per_entry in Ret (v :: l)
  end.

(* dec_context_map.cc:97-98; the map is not empty *)
Definition finish_map (l : list Z) : option (option (list Z * Z)) :=
  let num_htrees := fold_right Z.max 0 l + 1 in
  if verify_context_map l num_htrees then Some (Some (l, num_htrees)) else Some None.

(* dec_context_map.cc:49-99 DecodeContextMap of [n] entries; [hists] is DecodeHistograms for
   one context, given disallow_lz77 *)
Definition decode_context_map (M : machine) (hists : bool -> rprog (option (option decoded))) (n : nat)
  : rprog (option (option (list Z * Z))) :=
  let! is_simple := rd 1 in
  if is_simple =? 1 then
    let! bits_per_entry := rd 2 in
    if bits_per_entry =? 0 then Ret (finish_map (repeat 0 n))
    else let! l := read_entries n bits_per_entry in Ret (finish_map l)
  else
    let! use_mtf := rd 1 in
    let! h := hists (Z.of_nat n <=? 2) in
    match h with
    | None => Ret None
    | Some None => Ret (Some None)
    | Some (Some d) =>
        let! r := run_stream (d_code d) (d_map d) 0 (read_list (repeat 0 n)) in
        match r with
        | None => Ret None
        | Some (l, reader) =>
            if existsb (fun sym => 256 <=? sym) l then Ret (Some None)
            else if negb (check_final_state reader) then Ret (Some None)
            else
              let l := map w8 l in
              Ret (if use_mtf =? 1 then
                     do l <- inverse_mtf (m_lanes M) (m_mtf M) l; finish_map l
                   else finish_map l)
        end
    end.

(* dec_ans.cc:348-386 DecodeHistograms; [maps] is DecodeContextMap.  Simplification: the
   vector context_map is empty before, so that without a map its entry is 0. *)
Definition decode_codes (M : machine) (maps : nat -> rprog (option (option (list Z * Z)))) (num_contexts : nat) (disallow_lz77 : bool)
  : rprog (option (option decoded)) :=
  let! o := bundle_read LZ77Params (lz_env lz_init) in
  match o with
  | Invalid | NeedMore => Ret (Some None)
  | Loaded s =>
      let enabled := negb (s 0 =? 0) in
      let! cfg := (if enabled then uint_config_read 8 else Ret (Some (length_uint_config lz_init))) in
      match cfg with
      | None => Ret (Some None)
      | Some length_config =>
          let num_contexts := if enabled then S num_contexts else num_contexts in
          if enabled && disallow_lz77 then Ret (Some None)
          else
            let! m := (if (1 <? Z.of_nat num_contexts) then maps num_contexts
                       else Ret (Some (Some (repeat 0 num_contexts, 1)))) in
            match m with
            | None => Ret None
            | Some None => Ret (Some None)
            | Some (Some (cmap, num_histograms)) =>
                let lz := LZ77 enabled (s 1) (s 2) length_config (last cmap 0) in
                let! prefix := rd 1 in
                let! la := (if prefix =? 1 then Ret 15 else let! b := rd 2 in Ret (b + 5)) in
                let! cfgs := uint_configs_read la (Z.to_nat num_histograms) in
                match cfgs with
                | None => Ret (Some None)
                | Some cfgs => decode_ans_codes M (prefix =? 1) la lz cfgs cmap
                end
            end
      end
  end.

(* The two functions call each other; [fuel] is the depth of the calls.  With the fuel used
   up the result is [None]. *)
Fixpoint decode_histograms (M : machine) (fuel : nat) (num_contexts : nat) (disallow_lz77 : bool) : rprog (option (option decoded)) :=
  match fuel with
  | O => Ret None
  | S fuel' => decode_codes M (decode_context_map M (decode_histograms M fuel' 1)) num_contexts disallow_lz77
  end.

(* ---- writing ---- *)

(* What the encoder decided and measured before it writes: the parameters of the copies, the
   clustering of the contexts (context_map), the kind of code, log_alpha_size, the configurations
   and the clustered histograms (for ANS: as ComputeBest normalized them).  How it decides is
   not modelled. *)
Record plan := Plan {
  p_lz : lz77_params; p_map : list Z; p_prefix : bool; p_log_alpha : Z; p_configs : list hconfig;
  p_histograms : list (list Z); p_normalized : list ehist }.

(* How a context map is written: as entries of equal width, or with move-to-front or without as
   tokens [ts] with a code of their own, whose own context map is written as [mp] says. *)
Inductive map_plan :=
| MSimple
| MCoded (use_mtf : bool) (q : plan) (ts : list token) (mp : map_plan).

(* enc_ans_params.h:160-167 Histogram::alphabet_size *)
Definition histogram_size (counts : list Z) : Z := zlen (pop_trailing_zeros counts).

(* enc_ans.cc:626-663 BuildAndStoreANSEncodingData with prefix codes; the table has one entry
   per symbol of the alphabet, initially zero *)
Definition store_prefix (counts : list Z) : option (list (Z * Z) * list sym_info) :=
  let size := histogram_size counts in
  let info d b := SymInfo 0 (fun _ => 0) 0 d (if d =? 0 then 0 else b) in
  if size <=? 1 then Some ([], repeat (info 0 0) (Z.to_nat size))
  else
    do (fs, depths, bits) <- build_and_store_huffman_tree (firstn (Z.to_nat size) counts);
    Some (fs, map (fun x => info (fst x) (snd x)) (combine depths bits)).

(* enc_ans.cc:664-683: the same with ANS; [mem] is the content of the array a.  Encode writes
   the histogram; the table has alphabet_size entries, ANSBuildInfoTable writes the first one
   even if there is none. *)
Definition store_ans (mem : Z -> entry) (la : Z) (h : ehist) : option (list (Z * Z) * list sym_info) :=
  do t <- init_alias_table (e_counts h) la mem;
  if alphabet_size h <=? 0 then None
  else
    do infos <- build_info_table la t (firstn (Z.to_nat (alphabet_size h)) (e_counts h));
    do fs <- encode_histogram h;
    Some (fs, infos).

Fixpoint store_all {A} (f : A -> option (list (Z * Z) * list sym_info)) (l : list A) : option (list (Z * Z) * list (list sym_info)) :=
  match l with
  | [] => Some ([], [])
  | h :: l' =>
      do (fs, info) <- f h;
      do (fs', infos) <- store_all f l';
      Some (fs ++ fs', info :: infos)
  end.

(* enc_ans.cc:1088-1230 BuildAndEncodeHistograms and 915-1020 BuildAndStoreEntropyCodes, not in
   streaming mode, with a writer; [wm] is EncodeContextMap *)
Definition encode_codes (mem : Z -> entry) (wm : list Z -> Z -> option (list (Z * Z))) (p : plan) : option (list (Z * Z) * enc_codes) :=
  do (_, lz_fields) <- bundle_write LZ77Params (lz_env (p_lz p));
  let length_fields := if lz_enabled (p_lz p) then uint_config_write 8 (length_uint_config (p_lz p)) else [] in
  let num_histograms := if p_prefix p then zlen (p_histograms p) else zlen (p_normalized p) in
  do map_fields <- (if 1 <? zlen (p_map p) then wm (p_map p) num_histograms else Some []);
  let kind := (1, b2z (p_prefix p)) :: (if p_prefix p then [] else [(2, p_log_alpha p - 5)]) in
  let sizes := if p_prefix p
               then flat_map (fun c => store_var_len 4 (Z.max 1 (histogram_size c) - 1)) (p_histograms p) else [] in
  do (fs, infos) <- (if p_prefix p then store_all store_prefix (p_histograms p)
                     else store_all (store_ans mem (p_log_alpha p)) (p_normalized p));
  Some (lz_fields ++ length_fields ++ map_fields ++ kind ++ uint_configs_write (p_log_alpha p) (p_configs p) ++ sizes ++ fs,
        EncCodes infos (p_prefix p) (p_configs p) (p_lz p) (p_map p)).

(* enc_context_map.cc:66-139 EncodeContextMap *)
Fixpoint encode_map (mem : Z -> entry) (mp : map_plan) (cmap : list Z) (num_histograms : Z) : option (list (Z * Z)) :=
  if num_histograms =? 1 then Some [(1, 1); (2, 0)]
  else
    match mp with
    | MSimple =>
        let entry_bits := ceil_log2 num_histograms in
        Some ((1, 1) :: (2, entry_bits) :: map (fun e => (entry_bits, e)) cmap)
    | MCoded use_mtf q ts mp' =>
        do (fs, codes) <- encode_codes mem (encode_map mem mp') q;
        do ws <- write_tokens codes 0 ts;
        Some ((1, 0) :: (1, b2z use_mtf) :: fs ++ ws)
    end.

Definition encode_histograms (mem : Z -> entry) (mp : map_plan) (p : plan) : option (list (Z * Z) * enc_codes) :=
  encode_codes mem (encode_map mem mp) p.
