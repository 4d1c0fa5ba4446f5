(* Properties C11 (encoder side), C12, C15 and C44: token streams. *)
From Verif Require Import Base BitReaderModel BitProg BitProgProofs HybridUintModel AliasModel AliasSpec AliasProofs
  AnsModel AnsSpec AnsProofs TokProg LzProofs AnsTop AnsCases.

(* ---- C11 ---- *)

(* the encoder's reverse map inverts the slot map *)
Theorem C11_reverse_map : forall h la t,
  slot_map_for h (lookup12 la t) -> Forall (fun v => 0 <= v <= 4096) h -> h <> [] ->
  exists infos, build_info_table la t h = Some infos /\ encoder_info_for h (lookup12 la t) infos.
Proof. exact build_info_right. Qed.
Print Assumptions C11_reverse_map.

(* what the table does is independent of what was in its memory *)
Theorem C11_table_independent_of_memory : forall h la mem mem' t,
  4 <= la <= 8 -> Forall (fun v => 0 <= v) h -> zsum h < 2 ^ 32 -> init_alias_table h la mem = Some t ->
  exists t', init_alias_table h la mem' = Some t' /\ forall v, lookup12 la t v = lookup12 la t' v.
Proof. exact alias_table_memory. Qed.
Print Assumptions C11_table_independent_of_memory.

Example C11_memory_case : 
  option_map (fun t => map (lookup12 5 t) [0; 999; 4095]) (init_alias_table [1000; 0; 3000; 50; 46] 5 mem1)
  = option_map (fun t => map (lookup12 5 t) [0; 999; 4095]) (init_alias_table [1000; 0; 3000; 50; 46] 5 mem2) /\
  option_map (map (fun e => (freq e, ifreq e, reverse_map e 45))) (build_info_table 5 (case_table mem1) case_hist)
  = Some (map (fun i => (256, 2 ^ 36, 128 * i + 45)) [0; 1; 2; 3; 4; 5; 6; 7; 8; 9; 10; 11; 12; 13; 14; 15]).
Proof. vm_compute. split; reflexivity. Qed.

(* ---- C12 ---- *)

(* Multiplying by the reciprocal divides exactly, without overflow, for every state the
   encoder can be in when it codes a symbol of frequency f. *)
Theorem C12_reciprocal_division_exact : forall x f, 0 < f <= 4096 -> 0 <= x < f * 2 ^ 20 ->
  (x * ((2 ^ 44 + f - 1) / f)) / 2 ^ 44 = x / f /\ x * ((2 ^ 44 + f - 1) / f) < 2 ^ 64.
Proof. exact reciprocal. Qed.
Print Assumptions C12_reciprocal_division_exact.

(* Tables built on both sides from the same histogram, over any memory, belong together:
   every symbol of nonzero frequency is codable. *)
Theorem C12_shared_histogram : forall codes dc j h mem mem' t t' infos s f,
  4 <= log_alpha_size dc <= 8 -> is_histogram h ->
  init_alias_table h (log_alpha_size dc) mem = Some t -> znth (alias_tables dc) j = Some t ->
  init_alias_table h (log_alpha_size dc) mem' = Some t' -> build_info_table (log_alpha_size dc) t' h = Some infos ->
  znth (encoding_info codes) j = Some infos -> znth h s = Some f -> 0 < f ->
  ans_codable codes dc j s.
Proof. exact built_tables_match. Qed.
Print Assumptions C12_shared_histogram.

(* Tokens without copies come back, and the reader ends in the final state. *)
Theorem C12_values_come_back : forall codes dc off ts,
  codes_match codes dc -> tokens_ok codes dc off ts -> Forall literal ts -> zlen ts < 2 ^ 32 ->
  exists fs r, write_tokens codes off ts = Some fs /\ Forall field_ok fs /\
    parses (run_stream dc (context_map codes) 0 (read_list (map (fun t => off + context t) ts)))
      (fields_bits fs) (Some (map value ts, r)) /\
    check_final_state r = true /\ unhealthy r = false.
Proof. exact literals_round_trip. Qed.
Print Assumptions C12_values_come_back.

(* ---- C15 ---- *)

(* With copies: a reader that is a program p whose contexts may depend on earlier values
   computes from the stream what it computes from the expanded values. *)
Theorem C15_copies_are_expanded : forall A codes dc off dm ts (p : tprog A) l a,
  codes_match codes dc -> tokens_ok codes dc off ts -> 0 <= dm < 2 ^ 28 ->
  expand (min_length (e_lz77 codes)) dm off [] ts = Some l -> zlen l < 2 ^ 32 ->
  run_toks (zlen (context_map codes)) p l = Some (a, []) ->
  exists fs r, write_tokens codes off ts = Some fs /\ Forall field_ok fs /\
    parses (run_stream dc (context_map codes) dm p) (fields_bits fs) (Some (a, r)) /\
    check_final_state r = true /\ unhealthy r = false /\ num_to_copy r = 0.
Proof. exact @write_read. Qed.
Print Assumptions C15_copies_are_expanded.

(* the same through the BitReader, from bytes *)
Theorem C15_from_bytes : forall A codes dc off dm ts (p : tprog A) l a,
  codes_match codes dc -> tokens_ok codes dc off ts -> 0 <= dm < 2 ^ 28 ->
  expand (min_length (e_lz77 codes)) dm off [] ts = Some l -> zlen l < 2 ^ 32 ->
  run_toks (zlen (context_map codes)) p l = Some (a, []) ->
  exists fs, write_tokens codes off ts = Some fs /\
    forall bs pad, bytes_ok bs -> bytes_bits bs = fields_bits fs ++ pad ->
    exists r0 r1 r, reader_init bs = Some r0 /\
      run_reader bs r0 (run_stream dc (context_map codes) dm p) = Some (Some (a, r), r1) /\
      total_bits_consumed r1 = zlen (fields_bits fs) /\ all_reads_within_bounds bs r1 = true /\
      check_final_state r = true /\ unhealthy r = false.
Proof. exact @write_read_bytes. Qed.
Print Assumptions C15_from_bytes.

(* Two literals, a copy of 7 values from distance 2 (overlapping itself), a literal. *)
Example C15_case :
  codes_match case_codes case_dec /\ tokens_ok case_codes case_dec 0 case_tokens /\
  expand 3 0 0 [] case_tokens = Some
    [(Some 0, 3); (Some 1, 5); (Some 0, 3); (None, 5); (None, 3); (None, 5); (None, 3); (None, 5); (None, 3); (Some 0, 9)] /\
  run_toks 3 (read_list [0; 1; 0; 2; 1; 0; 0; 0; 1; 0])
    [(Some 0, 3); (Some 1, 5); (Some 0, 3); (None, 5); (None, 3); (None, 5); (None, 3); (None, 5); (None, 3); (Some 0, 9)]
  = Some ([3; 5; 3; 5; 3; 5; 3; 5; 3; 9], []).
Proof. split; [exact case_matches|]. split; [exact case_tokens_ok|]. split; reflexivity. Qed.

Example C15_case_run :
  match write_tokens case_codes 0 case_tokens with
  | Some fs =>
      match run_bits (fields_bits fs) 0 0 (run_stream case_dec [0; 1; 1] 0 (read_list [0; 1; 0; 2; 1; 0; 0; 0; 1; 0])) with
      | Some (Some (l, r), _) => l = [3; 5; 3; 5; 3; 5; 3; 5; 3; 9] /\ state r = 0x130000
      | _ => False
      end
  | None => False
  end.
Proof. vm_compute. split; reflexivity. Qed.

(* a copy before anything was decoded yields zeros; distances are limited to the history *)
Example C15_copied_cases : copied 3 5 [] = [0; 0; 0] /\ copied 3 500 [7; 8] = [7; 8; 7] /\ distance_of 100 3 = 99 /\
  distance_of 100 120 = 1 /\ distance_of 0 3 = 4.
Proof. repeat split. Qed.

(* ---- C44 ---- *)

(* Whatever the bits are: reading any number of values, in any contexts the context map has,
   never reads past the buffered bits, outside a table or from an unwritten part of the
   window (those are None in the model), and the values are 32-bit numbers. *)
Theorem C44_any_stream_is_safe : forall A dc cmap dm (p : tprog A),
  reader_safe dc cmap -> 0 <= dm < 2 ^ 28 -> contexts_below (zlen cmap) p ->
  forall s pos av, 0 <= pos -> 0 <= av <= 56 ->
  exists a r pos' av' vs, run_bits s pos av (run_stream dc cmap dm p) = Some (Some (a, r), (pos', av')) /\
    run_toks (zlen cmap) p (unplaced vs) = Some (a, []) /\ Forall is_u32 vs /\ pos <= pos' /\ 0 <= av' <= 56.
Proof. exact @stream_safe. Qed.
Print Assumptions C44_any_stream_is_safe.

(* alias tables are safe *)
Theorem C44_alias_tables_are_safe : forall dc h j mem t,
  use_prefix_code dc = false -> 4 <= log_alpha_size dc <= 8 -> is_histogram h -> zlen h <= 2 ^ 20 ->
  init_alias_table h (log_alpha_size dc) mem = Some t -> znth (alias_tables dc) j = Some t -> symbol_safe dc j.
Proof. exact ans_safe. Qed.
Print Assumptions C44_alias_tables_are_safe.

Example C44_case : reader_safe case_dec (context_map case_codes) /\ contexts_below 3 (read_list [0; 2; 1]).
Proof. split; [exact case_safe|]. cbn. repeat (constructor; [lia|intros ?]). constructor. Qed.
