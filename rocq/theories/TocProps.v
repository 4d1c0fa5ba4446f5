(* C18, C48, C49: the table of contents of a frame and the order of its sections. *)
From Verif Require Import Base BitReaderModel BitReaderSpec BitProg BitProgProofs HybridUintModel HybridUintSpec AnsModel HistoSpec MtfSpec CodesModel CodesSpec
  TocModel LehmerSpec TocSpec PermProofs TocRead TocLayout TocEnc TocGap TocTop CodesProps.

(* ---- C18 ---- *)

(* Any frame header, then the table of contents the encoder writes, then the sections in the order of
   the codestream: reading the bytes gives offsets and sizes at which each section i is found. *)
Theorem C18_sections_found : forall (H : Type) (hdr : rprog H) hbits h M mem mp p ts perm coded codes stored,
  lane_count (m_lanes M) -> parses hdr hbits h -> 0 < zlen codes <= 65536 -> Forall (fun g => bytes_ok g /\ zlen g <= max_section) codes ->
  (perm = [] \/ is_permutation (zlen codes) perm /\ exists raw, tokenize_permutation perm 0 = Some raw /\ coding_of kPermutationContexts mp p ts raw /\ coded = encode_with_plan mem mp p ts) ->
  permute_groups perm codes = Some stored ->
  exists fs, write_toc (zlen hbits) perm coded (map zlen stored) = Some fs /\ Forall field_ok fs /\
    forall bs rest, bytes_ok bs -> bytes_bits bs = hbits ++ fields_bits fs ++ bytes_bits (concat stored) ++ rest ->
    exists r0 r1 offs szs, reader_init bs = Some r0 /\
      run_reader bs r0 (frame_reader hdr M (zlen bs) (length codes)) = Some ((h, Some (Offsets offs szs (zlen (concat stored)))), r1) /\
      all_reads_within_bounds bs r1 = true /\ total_bits_consumed r1 mod 8 = 0 /\
      forall i g, znth codes i = Some g -> exists o, znth offs i = Some o /\ znth szs i = Some (zlen g) /\
        slice bs (total_bits_consumed r1 / 8 + o) (zlen g) = g.
Proof. exact @frame_sections. Qed.
Print Assumptions C18_sections_found.

(* Whatever the bits are, the sections of an accepted table share out the bytes behind it. *)
Theorem C18_any_bits : forall M total n, lane_count (m_lanes M) -> forall s pos av, 0 <= pos -> 0 <= av <= 56 ->
  exists o pos' av', run_bits s pos av (read_group_offsets M total n) = Some (Some o, (pos', av')) /\ pos <= pos' /\ 0 <= av' <= 56 /\
    forall offsets sizes total_size, o = Offsets offsets sizes total_size ->
      0 < Z.of_nat n <= 65536 /\ length sizes = n /\ share_out offsets sizes total_size /\ 0 <= total_size < 2 ^ 47 /\ pos' mod 8 = 0 /\ pos' <= zlen s.
Proof. exact any_group_offsets. Qed.
Print Assumptions C18_any_bits.

(* For any sizes and any permutation: the sections share out the total, or the total does not fit
   64 bits and is refused. *)
Theorem C18_sections_share_out : forall sizes perm, Forall (fun s => 0 <= s < 2 ^ 32) sizes -> (perm = [] \/ is_permutation (zlen sizes) perm) -> total_of sizes < 2 ^ 64 ->
  exists offs szs, group_offsets (TocOk sizes perm) = Some (Offsets offs szs (total_of sizes)) /\ zlen szs = zlen sizes /\ share_out offs szs (total_of sizes).
Proof. exact offsets_share. Qed.
Print Assumptions C18_sections_share_out.
Theorem C18_overflow_refused : forall sizes perm, Forall (fun s => 0 <= s < 2 ^ 32) sizes -> (perm = [] \/ is_permutation (zlen sizes) perm) -> 2 ^ 64 <= total_of sizes ->
  group_offsets (TocOk sizes perm) = Some OffsetsFail.
Proof. exact (fun sizes perm F P => proj2 (offsets_spec sizes perm F P)). Qed.
Print Assumptions C18_overflow_refused.

(* The frame decoder's list of sections in the order of the codestream gives to each the id under
   which its offset and size are listed. *)
Theorem C18_frame_toc : forall M total n, lane_count (m_lanes M) -> forall s pos av sizes perm pos' av', 0 <= pos -> 0 <= av <= 56 ->
  run_bits s pos av (read_toc M total n) = Some (Some (TocOk sizes perm), (pos', av')) ->
  exists offs szs ids, group_offsets (TocOk sizes perm) = Some (Offsets offs szs (total_of sizes)) /\ frame_toc sizes perm = Some (Some (ids, total_of sizes)) /\
    forall j, 0 <= j < zlen sizes -> 0 <= ids j < zlen sizes /\ znth szs (ids j) = znth sizes j /\ znth offs (ids j) = Some (total_of (firstn (Z.to_nat j) sizes)).
Proof. exact any_frame_toc. Qed.
Print Assumptions C18_frame_toc.

(* Permutations in the codestream come back, and only permutations are accepted. *)
Theorem C18_permutation_roundtrip : forall M mem mp p ts perm skip n, lane_count (m_lanes M) -> 0 < n <= 2 ^ 30 -> is_permutation n perm -> 0 <= skip <= n -> fixes skip perm ->
  exists raw, tokenize_permutation perm skip = Some raw /\
    (coding_of kPermutationContexts mp p ts raw ->
     exists fs, encode_with_plan mem mp p ts = Some fs /\ Forall field_ok fs /\
       parses (decode_permutation M skip n) (fields_bits fs) (Some (Some perm))).
Proof. exact permutation_roundtrip. Qed.
Print Assumptions C18_permutation_roundtrip.
Theorem C18_any_permutation : forall M skip size, lane_count (m_lanes M) -> 0 < size <= 2 ^ 30 -> 0 <= skip <= size ->
  forall s pos av, 0 <= pos -> 0 <= av <= 56 ->
  exists r pos' av', run_bits s pos av (decode_permutation M skip size) = Some (r, (pos', av')) /\
    (exists o, r = Some o /\ forall perm, o = Some perm -> is_permutation size perm /\ fixes skip perm) /\ pos <= pos' /\ 0 <= av' <= 56.
Proof. exact decode_permutation_ends. Qed.
Print Assumptions C18_any_permutation.

(* Each section has its own number, and each number below that of entries is that of a section. *)
Theorem C18_numbering : forall ng ndc np, 0 < ng -> 0 <= ndc -> 0 <= np ->
  (forall s, is_section ng ndc np s -> 0 <= id_of_section ng ndc s < 2 + ndc + np * ng /\ section_of_id ng ndc (id_of_section ng ndc s) = s) /\
  (forall id, 0 <= id < 2 + ndc + np * ng -> is_section ng ndc np (section_of_id ng ndc id) /\ id_of_section ng ndc (section_of_id ng ndc id) = id).
Proof. exact section_numbering. Qed.
Print Assumptions C18_numbering.
Theorem C18_number_of_entries : forall ng ndc np, 0 <= ng -> 0 <= ndc -> 0 <= np -> 2 + ndc + np * ng < 2 ^ 64 -> (ng =? 1) && (np =? 1) = false -> num_toc_entries ng ndc np = 2 + ndc + np * ng.
Proof. exact entry_count. Qed.
Print Assumptions C18_number_of_entries.

(* Not so: that a section too large for the table is refused by the encoder. *)
Theorem C18_too_large_refuted : exists pos sizes fs, write_toc_sizes pos sizes = Some fs /\ write_toc_sizes pos (map (fun s => s - 2 ^ 32) sizes) = Some fs /\
  Forall (fun s => 2 ^ 32 <= s) sizes /\ sizes <> [].
Proof. exact toc_size_wraps. Qed.
Print Assumptions C18_too_large_refuted.

(* a case: three sections, stored in another order *)
Definition toc_plan : plan := Plan (LZ77 false 224 3 (HC 0 0 0) 0) (repeat 0 8) true 15 [HC 4 2 0] [[0; 1; 1]] [].
Definition toc_tokens : list token := [Token false 2 1; Token false 0 2].
Example C18_case : is_permutation 3 [2; 0; 1] /\ tokenize_permutation [2; 0; 1] 0 = Some toc_tokens /\ coding_of kPermutationContexts MSimple toc_plan toc_tokens toc_tokens /\
  permute_groups [2; 0; 1] [[1]; [2; 2]; [3; 3; 3]] = Some [[2; 2]; [3; 3; 3]; [1]].
Proof.
  split; [|split; [reflexivity|split; [|reflexivity]]].
  - split; [reflexivity|]. split; [repeat constructor; cbn; lia|]. intros v. cbn. lia.
  - split; [|split; [|split]].
    + split; [discriminate|]. split; [reflexivity|]. split; [split; [cbn; lia|]; intros h; cbn; lia|]. split; [repeat (apply Forall_cons; [unfold hconfig_codable; cbn; lia|]); apply Forall_nil|].
      cbn [histograms_ok p_prefix toc_plan p_log_alpha p_histograms p_configs]. split; [reflexivity|]. split; [reflexivity|]. constructor; [|constructor]. split; [cbn; lia|]. exists 2. split; [repeat constructor; lia|]. cbn; lia.
    + intros _. left. reflexivity.
    + repeat (eapply pl_literal; [split; [unfold is_u32; cbn; lia|]; split; [reflexivity|]; do 4 eexists; split; [reflexivity|]; split; [reflexivity|]; split; [reflexivity|]; split; [cbn; lia|]; eexists; split; [reflexivity|]; split; vm_compute; [split; [discriminate|reflexivity]|reflexivity]|cbn; lia|]).
      apply pl_nil.
    + eexists. split; [reflexivity|]. repeat constructor.
Qed.
(* the same case, run: a header of 5 bits; bytes of another frame follow *)
Example C18_case_run :
  match write_toc 5 [2; 0; 1] (encode_with_plan (fun _ => Entry 0 0 0 0 0) MSimple toc_plan toc_tokens) [2; 3; 1] with
  | Some fs =>
      match run_bits ([true; false; true; true; false] ++ fields_bits fs ++ bytes_bits [2; 2; 3; 3; 3; 1; 77]) 0 0
              (frame_reader (rd 5) case_machine ((5 + zlen (fields_bits fs)) / 8 + 7) 3) with
      | Some ((h, Some (Offsets offs szs t)), (pos, _)) => h = 13 /\ offs = [5; 0; 2] /\ szs = [1; 2; 3] /\ t = 6 /\ pos = 5 + zlen (fields_bits fs) /\ (5 + zlen (fields_bits fs)) mod 8 = 0
      | _ => False
      end
  | None => False
  end.
Proof. vm_compute. repeat split. Qed.
Example C18_case_numbering : num_toc_entries 9 1 2 = 21 /\ section_of_id 9 1 0 = DcGlobal /\ section_of_id 9 1 1 = DcGroup 0 /\ section_of_id 9 1 2 = AcGlobal /\ section_of_id 9 1 14 = AcGroup 1 2.
Proof. repeat split. Qed.

(* ---- C48 ---- *)

(* With streaming output the sections but the first are written behind a gap before their sizes are
   known.  Whatever the sizes of the other sections will be: the checks of the encoder pass, the
   padding is not negative, and frame header, table of contents (of the length that is written),
   the first section and the padding fill the gap exactly. *)
Theorem C48_gap_filled : forall fh dc others, 0 <= fh -> 0 <= dc ->
  exists mins off, group_data_offset fh dc (1 + zlen others) = Some (mins, off) /\ dc <= mins /\
    (off < 2 ^ 64 ->
     let pad := dc_global_padding dc others fh off mins in
     0 <= pad /\ fh + toc_size ((dc + pad) :: others) + dc + pad = off /\
     (sizes_ok ((dc + pad) :: others) -> forall pos, pos mod 8 = 0 ->
       exists fs, write_toc_sizes pos ((dc + pad) :: others) = Some fs /\ zlen (fields_bits fs) = 8 * toc_size ((dc + pad) :: others))).
Proof. exact gap_filled. Qed.
Print Assumptions C48_gap_filled.

Example C48_case : group_data_offset 20 1000 12 = Some (1024, 20 + 46 + 1024) /\
  dc_global_padding 1000 [5; 2000; 30000; 5000000; 0; 0; 0; 0; 0; 0; 1023] 20 1090 1024 = 46 + 24 - 23 /\ toc_size (1047 :: [5; 2000; 30000; 5000000; 0; 0; 0; 0; 0; 0; 1023]) = 23 /\
  sizes_ok (1047 :: [5; 2000; 30000; 5000000; 0; 0; 0; 0; 0; 0; 1023]).
Proof. split; [reflexivity|]. split; [reflexivity|]. split; [reflexivity|]. unfold sizes_ok, max_section. repeat (apply Forall_cons; [lia|]). apply Forall_nil. Qed.

(* ---- C49 ---- *)

Definition groups (size group_size : Z) : Z := (size + group_size - 1) / group_size.

(* With streaming, for any frame: the encoder's own check passes, what it announces is a permutation
   of all sections, and the section produced as number k is announced at position k. *)
Theorem C49_streaming_permutation : forall xsize ysize group_size num_passes, 0 < xsize -> 0 < ysize -> 0 < group_size -> 0 <= num_passes ->
  let n := 2 + groups xsize (group_size * 8) * groups ysize (group_size * 8) + num_passes * (groups xsize group_size * groups ysize group_size) in
  n < 2 ^ 64 ->
  exists perm, streaming_permutation xsize ysize group_size num_passes = Some perm /\ is_permutation n perm /\
    forall k id, znth (streaming_order (groups xsize group_size) (groups ysize group_size) (groups xsize (group_size * 8)) (groups ysize (group_size * 8)) num_passes) k = Some id -> znth perm id = Some k.
Proof. exact streaming_permutation_is. Qed.
Print Assumptions C49_streaming_permutation.
Theorem C49_production_order : forall xsize ysize group_size num_passes, 0 < xsize -> 0 < ysize -> 0 < group_size ->
  emission_order xsize ysize group_size num_passes =
  streaming_order (groups xsize group_size) (groups ysize group_size) (groups xsize (group_size * 8)) (groups ysize (group_size * 8)) num_passes.
Proof. exact emission_is_order. Qed.
Print Assumptions C49_production_order.
Theorem C49_all_sections : forall xsize ysize group_size num_passes, 0 < xsize -> 0 < ysize -> 0 < group_size -> 0 <= num_passes ->
  2 + groups xsize (group_size * 8) * groups ysize (group_size * 8) + num_passes * (groups xsize group_size * groups ysize group_size) < 2 ^ 64 ->
  is_permutation (2 + groups xsize (group_size * 8) * groups ysize (group_size * 8) + num_passes * (groups xsize group_size * groups ysize group_size))
    (streaming_order (groups xsize group_size) (groups ysize group_size) (groups xsize (group_size * 8)) (groups ysize (group_size * 8)) num_passes).
Proof. exact frame_order. Qed.
Print Assumptions C49_all_sections.

(* Without streaming output, each section goes to the place of its number. *)
Theorem C49_buffered : forall xsize ysize group_size, 0 < xsize -> 0 < ysize -> 0 < group_size ->
  2 + groups xsize (group_size * 8) * groups ysize (group_size * 8) + 1 * (groups xsize group_size * groups ysize group_size) < 2 ^ 64 ->
  buffered_places xsize ysize group_size = emission_order xsize ysize group_size 1.
Proof. exact buffered_is_emission. Qed.
Print Assumptions C49_buffered.

(* Centre first: for any order of the groups, a permutation that leaves the global sections and the DC
   groups in place and stores the AC groups of each pass in that order. *)
Theorem C49_centerfirst : forall ndc np order, is_permutation (zlen order) order -> 0 < zlen order ->
  exists perm, centerfirst_permutation ndc np order = Some perm /\ is_permutation (2 + Z.of_nat ndc + Z.of_nat np * zlen order) perm /\ fixes (2 + Z.of_nat ndc) perm /\
    forall p k g, 0 <= p < Z.of_nat np -> znth order k = Some g ->
      znth perm (id_of_section (zlen order) (Z.of_nat ndc) (AcGroup p g)) = Some (id_of_section (zlen order) (Z.of_nat ndc) (AcGroup p k)).
Proof. exact centerfirst_is. Qed.
Print Assumptions C49_centerfirst.

(* Sections written to numbered boxes as they are produced: put in the order of the numbers, they are
   the sections in the order of the codestream, and the sizes in the table of contents are theirs. *)
Theorem C49_numbered_boxes : forall permutation go (secs codes stored : list (list Z)), is_permutation (zlen secs) permutation -> (go = [] \/ is_permutation (zlen secs) go) ->
  zlen codes = zlen secs -> (forall id k, znth permutation id = Some k -> znth codes id = znth secs k) -> permute_groups go codes = Some stored ->
  codestream_sizes permutation go (map zlen secs) = Some (map zlen stored) /\
  forall k s, znth secs k = Some s -> exists c, section_counter permutation go k = Some (c + 2) /\ znth stored c = Some s.
Proof. exact boxes_in_order. Qed.
Print Assumptions C49_numbered_boxes.

(* a frame of 20 x 10 groups, 3 x 2 DC groups *)
Example C49_case : groups 5000 256 = 20 /\ groups 2500 256 = 10 /\ groups 5000 2048 = 3 /\ groups 2500 2048 = 2 /\
  option_map (fun p => (zlen p, znth p 0, znth p 1, znth p 2, znth p 7, znth p 8, znth p 16, znth p 28)) (streaming_permutation 5000 2500 256 1) =
  Some (208, Some 0, Some 1, Some 66, Some 207, Some 2, Some 67, Some 10).
Proof. vm_compute. repeat split. Qed.
Example C49_case_centerfirst : option_map (permute_groups [0; 1; 2; 5; 3; 4]) (Some [[0]; [1]; [2]; [3]; [4]; [5]]) = Some (Some [[0]; [1]; [2]; [4]; [5]; [3]]) /\
  centerfirst_permutation 1 1 [1; 2; 0] = Some [0; 1; 2; 5; 3; 4].
Proof. vm_compute. split; reflexivity. Qed.
Example C49_case_boxes : is_permutation 3 [0; 2; 1] /\ is_permutation 3 [1; 0; 2] /\ permute_groups [1; 0; 2] [[7]; [9; 9]; [8; 8; 8]] = Some [[9; 9]; [7]; [8; 8; 8]] /\
  codestream_sizes [0; 2; 1] [1; 0; 2] [1; 3; 2] = Some [2; 1; 3] /\ map (section_counter [0; 2; 1] [1; 0; 2]) [0; 1; 2] = [Some 3; Some 4; Some 2].
Proof.
  assert (P : forall l, NoDup l -> (forall v, In v l <-> 0 <= v < 3) -> zlen l = 3 -> is_permutation 3 l) by (intros l A B C; split; auto).
  split; [apply P; [repeat constructor; cbn; lia|intros v; cbn; lia|reflexivity]|]. split; [apply P; [repeat constructor; cbn; lia|intros v; cbn; lia|reflexivity]|]. split; [reflexivity|]. split; reflexivity.
Qed.
