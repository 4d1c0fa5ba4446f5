(* The table of contents of a frame: lib/jxl/toc.h, toc.cc, enc_toc.cc, and the parts of
   dec_frame.cc and enc_frame.cc that lay out the sections. *)
From Verif Require Import Base BitProg FieldsModel.
From Verif Require Export PermModel.

(* toc.h:25-26 kTocDist *)
Definition kTocDist : u32enc := U32 (Bits 10) (BitsOffset 14 1024) (BitsOffset 22 17408) (BitsOffset 30 4211712).

(* toc.h:31-34 AcGroupIndex; size_t *)
Definition ac_group_index (pass group num_groups num_dc_groups : Z) : Z :=
  w64 (w64 (w64 (2 + num_dc_groups) + w64 (pass * num_groups)) + group).
(* toc.h:36-41 NumTocEntries *)
Definition num_toc_entries (num_groups num_dc_groups num_passes : Z) : Z :=
  if (num_groups =? 1) && (num_passes =? 1) then 1
  else w64 (ac_group_index 0 0 num_groups num_dc_groups + w64 (num_groups * num_passes)).

(* What the section with number id is: dec_frame.cc:600-620 (FrameDecoder::ProcessSections,
   for frames with more than one section) *)
Inductive section := DcGlobal | DcGroup (g : Z) | AcGlobal | AcGroup (pass group : Z).
Definition section_of_id (num_groups num_dc_groups id : Z) : section :=
  let ac_global_index := num_dc_groups + 1 in
  if id =? 0 then DcGlobal
  else if id <? ac_global_index then DcGroup (id - 1)
  else if id =? ac_global_index then AcGlobal
  else
    let ac_idx := id - ac_global_index - 1 in
    AcGroup (ac_idx / num_groups) (ac_idx mod num_groups).

(* ---- reading ---- *)

Inductive toc_result := TocOk (sizes permutation : list Z) | TocFail | TocShort.

(* toc.cc:45-56 check_bit_budget; total is reader->TotalBytes().  The comparison
   expenses <= bit_budget is AllReadsWithinBounds. *)
Definition check_bit_budget (total num_entries : Z) (k : rprog (option toc_result)) : rprog (option toc_result) :=
  let minimal_bit_cost := num_entries * (2 + 10) in
  let bit_budget := total * 8 in
  Check (fun within =>
    if within then Pos (fun expenses => if minimal_bit_cost <=? bit_budget - expenses then k else Ret (Some TocShort))
    else Ret (Some TocShort)).

(* toc.cc:67-69 *)
Fixpoint toc_sizes (n : nat) : rprog (list Z) :=
  match n with
  | O => Ret []
  | S n' => let! s := u32_read kTocDist in let! l := toc_sizes n' in Ret (s :: l)
  end.

(* toc.cc:65-72: from the end of the permutation on *)
Definition read_toc_sizes (total : Z) (toc_entries : nat) (permutation : list Z) : rprog (option toc_result) :=
  Jump (fun zeros =>
    if negb zeros then Ret (Some TocFail)
    else
      check_bit_budget total (Z.of_nat toc_entries) (
        let! sizes := toc_sizes toc_entries in
        Jump (fun zeros =>
          if negb zeros then Ret (Some TocFail)
          else check_bit_budget total 0 (Ret (Some (TocOk sizes permutation)))))).

(* toc.cc:29-73 ReadToc.  The statuses of DecodePermutation other than success are not
   told apart (TocFail).  The test of line 42, TotalBitsConsumed() >= TotalBytes() * 8, also holds
   whenever reads were out of bounds. *)
Definition read_toc (M : machine) (total : Z) (toc_entries : nat) : rprog (option toc_result) :=
  if 65536 <? Z.of_nat toc_entries then Ret (Some TocFail)
  else
    Check (fun within =>
      if negb within then Ret (Some TocShort)
      else Pos (fun consumed =>
        if total * 8 <=? consumed then Ret (Some TocShort)
        else if Z.of_nat toc_entries =? 0 then Ret (Some TocFail)
        else
          let! b := rd 1 in
          if b =? 1 then
            check_bit_budget total (Z.of_nat toc_entries) (
              let! r := decode_permutation M 0 (Z.of_nat toc_entries) in
              match r with
              | None => Ret None
              | Some None => Ret (Some TocFail)
              | Some (Some permutation) => read_toc_sizes total toc_entries permutation
              end)
          else read_toc_sizes total toc_entries [])).

(* toc.cc:88-95: the prefix sums in uint64_t; None: the failure of line 91 *)
Fixpoint prefix_offsets (offset : Z) (sizes : list Z) : option (list Z * Z) :=
  match sizes with
  | [] => Some ([], offset)
  | s :: sizes' =>
      if w64 (offset + s) <? offset then None
      else do (l, total_size) <- prefix_offsets (w64 (offset + s)) sizes'; Some (offset :: l, total_size)
  end.

(* toc.cc:105-108: the elements of v at the indices of the permutation; None: out of bounds *)
Fixpoint pick (v permutation : list Z) : option (list Z) :=
  match permutation with
  | [] => Some []
  | i :: permutation' => do x <- znth v i; do l <- pick v permutation'; Some (x :: l)
  end.

Inductive offsets_result := Offsets (offsets sizes : list Z) (total_size : Z) | OffsetsFail | OffsetsShort.

(* toc.cc:84-113: ReadGroupOffsets after ReadToc *)
Definition group_offsets (t : toc_result) : option offsets_result :=
  match t with
  | TocFail => Some OffsetsFail
  | TocShort => Some OffsetsShort
  | TocOk sizes permutation =>
      match prefix_offsets 0 sizes with
      | None => Some OffsetsFail
      | Some (offsets, total_size) =>
          match permutation with
          | [] => Some (Offsets offsets sizes total_size)
          | _ =>
              do permuted_offsets <- pick offsets permutation;
              do permuted_sizes <- pick sizes permutation;
              Some (Offsets permuted_offsets permuted_sizes total_size)
          end
      end
  end.

(* toc.cc:75-114 ReadGroupOffsets *)
Definition read_group_offsets (M : machine) (total : Z) (toc_entries : nat) : rprog (option offsets_result) :=
  let! t := read_toc M total toc_entries in
  Ret (do t <- t; group_offsets t).

(* dec_frame.cc:178-183: the ids; toc_ is value-initialised by resize *)
Fixpoint fill_ids (n : Z) (ids : Z -> Z) (i : Z) (index : list Z) : option (Z -> Z) :=
  match index with
  | [] => Some ids
  | j :: index' => do ids <- set n ids j i; fill_ids n ids (i + 1) index'
  end.
(* dec_frame.cc:177-188: toc_ (as sizes and ids by position in the codestream) and section_sizes_sum_;
   Some None: overflow.  The loop does both at once; here one after the other. *)
Definition frame_toc (sizes permutation : list Z) : option (option ((Z -> Z) * Z)) :=
  let n := zlen sizes in
  let index := match permutation with [] => map Z.of_nat (seq 0 (length sizes)) | _ => permutation end in
  do ids <- fill_ids n (fun _ => 0) 0 index;
  match prefix_offsets 0 sizes with
  | None => Some None
  | Some (_, sum) => Some (Some (ids, sum))
  end.

(* ---- writing ---- *)

(* enc_bit_writer.h:91-97 ZeroPadToByte after pos bits *)
Definition zero_pad (pos : Z) : list (Z * Z) :=
  let remainder_bits := (- pos) mod 8 in
  if remainder_bits =? 0 then [] else [(remainder_bits, 0)].

(* enc_toc.cc:23-38 WriteTocPermutation, after pos bits; coded is what EncodePermutation
   writes (used only if the permutation is not empty) *)
Definition write_toc_permutation (pos : Z) (permutation : list Z) (coded : option (list (Z * Z))) : option (list (Z * Z)) :=
  match permutation with
  | [] => Some ((1, 0) :: zero_pad (pos + 1))
  | _ => do fs <- coded; Some ((1, 1) :: fs ++ zero_pad (pos + 1 + width_sum fs))
  end.

(* enc_toc.cc:44-46: the loop; the sizes are size_t, U32Coder::Write takes uint32_t *)
Fixpoint write_sizes (group_sizes : list Z) : option (list (Z * Z)) :=
  match group_sizes with
  | [] => Some []
  | s :: l => do a <- u32_write kTocDist (w32 s); do b <- write_sizes l; Some (a ++ b)
  end.
(* enc_toc.cc:40-50 WriteTocSizes *)
Definition write_toc_sizes (pos : Z) (group_sizes : list Z) : option (list (Z * Z)) :=
  do fs <- write_sizes group_sizes; Some (fs ++ zero_pad (pos + width_sum fs)).

(* enc_frame.cc:2295-2297: both, one after the other *)
Definition write_toc (pos : Z) (permutation : list Z) (coded : option (list (Z * Z))) (group_sizes : list Z) : option (list (Z * Z)) :=
  do a <- write_toc_permutation pos permutation coded;
  do b <- write_toc_sizes (pos + width_sum a) group_sizes;
  Some (a ++ b).

(* enc_frame.cc:1793-1797 (PermuteGroups) and 2283-2291 (EncodeFrameStreaming): the sections in the
   order of the codestream; None: out of bounds *)
Fixpoint reorder {A} (n : Z) (out : Z -> A) (permutation : list Z) (group_codes : list A) : option (Z -> A) :=
  match permutation, group_codes with
  | [], _ => Some out
  | j :: permutation', g :: group_codes' => do out <- set n out j g; reorder n out permutation' group_codes'
  | _ :: _, [] => None
  end.
Definition permute_groups (permutation : list Z) (group_codes : list (list Z)) : option (list (list Z)) :=
  match permutation with
  | [] => Some group_codes
  | _ =>
      do out <- reorder (zlen group_codes) (fun _ => []) permutation group_codes;
      Some (map (fun i => out (Z.of_nat i)) (seq 0 (length group_codes)))
  end.

(* ---- the permutations the encoder uses ---- *)

(* enc_frame.cc:1782-1785: the inverse of the order of the groups *)
Definition inverse_order (order : list Z) : option (list Z) :=
  do inv <- fill_ids (zlen order) (fun _ => 0) 0 order;
  Some (map (fun i => inv (Z.of_nat i)) (seq 0 (length order))).
(* enc_frame.cc:1786-1791: one copy for each pass; pass_start is the size so far *)
Fixpoint add_passes (num_passes : nat) (pass_start : Z) (inv : list Z) : list Z :=
  match num_passes with
  | O => []
  | S n => map (fun v => pass_start + v) inv ++ add_passes n (pass_start + zlen inv) inv
  end.
(* enc_frame.cc:1720-1799 PermuteGroups, the permutation.  order is what std::sort makes of
   0 ... num_groups - 1 (sorted by the distance from the centre, a floating-point computation
   that is not modelled): some permutation. *)
Definition centerfirst_permutation (num_dc_groups num_passes : nat) (order : list Z) : option (list Z) :=
  do inv <- inverse_order order;
  Some (map Z.of_nat (seq 0 (num_dc_groups + 2)) ++ add_passes num_passes (Z.of_nat num_dc_groups + 2) inv).

(* enc_frame.cc:1885-1909 ComputePermutationForStreaming: the entries of the permutation in the
   order in which new_ix is stored in them.  a .. b - 1: *)
Definition range (a b : Z) : list Z := map (fun k => a + Z.of_nat k) (seq 0 (Z.to_nat (b - a))).
Definition streaming_order (group_xsize group_ysize dc_group_xsize dc_group_ysize num_passes : Z) : list Z :=
  let num_groups := group_xsize * group_ysize in
  let num_dc_groups := dc_group_xsize * dc_group_ysize in
  0 :: flat_map (fun dc_y => flat_map (fun dc_x =>
         let dc_ix := dc_y * dc_group_xsize + dc_x in
         let ac_y0 := dc_y * 8 in
         let ac_x0 := dc_x * 8 in
         let ac_y1 := Z.min group_ysize (ac_y0 + 8) in
         let ac_x1 := Z.min group_xsize (ac_x0 + 8) in
         1 + dc_ix :: flat_map (fun pass => flat_map (fun ac_y => map (fun ac_x =>
             let group_ix := ac_y * group_xsize + ac_x in
             ac_group_index pass group_ix num_groups num_dc_groups)
           (range ac_x0 ac_x1)) (range ac_y0 ac_y1)) (range 0 num_passes))
       (range 0 dc_group_xsize)) (range 0 dc_group_ysize)
  ++ [1 + num_dc_groups].
(* enc_frame.cc:1869-1912 ComputePermutationForStreaming; None: an access out of bounds, or
   JXL_ENSURE(new_ix == num_sections) fails *)
Definition streaming_permutation (xsize ysize group_size num_passes : Z) : option (list Z) :=
  let dc_group_size := group_size * 8 in
  let div_ceil a b := (a + b - 1) / b in
  let group_xsize := div_ceil xsize group_size in
  let group_ysize := div_ceil ysize group_size in
  let dc_group_xsize := div_ceil xsize dc_group_size in
  let dc_group_ysize := div_ceil ysize dc_group_size in
  let num_sections := 2 + dc_group_xsize * dc_group_ysize + num_passes * (group_xsize * group_ysize) in
  let order := streaming_order group_xsize group_ysize dc_group_xsize dc_group_ysize num_passes in
  do permutation <- fill_ids num_sections (fun _ => 0) 0 order;
  if zlen order =? num_sections then Some (map (fun i => permutation (Z.of_nat i)) (seq 0 (Z.to_nat num_sections)))
  else None.

(* ---- streaming output: the room left for the table of contents ---- *)

(* enc_frame.cc:1914-1926 *)
Definition kGroupSizeOffset : list Z := [0; 1024; 17408; 4211712].
Definition kTOCBits : list Z := [12; 16; 24; 32].
Fixpoint toc_bucket_loop (fuel : nat) (bucket group_size : Z) : Z :=
  match fuel with
  | O => bucket
  | S f => if (bucket <? 3) && (nth (Z.to_nat (bucket + 1)) kGroupSizeOffset 0 <=? group_size)
           then toc_bucket_loop f (bucket + 1) group_size else bucket
  end.
Definition toc_bucket (group_size : Z) : Z := toc_bucket_loop 3 0 group_size.
(* enc_frame.cc:1928-1934 TOCSize *)
Definition toc_size (group_sizes : list Z) : Z :=
  (fold_left (fun toc_bits s => toc_bits + nth (Z.to_nat (toc_bucket s)) kTOCBits 0) group_sizes 0 + 7) / 8.

(* enc_frame.cc:1944-1947; the bucket grows each time, so that 4 rounds are enough *)
Fixpoint raise_min (fuel : nat) (max_padding min_dc_global_size dc_global_bucket : Z) : option (Z * Z) :=
  match fuel with
  | O => None
  | S f =>
      let b := toc_bucket (min_dc_global_size + max_padding) in
      if dc_global_bucket <? b then raise_min f max_padding (nth (Z.to_nat b) kGroupSizeOffset 0) b
      else Some (min_dc_global_size, dc_global_bucket)
  end.
(* enc_frame.cc:1936-1954 ComputeGroupDataOffset: min_dc_global_size and group_offset; None: one of
   the JXL_ENSUREs fails.  Sums are taken not to exceed size_t. *)
Definition group_data_offset (frame_header_size dc_global_size num_sections : Z) : option (Z * Z) :=
  let max_toc_bits := (num_sections - 1) * 32 in
  let min_toc_bits := (num_sections - 1) * 12 in
  let max_padding := (max_toc_bits - min_toc_bits + 7) / 8 in
  do (min_dc_global_size, dc_global_bucket) <- raise_min 4 max_padding dc_global_size (toc_bucket dc_global_size);
  if negb (toc_bucket min_dc_global_size =? dc_global_bucket) then None
  else if negb (toc_bucket (min_dc_global_size + max_padding) =? dc_global_bucket) then None
  else
    let max_toc_bits := max_toc_bits + nth (Z.to_nat dc_global_bucket) kTOCBits 0 in
    let max_toc_size := (max_toc_bits + 7) / 8 in
    Some (min_dc_global_size, frame_header_size + max_toc_size + min_dc_global_size).
(* enc_frame.cc:1956-1965 ComputeDcGlobalPadding; the difference is size_t *)
Definition dc_global_padding (dc_global_size : Z) (other_sizes : list Z) (frame_header_size group_data_offset min_dc_global_size : Z) : Z :=
  let toc_size := toc_size (min_dc_global_size :: other_sizes) in
  let actual_offset := frame_header_size + toc_size + dc_global_size in
  w64 (group_data_offset - actual_offset).

(* ---- the order in which EncodeFrameStreaming produces the sections ---- *)

(* enc_modular.cc:1364-1373 ComputeStreamingAbsoluteAcGroupId *)
Definition absolute_ac_group (xsize_dc_groups xsize_groups dc_group_id ac_group_id patch_xsize_groups : Z) : Z :=
  let dc_group_x := dc_group_id mod xsize_dc_groups in
  let dc_group_y := dc_group_id / xsize_dc_groups in
  let ac_group_x := ac_group_id mod patch_xsize_groups in
  let ac_group_y := ac_group_id / patch_xsize_groups in
  (dc_group_x * 8 + ac_group_x) + (dc_group_y * 8 + ac_group_y) * xsize_groups.

(* enc_frame.cc:2138-2147: the number of groups of the part of the frame that is encoded with DC
   group dc_ix, horizontally and vertically *)
Definition patch_groups (xsize ysize group_size dc_group_xsize dc_ix : Z) : Z * Z :=
  let dc_group_size := group_size * 8 in
  let y0 := (dc_ix / dc_group_xsize) * dc_group_size in
  let x0 := (dc_ix mod dc_group_xsize) * dc_group_size in
  ((Z.min dc_group_size (xsize - x0) + group_size - 1) / group_size,
   (Z.min dc_group_size (ysize - y0) + group_size - 1) / group_size).

(* enc_frame.cc:2137-2234 with OutputGroups (1968-1976): the ids of the sections in the order in
   which they are produced: DC global, then for each DC group the section group_codes[1] and
   the sections group_codes[3 + pass * n + j], j < n the groups of the part (1338-1357 numbers them),
   then AC global *)
Definition emission_order (xsize ysize group_size num_passes : Z) : list Z :=
  let div_ceil a b := (a + b - 1) / b in
  let group_xsize := div_ceil xsize group_size in
  let group_ysize := div_ceil ysize group_size in
  let dc_group_xsize := div_ceil xsize (group_size * 8) in
  let dc_group_ysize := div_ceil ysize (group_size * 8) in
  let num_dc_groups := dc_group_xsize * dc_group_ysize in
  0 :: flat_map (fun dc_ix =>
         let '(gx, gy) := patch_groups xsize ysize group_size dc_group_xsize dc_ix in
         1 + dc_ix :: flat_map (fun pass => map (fun j =>
             ac_group_index pass (absolute_ac_group dc_group_xsize group_xsize dc_ix j gx) (group_xsize * group_ysize) num_dc_groups)
           (range 0 (gx * gy))) (range 0 num_passes))
       (range 0 num_dc_groups)
  ++ [1 + num_dc_groups].

(* enc_frame.cc:2194-2214, 2217-2234: without streaming (a single pass), the places in
   global_group_codes, in the order in which they are filled *)
Definition buffered_places (xsize ysize group_size : Z) : list Z :=
  let div_ceil a b := (a + b - 1) / b in
  let group_xsize := div_ceil xsize group_size in
  let dc_group_xsize := div_ceil xsize (group_size * 8) in
  let num_dc_groups := dc_group_xsize * div_ceil ysize (group_size * 8) in
  0 :: flat_map (fun dc_ix =>
         let '(gx, gy) := patch_groups xsize ysize group_size dc_group_xsize dc_ix in
         1 + dc_ix :: map (fun j => 2 + num_dc_groups + absolute_ac_group dc_group_xsize group_xsize dc_ix j gx) (range 0 (gx * gy)))
       (range 0 num_dc_groups)
  ++ [1 + num_dc_groups].

(* enc_frame.cc:2103-2108, 2125-2134: the number of the jxlp box, relative to the first, in which the
   section produced as number encoding_pos goes; inv_perm by fill_ids; None: out of bounds *)
Definition section_counter (permutation group_order : list Z) (encoding_pos : Z) : option Z :=
  do inv <- fill_ids (zlen permutation) (fun _ => 0) 0 permutation;
  do canonical_idx <- get (zlen permutation) inv encoding_pos;
  do cs_pos <- match group_order with [] => Some canonical_idx | _ => znth group_order canonical_idx end;
  Some (cs_pos + 2).
(* enc_frame.cc:2262-2270: the sizes in the order of the codestream; the loop over canonical_idx *)
Fixpoint codestream_sizes_loop (n canonical_idx : Z) (permutation group_order group_sizes : list Z) (out : Z -> Z) : option (Z -> Z) :=
  match permutation with
  | [] => Some out
  | p :: permutation' =>
      do cs_pos <- match group_order with [] => Some canonical_idx | _ => znth group_order canonical_idx end;
      do s <- znth group_sizes p;
      do out <- set n out cs_pos s;
      codestream_sizes_loop n (canonical_idx + 1) permutation' group_order group_sizes out
  end.
Definition codestream_sizes (permutation group_order group_sizes : list Z) : option (list Z) :=
  do out <- codestream_sizes_loop (zlen permutation) 0 permutation group_order group_sizes (fun _ => 0);
  Some (map (fun i => out (Z.of_nat i)) (seq 0 (length permutation))).
