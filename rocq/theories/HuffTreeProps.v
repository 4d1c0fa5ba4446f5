(* Properties C14 and C45: code lengths and whole prefix codes in the stream. *)
From Verif Require Import Base BitProg BitProgProofs FieldsModel HuffTreeModel HuffCreateModel HuffSpec HuffRle HuffCreate HuffCreate2 HuffSimple HuffTreeTop.

(* The codes (code, extra bits) the encoder writes for code lengths give them back in the
   decoder, apart from zeros at the end, which it fills in itself. *)
Theorem C14_lengths_roundtrip : forall depths, Forall (fun l => 0 <= l <= 15) depths -> zlen depths < 2 ^ 63 ->
  exists codes r zeros, write_huffman_tree depths = Some codes /\ zlen codes <= zlen depths /\
    rle_run (zlen depths) (Rle [] 8 0 0 32768) codes = Some r /\ depths = rev (lens r) ++ repeat 0 zeros.
Proof. exact lengths_roundtrip. Qed.
Print Assumptions C14_lengths_roundtrip.

(* From the counts of at most 2^14 symbols that occur, with n times twice the largest of them
   below 2^32 - 1, the encoder finds a code with a word for each symbol that occurs, and
   only for those, that is complete and within the length limit. *)
Theorem C45_code_construction : forall data B limit,
  Forall (fun c => 0 <= c <= B) data -> zlen data <= 2 ^ 15 ->
  2 <= zlen (used_of data) <= 2 ^ 14 -> 1 <= limit <= 15 /\ zlen (used_of data) <= 2 ^ limit ->
  zlen (used_of data) * (2 * B) < 2 ^ 32 - 1 ->
  exists depths, create_huffman_tree data limit = Some depths /\ zlen depths = zlen data /\
    Forall (fun l => 0 <= l <= limit) depths /\
    (forall i l c, znth depths i = Some l -> znth data i = Some c -> (0 < l <-> 0 < c)) /\ complete depths.
Proof. exact code_construction. Qed.
Print Assumptions C45_code_construction.

(* What the encoder stores for any such counts (none, one, few or many symbols that occur) the
   decoder reads, leaving the position just behind it, and for each symbol that occurs the field
   (depth, bits) the encoder is to write for it decodes to it, whatever follows. *)
Theorem C45_build_and_store_roundtrip : forall mem garbage histogram B,
  1 <= zlen histogram <= 2 ^ 15 -> Forall (fun c => 0 <= c <= B) histogram ->
  zlen (filter (Z.ltb 0) histogram) <= 2 ^ 14 -> zlen (filter (Z.ltb 0) histogram) * (2 * B) < 2 ^ 32 - 1 ->
  exists fs depth bits tb, build_and_store_huffman_tree histogram = Some (fs, depth, bits) /\ Forall field_ok fs /\
    zlen depth = zlen histogram /\ zlen bits = zlen histogram /\
    parses (read_from_bit_stream mem garbage (zlen histogram)) (fields_bits fs) (Some (Some tb)) /\
    forall s c, znth histogram s = Some c -> 0 < c ->
      exists l v, znth depth s = Some l /\ znth bits s = Some v /\ 0 <= l <= 15 /\ 0 <= v < 2 ^ l /\
        parses_buffered 15 (huff_read tb) (to_bits (Z.to_nat l) v) (Some s).
Proof. exact build_and_store_ok. Qed.
Print Assumptions C45_build_and_store_roundtrip.

(* The same for every complete code, however it was found. *)
Theorem C14_stored_code_roundtrip : forall mem garbage depths,
  Forall (fun l => 0 <= l <= 15) depths -> complete depths -> zlen depths <= 2 ^ 15 ->
  exists fs total t, store_huffman_tree_full depths = Some fs /\ Forall field_ok fs /\
    parses (read_from_bit_stream mem garbage (zlen depths)) (fields_bits fs) (Some (Some (total, t))) /\
    256 <= total <= zlen depths + 376 /\
    (forall s l, znth depths s = Some l -> 0 < l -> parses_buffered 15 (huff_read (total, t)) (codeword depths s l) (Some s)).
Proof. exact store_full_ok. Qed.
Print Assumptions C14_stored_code_roundtrip.

(* On any bits whatever the decoder ends, never touches memory outside its arrays, and if it
   accepts, any 15 bits of input decode to a symbol of the alphabet. *)
Theorem C45_any_bits_safe : forall mem garbage n s pos av, 0 <= n -> 0 <= pos -> 0 <= av <= 56 ->
  exists r pos' av', run_bits s pos av (read_from_bit_stream mem garbage n) = Some (Some r, (pos', av')) /\
    pos <= pos' /\ 0 <= av' <= 56 /\
    forall tb, r = Some tb -> forall u p a, 0 <= p -> 15 <= a <= 56 ->
      exists sym l, 0 <= sym < n /\ 0 <= l <= 15 /\ run_bits u p a (huff_read tb) = Some (Some sym, (p + l, a - l)).
Proof. exact read_safe. Qed.
Print Assumptions C45_any_bits_safe.

(* The signed numbers of the code-length reader stay within 32 bits, whatever the codes. *)
Theorem C14_no_overflow : forall n codes r code_len extra, 0 <= n <= 2 ^ 15 ->
  Forall code_ok codes -> rle_run n (Rle [] 8 0 0 32768) codes = Some r -> code_ok (code_len, extra) -> 16 <= code_len ->
  let new_len := if code_len =? 16 then prev_code_len r else 0 in
  let old_repeat := if repeat_code_len r =? new_len then repeat_ r else 0 in
  let scaled := if 0 <? old_repeat then Z.shiftl (old_repeat - 2) (code_len - 14) else old_repeat in
  let delta := scaled + (extra + 3) - old_repeat in
  is_i32 (space r) /\ is_i32 scaled /\ is_i32 (scaled + (extra + 3)) /\ 0 < delta /\ is_i32 (zlen (lens r) + delta) /\
  (zlen (lens r) + delta <= n -> is_i32 (Z.shiftl delta (15 - new_len)) /\ is_i32 (space r - Z.shiftl delta (15 - new_len))).
Proof. exact lengths_no_overflow. Qed.
Print Assumptions C14_no_overflow.

(* 60 symbols, with runs of equal counts and of symbols that do not occur *)
Definition case_histogram : list Z :=
  [1; 1; 2; 3; 5; 8; 13; 21; 34; 55; 89; 144] ++ repeat 0 20 ++ repeat 7 20 ++ [1000; 400; 0; 0; 30; 30; 30; 0].
Example C14_case_hypotheses :
  zlen case_histogram = 60 /\ Forall (fun c => 0 <= c <= 1000) case_histogram /\
  zlen (filter (Z.ltb 0) case_histogram) = 37.
Proof. split; [reflexivity|]. split; [|reflexivity]. unfold case_histogram. repeat constructor; lia. Qed.
Definition first_symbol (s : Z) : option Z :=
  match build_and_store_huffman_tree case_histogram with
  | Some (fs, depth, bits) =>
      let d := Z.to_nat (nth (Z.to_nat s) depth 0) in
      let stream := fields_bits fs ++ to_bits d (nth (Z.to_nat s) bits 0) ++ repeat true 15 in
      match run_bits stream 0 0 (read_from_bit_stream (fun _ => (77, 77)) (fun _ => 99) 60) with
      | Some (Some (Some tb), (pos, _)) => match run_bits stream pos 15 (huff_read tb) with Some (r, _) => r | None => None end
      | _ => None
      end
  | None => None
  end.
Example C14_case_decodes : map first_symbol [0; 7; 40; 52; 58] = [Some 0; Some 7; Some 40; Some 52; Some 58].
Proof. vm_compute. reflexivity. Qed.
Example C14_case_runs : write_huffman_tree (repeat 5 20 ++ repeat 0 30 ++ repeat 3 3 ++ repeat 0 7) =
  Some [(5, 0); (16, 3); (16, 0); (17, 2); (17, 3); (3, 0); (3, 0); (3, 0)].
Proof. vm_compute. reflexivity. Qed.
