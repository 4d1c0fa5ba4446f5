(* Properties C30 (signature check), C31 (box headers), C37 (output buffer size). *)
From Verif Require Import Base ContainerModel ContainerSpec ContainerProofs.

(* C30: each verdict is given exactly when it should; proper prefixes are "not enough". *)
Theorem C30_signature_classification : forall s,
  (signature_check s = SigCodestream <-> prefix_of codestream_signature s) /\
  (signature_check s = SigContainer <-> prefix_of container_signature s) /\
  (proper_prefix s codestream_signature \/ proper_prefix s container_signature ->
   signature_check s = SigNotEnough) /\
  (signature_check s = SigNotEnough ->
   proper_prefix s codestream_signature \/ (zlen s < 12 /\ (s = [] \/ exists r, s = 0 :: r))).
Proof. exact signature_classifies. Qed.
Print Assumptions C30_signature_classification.

(* C30: a definite verdict never changes as bytes arrive. *)
Theorem C30_signature_monotone : forall s t,
  signature_check s <> SigNotEnough -> signature_check (s ++ t) = signature_check s.
Proof. exact signature_monotone. Qed.
Print Assumptions C30_signature_monotone.

(* C30: the position moves past exactly the recognised signature. *)
Theorem C30_signature_consumes : forall s r p, read_signature s 0 = (r, p) ->
  p = match r with SigCodestream => 2 | SigContainer => 12 | _ => 0 end.
Proof. exact signature_consumes. Qed.
Print Assumptions C30_signature_consumes.

Example C30_case : signature_check [255; 10; 250] = SigCodestream /\ signature_check [255] = SigNotEnough /\
  signature_check (container_signature ++ [7]) = SigContainer /\ signature_check [255; 11] = SigInvalid /\
  signature_check [137; 80] = SigInvalid /\ signature_check [0; 0; 0; 12; 74] = SigNotEnough.
Proof. repeat split; reflexivity. Qed.

(* "not enough bytes exactly for proper prefixes of a signature" is false. *)
Theorem C30_not_enough_exact_refuted : exists s, signature_check s = SigNotEnough /\
  ~ proper_prefix s codestream_signature /\ ~ proper_prefix s container_signature.
Proof.
  exists [0; 1]. split; [reflexivity|]. split; intros (x & r & H); discriminate.
Qed.
Print Assumptions C30_not_enough_exact_refuted.

(* C31: the parser's answer for every input, position in it and file position.  It never
   reads outside the input (the result is never None), succeeds exactly on acceptable
   headers, fails exactly on complete unacceptable ones, and asks for more input exactly
   when the header is incomplete, with a correct lower bound for its size. *)
Theorem C31_box_header_parsed_exactly : forall inp pos file_pos,
  bytes_ok inp -> zlen inp < 2 ^ 64 -> 0 <= pos <= zlen inp -> 0 <= file_pos < 2 ^ 64 ->
  let s := skipn (Z.to_nat pos) inp in
  exists r, parse_box_header inp pos file_pos = Some r /\
  match r with
  | BoxOk n t h => box_header s h t n /\ box_size_ok h n file_pos
  | BoxError => exists h t n, box_header s h t n /\ ~ box_size_ok h n file_pos
  | BoxNeedMore k => zlen s < k /\ (forall r h t n, box_header (s ++ r) h t n -> k <= h)
  end.
Proof. exact parse_exact. Qed.
Print Assumptions C31_box_header_parsed_exactly.

Theorem C31_box_header_unique : forall s h t n h' t' n',
  box_header s h t n -> box_header s h' t' n' -> h = h' /\ t = t' /\ n = n'.
Proof. exact box_header_unique. Qed.
Print Assumptions C31_box_header_unique.

Example C31_case :
  parse_box_header [9; 0; 0; 0; 20; 102; 116; 121; 112; 5] 1 12 = Some (BoxOk 20 [102; 116; 121; 112] 8) /\
  parse_box_header [0; 0; 0; 7; 102; 116; 121; 112; 5] 0 12 = Some BoxError /\
  parse_box_header [0; 0; 0; 1; 102; 116; 121; 112; 255; 255; 255; 255; 255; 255; 255; 255] 0 12 = Some BoxError /\
  parse_box_header [0; 0; 0; 1; 102; 116; 121; 112; 255] 0 12 = Some (BoxNeedMore 16) /\
  parse_box_header [0; 0; 0; 1; 102; 116; 121; 112] 3 12 = Some (BoxNeedMore 8).
Proof. repeat split; reflexivity. Qed.

(* C31: headers written by the encoder say what was asked for. *)
Theorem C31_encoder_small_header : forall type size r, length type = 4%nat -> 0 <= size < 2 ^ 32 - 8 ->
  box_header (write_box_header type size false false ++ r) 8 type (size + 8).
Proof. exact written_header_small. Qed.
Print Assumptions C31_encoder_small_header.

Theorem C31_encoder_large_header : forall type size r, length type = 4%nat -> 0 <= size < 2 ^ 64 - 16 ->
  box_header (write_box_header type size false true ++ r) 16 type (size + 16).
Proof. exact written_header_large. Qed.
Print Assumptions C31_encoder_large_header.

Theorem C31_encoder_unbounded_header : forall type size force r, length type = 4%nat ->
  box_header (write_box_header type size true force ++ r) 8 type 0.
Proof. exact written_header_unbounded. Qed.
Print Assumptions C31_encoder_unbounded_header.

(* C31: every box appended by the encoder is its header followed by the contents, the header
   declaring exactly that size, whatever upper bound was announced. *)
Theorem C31_append_box : forall type unbounded max contents out r,
  length type = 4%nat -> zlen contents < 2 ^ 64 - 16 ->
  append_box type unbounded max contents = Some out ->
  exists h, box_header (out ++ r) h type (if unbounded then 0 else h + zlen contents) /\
            out = firstn (Z.to_nat h) out ++ contents /\ zlen out = h + zlen contents.
Proof. exact append_box_header. Qed.
Print Assumptions C31_append_box.

Example C31_append_case :
  append_box [69; 120; 105; 102] false 5 [1; 2; 3] = Some [0; 0; 0; 11; 69; 120; 105; 102; 1; 2; 3] /\
  append_box [69; 120; 105; 102] false (2 ^ 40) [1] = Some [0; 0; 0; 1; 69; 120; 105; 102; 0; 0; 0; 0; 0; 0; 0; 17; 1] /\
  append_box [69; 120; 105; 102] true 5 [1; 2; 3] = Some [0; 0; 0; 0; 69; 120; 105; 102; 1; 2; 3] /\
  append_box [69; 120; 105; 102] false 2 [1; 2; 3] = None.
Proof. repeat split; reflexivity. Qed.

(* C31: the container prologue has the signature and a well-formed ftyp box. *)
Theorem C31_container_prologue : forall v r, signature_check (container_header v ++ r) = SigContainer /\
  box_header (skipn 12 (container_header v ++ r)) 8 [102; 116; 121; 112] 20.
Proof. exact container_header_signature. Qed.
Print Assumptions C31_container_prologue.

(* Without force_large_box a size of 2^32-8 or more is not announced correctly. *)
Theorem C31_encoder_header_refuted : exists type size, length type = 4%nat /\ 0 <= size < 2 ^ 63 /\
  forall h n, box_header (write_box_header type size false false) h type n -> n - h <> size.
Proof. exact write_box_header_large_refuted. Qed.
Print Assumptions C31_encoder_header_refuted.

(* C37: for rows of row_bits bits stored with the least padding allowed by the alignment, the
   result is exactly the distance from the first to the last byte of the image, or an error
   when an intermediate or the final size does not fit 64 bits. *)
Theorem C37_min_buffer_size_exact : forall xsize ysize data_type format_channels align num_channels row_bytes stride,
  0 <= xsize < 2 ^ 64 -> 1 <= ysize < 2 ^ 64 -> 0 <= format_channels <= 4 -> 0 <= align < 2 ^ 64 ->
  0 <= num_channels < 2 ^ 64 -> bits_per_channel data_type <> 0 ->
  let channels := if num_channels =? 0 then format_channels else num_channels in
  let row_bits := xsize * channels * bits_per_channel data_type in
  row_layout row_bits align row_bytes stride ->
  get_min_size xsize ysize data_type format_channels align num_channels =
    if (row_bits <? 2 ^ 64) && (stride <? 2 ^ 64) && ((ysize - 1) * stride + row_bytes <? 2 ^ 64)
    then Some ((ysize - 1) * stride + row_bytes) else None.
Proof. exact get_min_size_spec. Qed.
Print Assumptions C37_min_buffer_size_exact.

Theorem C37_unsupported_formats_refused : forall xsize ysize data_type format_channels align num_channels,
  bits_per_channel data_type = 0 \/ format_channels > 4 ->
  get_min_size xsize ysize data_type format_channels align num_channels = None.
Proof. exact get_min_size_refuses. Qed.
Print Assumptions C37_unsupported_formats_refused.

Example C37_case : row_layout (33 * 3 * 16) 64 198 256 /\
  get_min_size 33 10 3 3 64 0 = Some (9 * 256 + 198) /\
  get_min_size (2 ^ 32 - 1) (2 ^ 32 - 1) 0 4 0 0 = None /\
  get_min_size (2 ^ 30) (2 ^ 30) 2 4 0 0 = Some (2 ^ 62).
Proof.
  split; [|repeat split; reflexivity]. unfold row_layout, least_multiple.
  split; (split; [cbn; lia|]); [now exists 198|now exists 4].
Qed.
