{
 "claims": [
  {
   "property": "C01",
   "status": "proved",
   "theorems": [
    "C01_writer_writes_bit_string",
    "C01_write_then_read"
   ],
   "note": "BitIOProps.v"
  },
  {
   "property": "C02",
   "status": "proved",
   "theorems": [
    "C02_reader_refines_bit_string",
    "C02_programs_read_the_bit_string"
   ],
   "note": "BitIOProps.v, FieldsProps.v"
  },
  {
   "property": "C03",
   "status": "proved",
   "theorems": [
    "C02_reader_refines_bit_string",
    "C03_mark_unhealthy_is_sticky"
   ],
   "note": "BitIOProps.v; memory safety: the model returns None on an access outside the span, the theorem says Some"
  },
  {
   "property": "C04",
   "status": "proved",
   "theorems": [
    "C04_u32_shortest_code_or_refused",
    "C04_u32_reads_every_code",
    "C04_u32_round_trip",
    "C04_u64_round_trip",
    "C04_u64_size",
    "C04_f16_round_trip",
    "C04_f16_refuses_non_finite",
    "C04_f16_rounds_toward_zero",
    "C04_f16_exact_or_refused_refuted"
   ],
   "note": "FieldsProps.v; -0.0 is written as +0 (excluded by the hypothesis h <> 0x8000)"
  },
  {
   "property": "C05",
   "status": "proved",
   "theorems": [
    "C05_bundle_round_trip",
    "C05_near_default_refuted",
    "C05_reader_only_check_refuted"
   ],
   "note": "BundleProps.v; generic over VisitFields programs; the two _refuted theorems show why valid asks that floats are no near misses of their default and that reader-only checks pass"
  },
  {
   "property": "C06",
   "status": "proved",
   "theorems": [
    "C06_headers_round_trip"
   ],
   "note": "HeadersProps.v; the 19 headers listed in HeadersSpec.v"
  },
  {
   "property": "C07",
   "status": "proved",
   "theorems": [
    "C07_image_dimensions"
   ],
   "note": "HeadersProps.v"
  },
  {
   "property": "C08",
   "status": "proved",
   "theorems": [
    "C08_foreign_extensions_skipped",
    "C08_nested_extension_refuted"
   ],
   "note": "BundleProps.v; false when an extensible bundle lies inside another (refuted)"
  },
  {
   "property": "C09",
   "status": "proved",
   "theorems": [
    "C09_prefixes",
    "C09_header_prefixes"
   ],
   "note": "BundleProps.v, HeadersProps.v; guarded is shown for all modelled headers"
  },
  {
   "property": "C10",
   "status": "proved",
   "theorems": [
    "C10_hybrid_uint_round_trip",
    "C10_tokens_are_monotone",
    "C10_token_order_refuted",
    "C10_configs_round_trip",
    "C10_accepted_configs_are_valid"
   ],
   "note": "HybridUintProps.v; token order holds for lsb_in_token = 0 only, refuted otherwise"
  },
  {
   "property": "C11",
   "status": "proved",
   "theorems": [
    "C11_alias_table_is_a_slot_map",
    "C11_empty_histogram",
    "C11_other_histograms_rejected",
    "C11_reverse_map",
    "C11_table_independent_of_memory"
   ],
   "note": "AliasProps.v, AnsProps.v. For every histogram with sum 4096 the table built is a bijection between slots and (symbol, offset) pairs, with the right frequencies; the empty histogram gives the single symbol 0; nothing else is accepted; the encoder's reverse map is the inverse."
  },
  {
   "property": "C12",
   "status": "proved",
   "theorems": [
    "C12_reciprocal_division_exact",
    "C12_shared_histogram",
    "C12_values_come_back",
    "C15_copies_are_expanded"
   ],
   "note": "AnsProps.v; both ANS and prefix codes; fewer than 2^32 values"
  },
  {
   "property": "C13",
   "status": "proved",
   "theorems": [
    "C13_encoder_canonical",
    "C13_decoder_inverts_encoder",
    "C13_single_symbol",
    "C13_prefix_free",
    "C13_large_alphabet_refused"
   ],
   "note": "HuffProps.v; every complete code of up to 2^15 symbols with lengths up to 15; codes of one symbol"
  },
  {
   "property": "C14",
   "status": "proved",
   "theorems": [
    "C14_lengths_roundtrip",
    "C14_stored_code_roundtrip",
    "C14_no_overflow"
   ],
   "note": "HuffTreeProps.v"
  },
  {
   "property": "C15",
   "status": "proved",
   "theorems": [
    "C15_copies_are_expanded",
    "C15_from_bytes"
   ],
   "note": "AnsProps.v; fewer than 2^32 values (the reader's counters are 32 bit), distance multipliers below 2^28 (beyond, int overflows)"
  },
  {
   "property": "C16",
   "status": "proved",
   "theorems": [
    "C16_inverse_mtf",
    "C16_mtf_roundtrip",
    "C16_context_map_roundtrip",
    "C16_any_context_map"
   ],
   "note": "CodesProps.v; for every vector length and content of uninitialised memory"
  },
  {
   "property": "C17",
   "status": "proved",
   "theorems": [
    "C17_code_meaning",
    "C17_permutation_round_trip",
    "C17_every_code_is_a_permutation",
    "C17_invalid_codes_rejected"
   ],
   "note": "LehmerProps.v"
  },
  {
   "property": "C18",
   "status": "proved",
   "theorems": [
    "C18_sections_found",
    "C18_any_bits",
    "C18_sections_share_out",
    "C18_overflow_refused",
    "C18_frame_toc",
    "C18_permutation_roundtrip",
    "C18_any_permutation",
    "C18_numbering",
    "C18_number_of_entries"
   ],
   "note": "TocProps.v; C18_too_large_refuted shows that the encoder does not refuse sections of 2^32 bytes or more"
  },
  {
   "property": "C19",
   "status": "proved",
   "theorems": [
    "C19_pack_signed_value",
    "C19_unpack_pack",
    "C19_pack_unpack",
    "C19_pack_small_magnitude"
   ],
   "note": "FieldsProps.v"
  },
  {
   "property": "C20",
   "status": "proved",
   "theorems": [
    "C20_rct_is_lossless",
    "C20_scalar_forward_agrees",
    "C20_inverse_independent_of_vector_size"
   ],
   "note": "RctProps.v"
  },
  {
   "property": "C21",
   "status": "proved",
   "theorems": [
    "C21_squeeze_is_lossless",
    "C21_moderate_samples"
   ],
   "note": "SqueezeProps.v. Samples so large that the forward transform overflows int are outside (undefined behaviour)."
  },
  {
   "property": "C22",
   "status": "proved",
   "theorems": [
    "C22_vector_step",
    "C22_any_stream",
    "C21_moderate_samples",
    "C22_any_magnitude_refuted"
   ],
   "note": "SqueezeProps.v. Agreement is proved for magnitudes below 2^29; for larger ones it is false (C22_any_magnitude_refuted)."
  },
  {
   "property": "C23",
   "status": "proved",
   "theorems": [
    "C23_image_back",
    "C23_image_back_slow",
    "C23_encoder_total",
    "C23_edge_refuted",
    "C23_slow_refuted"
   ],
   "note": "ResProps.v; for all trees, predictors and channels; trees with a split of property 15 at -8193 only where the decoder also uses a table (C23_edge_refuted), and at most 65536 contexts; the entropy coder between tokens and bits is C10-C16, the tree itself C25 and C50"
  },
  {
   "property": "C24",
   "status": "proved",
   "theorems": [
    "C24_flat_tree",
    "C24_clustered",
    "C24_lut",
    "C24_lut_refuted"
   ],
   "note": "MaFlatProps.v; the lookup table agrees but for properties below -8192 when there is a split at -8193 (C24_lut_refuted)"
  },
  {
   "property": "C25",
   "status": "proved",
   "theorems": [
    "C25_any_bits",
    "C25_validate",
    "C25_size_limit_refuted"
   ],
   "note": "MaProps.v; the exact bound is one node more than the limit (C25_size_limit_refuted)"
  },
  {
   "property": "C26",
   "status": "proved",
   "theorems": [
    "C26_clamped_gradient"
   ],
   "note": "RctProps.v"
  },
  {
   "property": "C27",
   "status": "proved",
   "theorems": [
    "C27_lossless",
    "C27_every_index",
    "C27_any_image",
    "C27_encoder_safe",
    "C27_deep_refuted"
   ],
   "note": "PaletteProps.v; up to 24 bits per sample: above, C27_deep_refuted shows that implicit colours are not restored"
  },
  {
   "property": "C28",
   "status": "proved",
   "theorems": [
    "C28_profile_back",
    "C28_profiles_differ",
    "C28_short_profiles_read",
    "C28_wrap_refuted",
    "C28_long_commands_refuted"
   ],
   "note": "IccProps.v; for profiles without an rXYZ entry whose start is above 2^32 - 41 (C28_wrap_refuted); the entropy coding of the transformed bytes is C10-C16; the reader's preliminary check is proved for profiles up to 464 bytes and refuted beyond (C28_long_commands_refuted)"
  },
  {
   "property": "C29",
   "status": "proved",
   "theorems": [
    "C29_total",
    "C29_announced_size",
    "C29_bytes"
   ],
   "note": "IccProps.v; inputs shorter than 2^63 bytes"
  },
  {
   "property": "C30",
   "status": "proved",
   "theorems": [
    "C30_signature_classification",
    "C30_signature_monotone",
    "C30_signature_consumes",
    "C30_not_enough_exact_refuted"
   ],
   "note": "ContainerProps.v"
  },
  {
   "property": "C31",
   "status": "proved",
   "theorems": [
    "C31_box_header_parsed_exactly",
    "C31_box_header_unique",
    "C31_encoder_small_header",
    "C31_encoder_large_header",
    "C31_encoder_unbounded_header",
    "C31_append_box",
    "C31_container_prologue",
    "C31_encoder_header_refuted"
   ],
   "note": "ContainerProps.v"
  },
  {
   "property": "C32",
   "status": "proved",
   "theorems": [
    "C32_contiguous",
    "C32_nothing_lost",
    "C32_bytes_taken",
    "C32_unread",
    "C32_returns",
    "C32_skip_after_release_refuted",
    "C32_skip_at_box_refuted"
   ],
   "note": "InpProps.v; for every file shorter than 2^46 bytes that is a naked codestream or a container, every sequence of SetInput, ReleaseInput, ProcessInput, box buffer calls and parser moves, also past the available data. JxlDecoderSkipCurrentFrame is included where can_skip allows it (input set, not in the middle of a box header); the two refutations show what happens elsewhere"
  },
  {
   "property": "C33",
   "status": "proved",
   "theorems": [
    "C33_any_order",
    "C33_same_codestream",
    "C33_same_events",
    "C33_in_order",
    "C33_skip_refuted",
    "C33_open_part_refuted"
   ],
   "note": "InpProps.v; the codestream is the same for every order, and so are the moves and events of a parser that depends on the bytes only (the parser itself is not modelled). With frames passed over only when the boxes are in order (C33_in_order); refuted otherwise (C33_skip_refuted)"
  },
  {
   "property": "C34",
   "status": "proved",
   "theorems": [
    "C34_delivered",
    "C34_open_box_refuted",
    "C34_complete_again_refuted"
   ],
   "note": "InpProps.v; boxes that are not compressed; the two refutations concern boxes without a size and calls after JXL_DEC_BOX_COMPLETE"
  },
  {
   "property": "C35",
   "status": "proved",
   "theorems": [
    "C35_needed_frames",
    "C35_decoded_frames",
    "C35_skip_count",
    "C35_skip_in_skip_refuted",
    "C35_coalescing_refuted"
   ],
   "note": "SkipProps.v; the coalescing setting is not changed between passes (C35_coalescing_refuted) and fewer than 2^62 frames are skipped in all; JxlDecoderSkipCurrentFrame is not modelled"
  },
  {
   "property": "C36",
   "status": "partial",
   "theorems": [
    "C36_as_new_partial",
    "C36_detail_only_partial",
    "C36_finished_partial",
    "C36_buffer_released_partial",
    "C36_detail_refuted",
    "C36_jpeg_buffer_refuted",
    "C36_jpeg_data_refuted"
   ],
   "note": "ResetProps.v; the full statement is false of the code: the level of progressive detail and the JPEG reconstruction state survive JxlDecoderReset (three refutations). Proved: nothing else does, for every history of calls and every behaviour of the parts that are not modelled"
  },
  {
   "property": "C37",
   "status": "proved",
   "theorems": [
    "C37_min_buffer_size_exact",
    "C37_unsupported_formats_refused"
   ],
   "note": "ContainerProps.v"
  },
  {
   "property": "C38",
   "status": "proved",
   "theorems": [
    "C38_every_schedule",
    "C38_completes",
    "C38_spurious_refuted",
    "C38_end_of_range_refuted"
   ],
   "note": "RunnerProps.v; sequentially consistent memory; condition variables without spurious wakeups (C38_spurious_refuted) and ranges that do not end near 2^32 (C38_end_of_range_refuted); no re-entrant calls"
  },
  {
   "property": "C39",
   "status": "proved",
   "theorems": [
    "C39_round",
    "C39_partition"
   ],
   "note": "BorderProps.v; sequentially consistent atomics; paddings up to half a group, so that the borders of a group do not overlap"
  },
  {
   "property": "C40",
   "status": "proved",
   "theorems": [
    "C40_groups_tile_frame",
    "C40_block_groups_tile_blocks",
    "C40_dc_groups_tile_blocks",
    "C40_derived_sizes",
    "C40_frame_header_dimensions"
   ],
   "note": "FrameDimProps.v"
  },
  {
   "property": "C41",
   "status": "proved",
   "theorems": [
    "C41_natural_order",
    "C41_natural_unique",
    "C41_shared_orders",
    "C41_orders_apart",
    "C41_any_bits",
    "C41_roundtrip",
    "C41_encoder_orders",
    "C41_orders_agree"
   ],
   "note": "COrderProps.v; the floating-point rounding of the numbers of zeros is quantified over"
  },
  {
   "property": "C42",
   "status": "proved",
   "theorems": [
    "C42_every_history",
    "C42_file",
    "C42_sizes_do_not_matter",
    "C42_collecting_ends",
    "C42_close_late_refuted"
   ],
   "note": "JxlEncoderOutputProcessorWrapper without an output processor (GetBuffer, ReleaseBuffer, Seek, SetFinalizedPosition, SetAvailOut, FlushOutput), AppendData, AppendBox, the calls of ProcessOneEnqueuedInput and the frame encoders on the wrapper, and JxlEncoderProcessOutput. After any history the calls return consecutive pieces of one byte string that holds each queued input once and in order, with NEED_MORE_OUTPUT exactly as long as bytes remain. The bytes of each piece (headers, frame data) are parameters. The refutation shows why JxlEncoderCloseFrames has to come before output is collected, as documented."
  },
  {
   "property": "C43",
   "status": "proved",
   "theorems": [
    "C43_var_len_roundtrip",
    "C43_histogram_roundtrip",
    "C43_any_bits_safe"
   ],
   "note": "HistoProps.v; the histograms the float-driven normalization can produce are described by the predicate normalized in HistoSpec.v, the choice among them is not modelled"
  },
  {
   "property": "C44",
   "status": "proved",
   "theorems": [
    "C44_any_stream_is_safe",
    "C44_alias_tables_are_safe"
   ],
   "note": "AnsProps.v; reader_safe is shown for alias tables; distance multipliers below 2^28"
  },
  {
   "property": "C45",
   "status": "proved",
   "theorems": [
    "C45_code_construction",
    "C45_build_and_store_roundtrip",
    "C45_any_bits_safe"
   ],
   "note": "HuffTreeProps.v; at most 2^14 symbols that occur (beyond, the encoder's 16-bit node indices wrap)"
  },
  {
   "property": "C46",
   "status": "proved",
   "theorems": [
    "C46_code_and_values_roundtrip",
    "C46_code_roundtrip",
    "C46_any_bits_safe"
   ],
   "note": "CodesProps.v; how the encoder clusters and normalizes is not modelled: its decisions are quantified over (plan_ok); streaming mode is not covered"
  },
  {
   "property": "C47",
   "status": "proved",
   "theorems": [
    "C47_max_num_bits",
    "C47_accepted_code"
   ],
   "note": "CodesProps.v"
  },
  {
   "property": "C48",
   "status": "proved",
   "theorems": [
    "C48_gap_filled"
   ],
   "note": "TocProps.v; sums below 2^64"
  },
  {
   "property": "C49",
   "status": "proved",
   "theorems": [
    "C49_streaming_permutation",
    "C49_production_order",
    "C49_all_sections",
    "C49_buffered",
    "C49_centerfirst",
    "C49_numbered_boxes"
   ],
   "note": "TocProps.v; the floating-point comparison that orders groups centre first is quantified over (any order)"
  },
  {
   "property": "C50",
   "status": "proved",
   "theorems": [
    "C50_roundtrip"
   ],
   "note": "MaProps.v; with LZ77 the code must be able to say, outside copies, that a node is a leaf"
  },
  {
   "property": "C51",
   "status": "proved",
   "theorems": [
    "C51_every_history",
    "C51_file",
    "C51_stream",
    "C51_until_stop"
   ],
   "note": "XOutProps.v; the branches of JxlEncoderOutputProcessorWrapper with an output processor, for every processor. The parts the encoder goes back to fill in are assumed not to be empty (every frame and box has a header)"
  },
  {
   "property": "C52",
   "status": "partial",
   "theorems": [
    "C52_next_write_fails_partial",
    "C52_no_stop_partial",
    "C52_stop_reported_refuted",
    "C52_stop_finalized_refuted"
   ],
   "note": "XOutProps.v; false of the code when the stop comes in the last write-out of an input: two refutations. Proved: a call that succeeded although the processor asked to stop is followed by an error as soon as another frame or box is flushed; and success without a stop means that nothing is missing"
  },
  {
   "property": "C53",
   "status": "proved",
   "theorems": [
    "C53_no_crash",
    "C53_returns",
    "C53_unread",
    "C53_after_error_refuted"
   ],
   "note": "InpAnyProps.v; the model of C32-C34 without any assumption on the file. The claim ends at the first error; C53_after_error_refuted shows that a caller who goes on after an error can reach a wrapped subtraction. The codestream parser and the decompression of brob boxes are parameters or absent, see DESIGN.md"
  },
  {
   "property": "C54",
   "status": "proved",
   "theorems": [
    "C54_every_pixel"
   ],
   "note": "PatchProps.v; the arithmetic of the blending itself is not modelled: the theorem says which sources are blended over a pixel, in which order and with which blending"
  },
  {
   "property": "C55",
   "status": "proved",
   "theorems": [
    "C55_accepted",
    "C55_no_stray_access",
    "C55_memory_refuted"
   ],
   "note": "PatchProps.v; the entropy decoder is any reader of 32-bit numbers, and the dictionary left by earlier frames is any. What the code does not bound is the memory kept from earlier frames: C55_memory_refuted"
  },
  {
   "property": "C56",
   "status": "partial",
   "theorems": [
    "C56_first_frame_partial",
    "C56_places_partial",
    "C56_second_frame_refuted",
    "C56_references_refuted"
   ],
   "note": "PatchProps.v; true of the first frame with patches. False of later frames: blendings and references of earlier frames are kept (two refutations); places and rectangles are right for all frames. The tokens are the numbers with their contexts; their entropy coding is C12 and C46"
  },
  {
   "property": "C57",
   "status": "proved",
   "theorems": [
    "C57_no_stray_access",
    "C57_block_context",
    "C57_contexts_apart",
    "C57_without_slack_refuted",
    "C57_many_histograms_refuted"
   ],
   "note": "AcProps.v; the entropy decoder is any reader of 32-bit numbers, orders are any lists of places inside of the block. The first refutation shows that the 16 extra entries of the context map are needed; the second that the bound of 2^31 contexts is (the context of the number of nonzero coefficients is an int32_t)"
  },
  {
   "property": "C58",
   "status": "proved",
   "theorems": [
    "C58_round_trip",
    "C58_low_frequencies_refuted"
   ],
   "note": "AcProps.v; tokens, not bits (the entropy coder is C12 and C46); one pass (several are C60). The maps of counts may start with anything on both sides. The refutation: the function that counts nonzero coefficients does not skip the lowest frequencies of blocks larger than 8x8, as its comment says; it works because the quantizer leaves zeros there"
  },
  {
   "property": "C59",
   "status": "proved",
   "theorems": [
    "C59_all_passes",
    "C59_every_prefix",
    "C59_settings",
    "C59_asserted_modes_refuted"
   ],
   "note": "SplitProps.v; the refutation: what the constructor of a mode asserts is not enough (a shifted pass followed by one with more coefficients loses bits); only custom modes can be like that"
  },
  {
   "property": "C60",
   "status": "proved",
   "theorems": [
    "C60_all_passes"
   ],
   "note": "AcPassProps.v; C58 and C59 together, tokens of each pass; the passes are read one after the other"
  },
  {
   "property": "C61",
   "status": "proved",
   "theorems": [
    "C61_accepted_is_usable",
    "C61_round_trip",
    "C61_default_refuted"
   ],
   "note": "BlockMapProps.v; the context map inside is any writes and any reading program that agree (C46). The refutation: the single bit for the default map is never written, because the encoder looks for 21 entries and the default has 39"
  },
  {
   "property": "C62",
   "status": "proved",
   "theorems": [
    "C62_transforms_tile",
    "C62_tilings_accepted"
   ],
   "note": "AcMetaProps.v; the loops of DecodeAcMetadata and SetNoBoundsCheck on any four channels; the modular decoding of the channels is C05 and after"
  }
 ]
}