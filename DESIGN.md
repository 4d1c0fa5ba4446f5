# Formal model of libjxl in Rocq: design

## 1. Layout

* `rocq/theories/Base.v`: shared arithmetic (32/64-bit wraparound written out explicitly, bit strings).
* `rocq/theories/<Area>Model.v`: Gallina definitions, one per modelled C++ function; each carries a
  comment with the file and lines modelled and the simplifications made. No proofs.
* `rocq/theories/<Area>Spec.v`: small independent specifications, not mentioning model helpers.
* `rocq/theories/<Area>Proofs.v`: lemmas.
* `rocq/theories/<Area>Props.v`: only property theorems, each closed by `exact lemma`, with an
  `Example` showing that a concrete non-trivial case meets the hypotheses and with
  `Print Assumptions` below.
* `MANIFEST.json`: property -> theorem names. `seeded/LOG.jsonl`: mutation experiments.

## 2. Conventions

* `uint32_t`/`size_t` values are `Z` (or `N`); every operation that can wrap in C++ has an explicit
  `mod 2^32`/`mod 2^64`; signed overflow that is undefined behaviour is either an explicit
  hypothesis of the theorem ("no overflow") or a distinct outcome.
* Loops are structural recursion or fuel; fuel exhaustion is a distinct outcome, and a theorem
  shows that it cannot happen.
* Memory reads outside the modelled buffer are a distinct outcome (`None`/`OOB`), excluded by theorem.
* External components (brotli, entropy coder when irrelevant, user callbacks) are section variables
  (closed at `End`), so that theorems quantify over them.

## 3. Plan per property

| id | model | proof |
|----|-------|-------|
| C01 | BitWriter (read-modify-write of 8 bytes), BitReader (64-bit buffer, fast/slow refill) | both refine a bit string; induction on fields |
| C02 | same reader | invariant relating buffer to suffix of bit string, induction on operations |
| C03 | same, with overread counter | same invariant; reads are modelled as partial |
| C04 | U32Coder/U64Coder/F16Coder as functions on bit strings | case analysis, induction for the varint; F16 by exhaustive kernel computation over all 2^16 patterns lifted by forallb |
| C05 | deep embedding of VisitFields as a free structure over field descriptors; Init/AllDefault/Read/CanEncode/Write visitors as interpreters | structural induction over bundle descriptions |
| C06 | concrete bundles as terms of the embedding | instances of C05 + per-bundle statements |
| C07 | SizeHeader::Set/xsize/ysize | case analysis + div/mod arithmetic |
| C08 | extensions in the embedding | one-level theorem; nested bundles refuted (see findings) |
| C09 | CanRead on prefixes | monotonicity by induction over bundle |
| C10 | HybridUintConfig Encode/Read | bit arithmetic |
| C11 | InitAliasTable with its two stacks, Lookup | loop invariant over the bucket redistribution |
| C12 | PutSymbol, WriteTokens (reverse order), reader | induction over tokens; numerical lemma for the reciprocal |
| C13 | BuildHuffmanTable, ConvertBitDepthsToSymbols, ReadSymbol | canonical code theory |
| C14 | WriteHuffmanTree / ReadHuffmanCodeLengths run expansion | induction over runs |
| C15 | ReadHybridUintClustered with window | refinement to textual expansion |
| C16 | MTF and inverse MTF | induction with list invariant |
| C17 | Fenwick-style Lehmer code functions | counting invariants |
| C18 | ReadToc, ReadGroupOffsets, DecodePermutation, WriteTocPermutation, WriteTocSizes, FrameDecoder's section list | parsing theorems, induction over entries and permutation |
| C19 | PackSigned/UnpackSigned on Z mod 2^32 | lia |
| C20 | FwdRct/InvRct per pixel + channel moves | case split over 42 types |
| C21 | Fwd/Inv H/VSqueeze on rows, channel-list bookkeeping | induction over pixels |
| C22 | FastUnsqueeze lane arithmetic | case analysis with lia |
| C23 | the encoder's seven paths and the decoder's six paths over a filtered tree, with lookup tables, the weighted predictor and reference properties | each path follows a function of the pixels before; the functions agree up to the context map; induction over pixels, rows and channels |
| C24 | FilterTree, MATreeLookup, TreeToLookupTable | simulation between walks |
| C25 | DecodeTree, ValidateTree | loop invariant |
| C26 | ClampedGradient with wraparound | lia |
| C27 | GetPaletteValue, InvPalette, MetaPalette, lossless FwdPalette | invariants of the colour scans, maps and lookup tables; case analysis for implicit colours |
| C28 | PredictICC, UnpredictICC with all commands | simulation: encoder position and decoder position in lockstep; refuted in general (see findings), proved under explicit side conditions |
| C29 | UnpredictICC, DecodeVarInt with partial reads | totality of the model, output length invariant |
| C30 | ReadSignature | case analysis, prefix monotonicity |
| C31 | ParseBoxHeader, box header writer | arithmetic |
| C32 | input window state machine of JxlDecoder | refinement invariant over all API/parse steps |
| C33 | jxlp buffering | the same invariant, with the parts still to come; events by a parser that depends on the bytes only; refuted when frames are skipped with boxes out of order (see findings) |
| C34 | BoxContentDecoder raw path, box buffer API | invariant over steps |
| C35 | GetFrameDependencies, JxlDecoderSkipFrames, the decision in JxlDecoderProcessCodestream to pass over a frame, rewinding | invariant over any sequence of calls |
| C36 | all members of JxlDecoder; Create, Reset, Rewind and the accesses to the members that Reset leaves; the code between them is any function of the others | simulation of two decoders that agree in all that is read before it is written; refuted for the level of detail and JPEG reconstruction (see findings) |
| C37 | GetMinSize with SafeMul | arithmetic |
| C38 | ThreadParallelRunner: Runner, RunRange, ThreadFunc, StartWorkers, WorkersReadyBarrier, constructor and destructor, as steps of a calling thread and n workers | invariant over every interleaving; a measure that each step decreases |
| C39 | corner counters with atomic fetch_or | invariant over any interleaving of atomic steps |
| C40 | FrameDimensions | arithmetic |
| C41 | CoeffOrderAndLut, DecodeCoeffOrders, ComputeCoeffOrder (without the counting), EncodeCoeffOrders | exhaustive kernel computation for the 27 strategies (finite domain), permutation theorem, induction over strategies and parts |
| C42 | JxlEncoderOutputProcessorWrapper without a caller's output processor, AppendData, AppendBox, the calls that ProcessOneEnqueuedInput, EncodeFrame and the fast lossless encoder make on it, JxlEncoderProcessOutput | invariant between the file as a partial map of positions and the buffers; induction over calls and histories |
| C43 | ANSEncodingHistogram::Encode, ReadHistogram | parsing theorem per part (widths, mantissas, runs), finite checks for the width code |
| C44 | symbol reader on arbitrary bits | invariant on state, window and counters, induction over reads |
| C45 | CreateHuffmanTree, storage of prefix codes | multiset invariant of the two-queue construction, Kraft equality |
| C46 | BuildAndEncodeHistograms, DecodeHistograms, context maps | composition of C10-C16, C43-C45 by parsing theorems; recursion by depth |
| C47 | UpdateMaxNumBits, degenerate symbols | the reader's invariant of C44 with a predicate on values |
| C48 | ComputeGroupDataOffset, ComputeDcGlobalPadding | arithmetic of size classes, induction over sections |
| C50 | TokenizeTree and DecodeTree over any entropy code | level order of the nodes as a relation between trees and arrays; token programs |
| C51 | the same wrapper with a caller's output processor (with and without seek), JxlEncoderFlushInput | the processor's documentation as a state machine over the calls it sees; invariant between the file, the wrapper's buffers and the processor's file; the calls of an input as a plan (C42) |
| C52 | the same | refuted (see findings); partial: the flag stop_requested_ is an invariant of the trace, and every writing call fails once it is set |
| C53 | the model of C32 to C34, on any sequence of bytes | invariant: the input is a piece of the file, and the position with the header or the bytes kept for the parser stays within the box; preserved by every stage or an error is returned |
| C54 | PatchDictionary: ComputePatchTree, GetPatchesForRow, AddOneRow, for any sorting functions | the nodes form a search tree (by induction on the queue); walking it gives the intervals that contain the row; sorted index lists are unique |
| C55 | PatchDictionary::Decode on any reader | induction over references, positions and channels; then C54's bounds |
| C56 | PatchDictionaryEncoder::Encode and Decode on lists of tokens | groups by induction on the number of positions left; refutations by computation |
| C57 | DecodeACVarBlock over any reader, ac_context.h, DecodeBlockCtxMap | table checked for all pairs by computation, loop by induction |
| C58 | TokenizeCoefficients and DecodeACVarBlock on lists of tokens | loop by induction on the coefficients left; count by permutation |
| C59 | SplitACCoefficients, header shifts and the sums of the decoder | invariant: what is known after a prefix of passes |
| C60 | C58 with accumulation and shifts, pass after pass | C58's loop generalised, C59's invariant for every block |
| C61 | DecodeBlockCtxMap as a reading program, EncodeBlockCtxMap as a list of writes | parsing lemmas of C04; inversion of the program |
| C62 | the loops of DecodeAcMetadata over images as functions, SetNoBoundsCheck | invariant: a list of transforms placed so far, disjoint, inside, covering every block passed |
| C49 | ComputePermutationForStreaming, PermuteGroups, section placement of EncodeFrameStreaming | lists without repetition, block by block |

The status of each property is in MANIFEST.json; what follows is kept up to date with the proofs.

## 4. Trusted base

* Coq's kernel (8.16.1) and its `vm_compute` reduction machine (`native_compute` is not used).
* No axioms: `Print Assumptions` below each theorem of each `*Props.v` reports
  "Closed under the global context". No file of the development states an axiom, parameter,
  section-less variable or hypothesis; there are no functors and module types.
  (Files that load ssreflect through libraries list `Coq.ssr.ssrunder`'s module interface; no
  theorem depends on it.)
* The correspondence between the Gallina definitions and the C++ code, which was made by hand;
  each definition cites the lines it models and names its simplifications. Mutation of the
  definitions (seeded/LOG.jsonl) tests the theorems, not this correspondence.
* Assumptions made throughout about the platform: `int` and `uint32_t` have 32 bits, `size_t`
  and pointers 64 bits, little-endian loads as in the generic code path, two's complement
  conversion to signed types.

## 5. What is modelled

| area | code | files |
|------|------|-------|
| bit input and output | enc_bit_writer.{h,cc}, padded_bytes.h, dec_bit_reader.{h,cc} | BitWriter*, BitReader*, BitIO*, BitProg* |
| field coders | fields.cc, enc_fields.cc, field_encodings.h, pack_signed.h | Fields*, F16Proofs |
| header bundles | fields.h visitors; SizeHeader, PreviewHeader, AnimationHeader, BitDepth, ExtraChannelInfo, ToneMapping, OpsinInverseMatrix, CustomTransformData, Passes, BlendingInfo, FrameOrigin, LoopFilter, YCbCrChromaSubsampling, modular headers, ... (see HeadersModel.v) | Bundle*, Headers* |
| container | signature, box headers, output buffer size | Container* |
| frame geometry | frame_dimensions.h, rect.h | FrameDim* |
| integer coding | HybridUintConfig and its storage | HybridUint* |
| entropy coding | ans_common, enc_ans (tables, PutSymbol, WriteTokens), dec_ans.h symbol reader with LZ77 | Alias*, Ans*, Lz*, TokProg |
| prefix codes | huffman_table, dec_huffman, enc_huffman, enc_huffman_tree | Huff* |
| histograms | ANSEncodingHistogram::Encode, ReadHistogram | Histo* |
| code descriptions | BuildAndEncodeHistograms, DecodeHistograms, context maps, move-to-front | Codes*, Mtf* |
| permutations | lehmer_code.h, DecodePermutation, EncodePermutation | Lehmer*, Perm* |
| decision trees | modular/encoding/dec_ma.{h,cc}, ma_common.h, TokenizeTree (enc_ma.cc), FilterTree (encoding.cc), TreeToLookupTable (encoding.h), MATreeLookup (context_predict.h) | Ma* |
| coefficient orders | ac_strategy.{h,cc}, coeff_order.{h,cc}, enc_coeff_order.cc | COrder* |
| table of contents | toc.h, toc.cc, enc_toc.cc; section numbering and order in dec_frame.cc and enc_frame.cc | Toc* |
| finalization of pixels | dec_group_border.{h,cc} (GroupBorderAssigner), fetch_or/fetch_and as single steps of any interleaving | Border* |
| modular transforms | rct, squeeze (pixels, the scalar and the fast SIMD form) | Rct*, Squeeze* |
| palettes | palette.{h,cc}; enc_palette.cc without the lossy (delta) parts; the sort of the palette by luma is any permutation; predictions in delta palettes are any function of the pixels before | Palette* |
| skipping frames | GetFrameDependencies, JxlDecoderSkipFrames, JxlDecoderRewind and the frame loop of decode.cc; FrameHeader::CanBeReferenced, FrameDecoder::SavedAs and References as attributes of a frame | Skip*, OMap |
| ICC transform | lib/jxl/enc_icc_codec.cc (PredictICC and its helpers), lib/jxl/icc_codec.cc (UnpredictICC, Unshuffle, CheckPreamble), lib/jxl/icc_codec_common.cc | Icc* |
| modular channels | lib/jxl/modular/encoding/context_predict.h (all predictors, weighted::State, properties), encoding.cc DecodeModularChannelMAANS and the channel loop of ModularDecode, enc_encoding.cc EncodeModularChannelMAANS and the channel loop of ModularCompress; signed overflow in the weighted predictor is an error; a symbol reader is a list of (context, value) | Res* |
| encoder output queue | lib/jxl/encode.cc:111-436, 765-1161 (the calls on the wrapper only), 2695-2715, encode_internal.h:446-612, the same of enc_frame.cc:2045-2360 and enc_fast_lossless.cc:884-910, 4031-4158, 4418-4434; not the bytes of headers and frames; output processors are in XOut* | Out* |
| decoder input (C53: InpAny*) | lib/jxl/decode.cc: HandleBoxes, GetCodestreamInput, AdvanceCodestream, RequestMoreInput, InjectNextBufferedJxlpBox, SetInput, ReleaseInput, SetBoxBuffer, ReleaseBoxBuffer, SkipCurrentFrame; box_content_decoder.cc for boxes that are not compressed; the codestream parser is any sequence of reads, moves and events; not JPEG reconstruction boxes, brob, the size hint, allocation failure | Inp* |
| decoder reset | the members of JxlDecoder, JxlDecoderCreate, Reset, Rewind, JxlToJpegDecoder, StartBox of JxlBoxContentDecoder, the use of ICCReader; every other part of decode.cc is a parameter that sees and changes the members that Reset sets | Reset* |
| output processors | lib/jxl/encode.cc:111-358, 2664-2693 with external_output_processor_ set; the calls on the wrapper are those of Out*; not JxlEncoderSetOutputProcessor on an encoder that already produced output | XOut* |
| patches | lib/jxl/dec_patch_dictionary.{h,cc}, PatchDictionaryEncoder::Encode of enc_patch_dictionary.cc; not the search for patches, not the arithmetic of the blending, not the reservation of memory | Patch* |
| AC coefficients | lib/jxl/ac_context.h, DecodeBlockCtxMap of entropy_coder.cc and EncodeBlockCtxMap of enc_context_map.cc, TokenizeCoefficients and NumNonZero* of enc_entropy_coder.cc, DecodeACVarBlock of dec_group.cc, the contexts of DequantDC in compressed_dc.cc; not the clustering of contexts, not the skipping of subsampled blocks (the same on both sides: the model takes the list of blocks that are coded) | Ac*, BlockMap* |
| passes | lib/jxl/enc_progressive_split.{h,cc} without the downsampling fields, SetProgressiveMode's modes, the accumulation in dec_group.cc | Split*, AcPass* |
| block metadata | the loops of DecodeAcMetadata in lib/jxl/dec_modular.cc and SetNoBoundsCheck in ac_strategy.h; not the colour correlation maps, used_acs and ComputeSigma | AcMeta* |
| thread pool | lib/threads/thread_parallel_runner_internal.{h,cc}, without RunOnEachThread | Runner* |

Not modelled: floating-point code (XYB, DCT, filters, quantization, noise, splines, histogram
normalization and clustering decisions, which are quantified over instead), SIMD versions other
than those named, the fast-lossless encoder, JPEG reconstruction, brotli, colour management, file
format front ends (extras, tools), memory managers that fail, GPU-independent build variants.

## 6. Findings

Statements that one may expect and that are false of the model are proved refuted, with the witness in
the theorem:

* `C04_f16_exact_or_refused_refuted`: the half-float coder accepts values it does not restore exactly.
* `C05_near_default_refuted`, `C05_reader_only_check_refuted`: a bundle written as all-default although
  a float differs from its default by less than the comparison's tolerance; a value the writer
  accepts and the reader refuses.
* `C08_nested_extension_refuted`: extensions in bundles nested in others are not skipped as those at the top.
* `C10_token_order_refuted`: tokens do not grow with values in configurations with low bits in the token.
* `C18_too_large_refuted`: WriteTocSizes passes size_t to a coder of uint32_t; a section of 2^32 bytes or more is
  announced with its size modulo 2^32 (sections between 2^30 + 4211712 and 2^32 bytes are refused).
* `C22_any_magnitude_refuted`: the SIMD unsqueeze differs from the scalar one for samples of large magnitude.
* `C24_lut_refuted`: TreeToLookupTable lets a split at -8193 through; for properties of -8193 and below the table
  (which clamps to -8192) then says what the tree says for greater ones.
* `C25_size_limit_refuted`: the decoder's check of the number of nodes lets one more pass than the limit.
* `C27_deep_refuted`: above 24 bits per sample (floats of 25 to 31 bits) the encoder and the decoder disagree about the
  implicit palette colours, and the palette transform is not lossless.
* `C30_not_enough_exact_refuted`: the signature check asks for more bytes on prefixes that no signature starts with.
* `C31_encoder_header_refuted`: sizes for which the encoder's box header (without the large form) does not
  decode to the size.

Noticed while modelling (excluded by hypotheses of the theorems or by the model's comments):

* CreateHuffmanTree keeps node indices in int16: more than 2^14 used symbols wrap; totals wrap at 2^32.
* A prefix alphabet size of 65536 wraps to 0 in the reader and is accepted.
* ANSBuildInfoTable writes entry 0 of an empty table for an empty ANS histogram (the encoder avoids ANS
  for so few tokens).
* In streaming mode the encoder writes a context map even for a single context, and an empty histogram makes
  StoreVarLenUint16 wrap.
* LZ77 counters are 32 bits: after exactly 2^32 values the prefix of the window is taken for unwritten.
* SpecialDistance overflows an int for distance multipliers near 2^31 (theorems assume below 2^28).
* The decoder refuses a tree as infinite if the property context's histogram has a single positive symbol; with LZ77 copies
  from other contexts such a tree can be finite (hypothesis `says_leaf` of C50_roundtrip).
* A Write of zero bits on a fresh BitWriter dereferences a null pointer.
* `C35_coalescing_refuted`: the coalescing setting may be changed after JxlDecoderRewind, but the table from stills to
  frames is kept from the pass with the other setting.  A following JxlDecoderSkipFrames then passes over a frame that a
  shown frame is drawn over.
* `C35_skip_in_skip_refuted`: JxlDecoderSkipFrames to a frame not yet seen, in the middle of skipping to a frame already
  seen, drops the list of required frames.  A frame that is not shown, and that no shown frame needs, is then decoded
  although a frame it is drawn over was passed over.
* (not a theorem) JxlDecoderSkipFrames adds to a size_t without a check: skipping 2^64 frames in all wraps around.
* `C38_spurious_refuted`: ThreadFunc guards against a spurious wakeup only while the command is kWorkerWait.  A worker
  that is ready and wakes up while others still work finds the old range, takes no task, and increments workers_ready_ a
  second time.  Runner can then return while a call of the function is in progress.
* `C38_end_of_range_refuted`: `begin + num_reserved_` is computed in 32 bits.  When the range ends near 2^32, a worker that
  comes after the last task wraps around and calls the function for task 0.  No caller in libjxl uses such a range.
* (not a theorem) when Runner is called again from inside a task, depth_ is incremented and not decremented: the outer call
  reports an error too, and so does every later call.
* `C28_wrap_refuted`: PredictICC compares the starts of gXYZ and bXYZ with `tagstart + 20` and `tagstart + 40` modulo 2^32.
  If rXYZ starts above 2^32 - 41 and the other starts wrap, it uses the short form for the three tags, which UnpredictICC
  refuses (CheckIs32Bit).  The encoder writes a file that the decoder rejects.
* `C28_long_commands_refuted`: ICCReader::Init runs CheckPreamble on an array of at most 1024 bytes, and CheckPreamble
  demands that all commands are within the array.  A profile with more than about 1014 command bytes is refused although
  UnpredictICC would decode it (a profile with 120 unknown tags suffices).
* (not a theorem) PredictICC compares with the variable `tag` before it is set; the theorems hold for any initial value.
* `C23_edge_refuted`: the lookup table of a tree accepts a split of property 15 at -8193 (like `C24_lut_refuted`), and is
  then wrong below -8192.  The encoder uses the table for channels of any width, the decoder only for more than 8 columns and
  without LZ77; otherwise it asks the tree.  A channel of two pixels 5000 and 0 is enough: the decoder reads the second
  symbol with another context than it was written with.
* `C23_slow_refuted`: with skip_encoder_fast_path (not set anywhere in the library) the encoder looks up the gradient property
  wrapped to 32 bits, while the decoder's table is looked up with the 64-bit sum.
* (not a theorem) the encoder's lookup table has 16-bit entries and is not limited by the number of contexts: with more than
  65536 contexts they are truncated.  `C23_image_back` assumes at most 65536.
* `C42_close_late_refuted`: the bytes of the last frame depend on whether JxlEncoderCloseFrames was called before the call of
  JxlEncoderProcessOutput that codes it, and so on the buffer sizes when it is called between two such calls.  The
  documentation of JxlEncoderCloseFrames forbids this order.
* `C33_skip_refuted`: when the parser moves past the end of the available data (a frame that is passed over) and the boxes
  that hold those bytes are out of order, the decoder fails with an internal error; with the same boxes in order it does not.
  AdvanceCodestream asks the file for bytes that are in the buffered boxes.
* `C33_open_part_refuted`: a jxlp box with size 0 (to the end of the file) is decoded in place; buffered parts with a higher
  index are never injected after it.
* `C32_skip_after_release_refuted`: JxlDecoderSkipCurrentFrame between JxlDecoderReleaseInput and JxlDecoderSetInput
  subtracts the bytes that were both copied and in the input from an `avail_in` of 0: it wraps.
* `C32_skip_at_box_refuted`: JxlDecoderSkipCurrentFrame at a JXL_DEC_BOX event in the middle of a frame consumes bytes of the
  next box's header as codestream; the codestream boxes after it are not found.
* `C34_open_box_refuted`: a metadata box that extends to the end of the file is reported complete with every chunk of it.
* `C34_complete_again_refuted`: after JXL_DEC_BOX_COMPLETE, JxlDecoderProcessInput reports it again without doing anything,
  until JxlDecoderReleaseBoxBuffer is called.
* `C36_detail_refuted`: JxlDecoderReset does not reset the level chosen with JxlDecoderSetProgressiveDetail, although its
  documentation says that all settings are reset.  `C36_detail_only_partial` says that this is the only difference when JPEG
  reconstruction is not used.
* `C36_jpeg_buffer_refuted`, `C36_jpeg_data_refuted`: JxlDecoderReset does not touch `jpeg_decoder`.  A buffer that was set
  and not released stays set: JxlDecoderSetJPEGBuffer fails after the reset and the old buffer would be written to.  The
  contents of a jbrd box that no frame used are attached to the first frame of the next file.  A reset in the middle of a
  jbrd box makes the next jbrd box continue it.  `C36_finished_partial` says when nothing is left.
* `C52_stop_reported_refuted`: the documentation of JxlEncoderOutputProcessor says that the library returns an error when
  get_buffer asks to stop.  When the stop comes while the library writes out its own buffers at the end of an input,
  JxlEncoderFlushInput returns JXL_ENC_SUCCESS although bytes were not delivered (`WasStopRequested` is not used anywhere).
* `C52_stop_finalized_refuted`: with a seek callback, set_finalized_position is then called with a position behind bytes that
  were never written.  C51 holds until the first stop (`C51_until_stop`), and the next flush that has something to write
  reports the error (`C52_next_write_fails_partial`).
* (not a theorem) ReleaseBuffer(0) calls release_buffer of the processor also when the buffer is the library's own.  The
  encoder never releases an empty buffer in that situation.
* `C53_after_error_refuted`: a caller who calls JxlDecoderProcessInput again after JXL_DEC_ERROR can make it read outside
  of a box.  A jxlp box that is refused has already had its four bytes of number consumed; the second call takes the next
  four bytes for the number, and for a short box the position is then beyond its end, so that AvailableCodestream
  subtracts below zero.  The bytes read are still bytes of the caller's buffer, but the limits of the box are lost.
  JxlDecoderProcessInput means to refuse such calls ("Cannot keep using decoder after it encountered an error",
  decode.cc:2167-2171), but no code assigns DecoderStage::kError, so the check never fires.
* `C56_second_frame_refuted`: PatchDictionary::Decode clears `positions_` and not `blendings_` (dec_patch_dictionary.cc:35),
  and the object lives as long as the decoder works on an image (decode.cc:1138).  A patch takes its blending at its own
  number times the stride, from the start of `blendings_`: in the second frame with patches those are the blendings of the
  first.  An image where a frame adds its patches and a later one replaces is decoded wrongly.  libjxl's own encoder
  writes the same blending (kAdd for colour, kNone for the rest) for all patches it finds, so that its files hide this.
* `C56_references_refuted`: `ref_positions_` is kept as well, so FrameDecoder::References reports frames that only earlier
  frames used.  JxlDecoderSkipFrames relies on it: frames are decoded that could be skipped.
* `C55_memory_refuted`: for the same reason the memory of the dictionary grows with the number of frames; the limits in Decode
  are for one frame.
* `C57_many_histograms_refuted`: in DecodeACVarBlock (dec_group.cc:493) the context of the number of nonzero coefficients is an
  int32_t, although ctx_offset is a size_t.  With more than 2^31 contexts in a frame (about 289000 histogram sets with the
  default block context map; a frame may have as many sets as groups) it is negative and the context map is read outside of
  its memory.  Such a file needs a context map of 2 GB.
* `C57_without_slack_refuted`: a file may announce more nonzero coefficients than a block has left; the contexts then go up to
  473 and not 457.  The 16 entries added to the context map in dec_frame.cc:405-413 are exactly what is needed.
* `C58_low_frequencies_refuted`: NumNonZeroExceptLLF (enc_entropy_coder.cc:58-78) is meant to skip the lowest frequencies.  Its
  mask array has only its first four entries set, and the pointer into it starts at kMaxCoeffBlocks - cx, which is 16
  or more for blocks up to 16 blocks wide: nothing is skipped (for 32 blocks, four of 32 columns).  It works only because the
  quantizer leaves zeros there; otherwise JXL_ENSURE(nzeros == 0) fails.
* `C59_asserted_modes_refuted`: the constructor of ProgressiveMode asserts that passes have more coefficients, or as many
  with a smaller shift.  That allows a pass with a shift followed by one with more coefficients, such as {3, shift 1}, {8,
  shift 0}: SplitACCoefficients then takes the high bits of all coefficients as already sent (previous_pass_shift is not tied to
  the square of the previous pass), and the new coefficients lose them.  The modes of the settings are not like that;
  custom_progressive_mode can be.
* `C61_default_refuted`: EncodeBlockCtxMap (enc_context_map.cc:150-156) writes the single bit for the default block context map
  only if the map has 21 entries; the default has had 39 since there are 13 orders.  The bit is never written, and
  the default costs a full context map in every frame.  Decoding is right.
