{"id": "C01", "title": "Bits written are the bits read back", "statement": "Every sequence of fields written with BitWriter::Write (each a value that fits its declared width of at most 56 bits), padded to a byte boundary, is read back by a BitReader over the produced bytes with the same widths as exactly the same values, consuming exactly the sum of the widths, and the reader closes successfully.", "quantifier": "every finite sequence of (width<=56, value<2^width) pairs", "why_tests_cant": "infinitely many sequences; correctness depends on the alignment of every field relative to bytes and to the 64-bit refill window", "anchors": ["lib/jxl/enc_bit_writer.h:BitWriter::Write", "lib/jxl/enc_bit_writer.cc:BitWriter::Write", "lib/jxl/dec_bit_reader.h:BitReader::ReadBits", "lib/jxl/dec_bit_reader.h:BitReader::Refill"]}
{"id": "C02", "title": "The bit reader behaves as a cursor over an abstract bit string extended with zeros", "statement": "For any byte span and any sequence of reads, skips and byte-boundary jumps, each read returns the bits of the (little-endian, LSB first) bit string at the current position, with zeros after the end, and the reported number of consumed bits is the sum of what was asked for; fast and bounds-checked refills are indistinguishable.", "quantifier": "every byte span and every sequence of ReadBits/SkipBits/Peek+Consume operations", "why_tests_cant": "the refill keeps junk in the buffer and has two code paths selected by how close the cursor is to the end; tests exercise a few alignments only", "anchors": ["lib/jxl/dec_bit_reader.h:BitReader", "lib/jxl/dec_bit_reader.cc:BoundsCheckedRefill"]}
{"id": "C03", "title": "Reading past the end is always detected and never accesses memory outside the span", "statement": "AllReadsWithinBounds returns true exactly when the total number of bits asked for so far does not exceed the number of bits in the span; every memory access of the reader is inside the span.", "quantifier": "every span and every operation sequence, including skips far past the end", "why_tests_cant": "truncation can happen at each bit of each stream; memory safety is a for-all statement", "anchors": ["lib/jxl/dec_bit_reader.h:AllReadsWithinBounds", "lib/jxl/dec_bit_reader.h:SkipBits", "lib/jxl/dec_bit_reader.cc"]}
{"id": "C04", "title": "Header integers (U32 / U64 / F16) round trip with exactly the predicted size", "statement": "For each U32 distribution, every value that the encoder accepts is written in exactly the number of bits the encoder predicted and read back unchanged; the same holds for every 64-bit value with the U64 code and each finite half-precision value with F16; U32 values outside the distribution, and floats that are NaN, infinite or larger than 65504, are refused; other floats are rounded toward zero to the nearest half (so a float is unchanged exactly when it is a half-precision value; the stronger reading 'not representable values are refused' is false and refuted).", "quantifier": "every distribution quadruple, every 32-bit / 64-bit value, each half-float bit pattern", "why_tests_cant": "value space is 2^64 and distributions are arbitrary; off-by-one in a selector only shows at boundaries", "anchors": ["lib/jxl/fields.cc:U32Coder", "lib/jxl/fields.cc:U64Coder", "lib/jxl/fields.cc:F16Coder", "lib/jxl/enc_fields.cc", "lib/jxl/field_encodings.h"]}
{"id": "C05", "title": "Header bundles round trip", "statement": "For any header bundle (fields visited by one VisitFields routine, with conditionals, nested bundles, all-default shortcut and extensions), every value the encoder accepts (whose floats are half-precision numbers that are no near misses of their default, and which passes the checks only readers make) is written in exactly the predicted number of bits, and reading these bits yields the same serialized fields and consumes exactly those bits. Without the parenthesised conditions this is false.", "quantifier": "every bundle description and every assignment of its fields", "why_tests_cant": "there are dozens of bundles with exponentially many combinations of conditional fields", "anchors": ["lib/jxl/fields.h:VisitorBase", "lib/jxl/fields.cc:Bundle", "lib/jxl/enc_fields.cc"]}
{"id": "C06", "title": "Concrete image headers round trip", "statement": "SizeHeader, PreviewHeader, AnimationHeader, BitDepth, ExtraChannelInfo, ToneMapping, CustomTransformData-style, weighted-predictor, squeeze, transform, group, TOC-level and loop-filter headers: what JxlEncoder writes is what JxlDecoder reads.", "quantifier": "each value of each header the encoder accepts", "why_tests_cant": "the product space of header fields is astronomically large", "anchors": ["lib/jxl/headers.cc", "lib/jxl/image_metadata.cc", "lib/jxl/frame_header.cc", "lib/jxl/loop_filter.cc", "lib/jxl/modular/transform/transform.cc", "lib/jxl/modular/encoding/context_predict.h"]}
{"id": "C07", "title": "Image dimensions survive encoding", "statement": "For every xsize, ysize in 1..2^30, the size header built by the encoder reports exactly xsize and ysize, also when it uses the aspect-ratio or divisible-by-8 short forms.", "quantifier": "all pairs of dimensions accepted by the encoder", "why_tests_cant": "2^60 pairs; the ratio form multiplies and divides with truncation", "anchors": ["lib/jxl/headers.cc:SizeHeader::Set", "lib/jxl/headers.cc:SizeHeader::xsize"]}
{"id": "C08", "title": "Unknown header extensions are skipped", "statement": "A decoder that does not know an extension skips exactly the bits announced for it and continues with the field after it, so a stream with future extensions in its outermost bundle decodes to the same known fields. (For extensions of a bundle nested in an extensible bundle this is false.)", "quantifier": "every number of extensions with every announced size and any content, in each bundle", "why_tests_cant": "future streams do not exist yet, and nesting of extensible bundles multiplies the cases", "anchors": ["lib/jxl/fields.cc:ReadVisitor::BeginExtensions", "lib/jxl/fields.cc:ReadVisitor::EndExtensions", "lib/jxl/frame_header.cc", "lib/jxl/loop_filter.cc"]}
{"id": "C09", "title": "Truncated headers never decode", "statement": "If a header bundle is readable from a byte string, then it is not reported as readable from any prefix that is too short to contain it (the reader asks for more input instead), and appending bytes never changes the fields already read.", "quantifier": "every bundle, every stream, each truncation point", "why_tests_cant": "streaming decoders see each possible cut", "anchors": ["lib/jxl/fields.cc:Bundle::CanRead", "lib/jxl/fields.cc:Bundle::Read", "lib/jxl/decode.cc:ReadBundle"]}
{"id": "C10", "title": "Hybrid-uint token split is lossless", "statement": "For every valid hybrid-uint configuration and each 32-bit value, splitting the value to (token, nbits, bits) and decoding gives the value back, with bits < 2^nbits; if no low-order bits are kept in the token, tokens are ordered like the values (with low-order bits in the token this is false and refuted).", "quantifier": "every (split_exponent, msb_in_token, lsb_in_token) and each uint32", "why_tests_cant": "hundreds of configurations times 2^32 values", "anchors": ["lib/jxl/dec_ans.h:HybridUintConfig::Encode", "lib/jxl/dec_ans.h:ANSSymbolReader::ReadHybridUintConfig"]}
{"id": "C11", "title": "ANS alias tables partition the state space exactly as the histogram says", "statement": "For every histogram summing to 4096, the alias table built by the decoder maps 4096 slots to (symbol, offset) such that each symbol s with frequency f gets every offset in [0,f) exactly once and no other symbol is ever produced; the encoder's reverse map is its exact inverse.", "quantifier": "every histogram over at most 2^log_alpha_size symbols summing to 4096", "why_tests_cant": "number of histograms is astronomically large; overlap of a single slot corrupts one image in a million", "anchors": ["lib/jxl/ans_common.cc:InitAliasTable", "lib/jxl/ans_common.h:AliasTable::Lookup", "lib/jxl/enc_ans.cc:ANSBuildInfoTable"]}
{"id": "C12", "title": "ANS coded token streams decode to the same tokens", "statement": "For any alphabet histograms and any token sequence whose symbols have non-zero frequency, the stream written by WriteTokens in ANS mode is decoded by ANSSymbolReader to the same sequence of values and ends in the fixed final state checked by CheckANSFinalState; the reciprocal-multiplication division of the encoder is exact.", "quantifier": "every family of histograms, each token sequence of any length", "why_tests_cant": "unbounded sequences; 32-bit state arithmetic with renormalisation at each step", "anchors": ["lib/jxl/enc_ans.h:ANSCoder::PutSymbol", "lib/jxl/enc_ans.cc:WriteTokens", "lib/jxl/dec_ans.h:ReadSymbolANSWithoutRefill", "lib/jxl/dec_ans.h:CheckANSFinalState"]}
{"id": "C13", "title": "Prefix codes are decodable and agree with the encoder", "statement": "For every set of code lengths that is a complete prefix code, the codes emitted by the encoder (canonical, bit-reversed) are decoded by the two-level lookup table to the same symbols with the same lengths, for all following bits.", "quantifier": "each complete code-length assignment, each symbol, any following bits", "why_tests_cant": "the space of length assignments is huge, and table lookups depend on following bits", "anchors": ["lib/jxl/huffman_table.cc:BuildHuffmanTable", "lib/jxl/enc_huffman_tree.cc:ConvertBitDepthsToSymbols", "lib/jxl/dec_huffman.cc:HuffmanDecodingData::ReadSymbol"]}
{"id": "C14", "title": "Code-length run-length coding round trips", "statement": "The run-length representation of code lengths written by the encoder expands to the original lengths in the decoder.", "quantifier": "each sequence of code lengths of any length with values 0..15", "why_tests_cant": "runs interact with multi-symbol repeat codes; unbounded sequences", "anchors": ["lib/jxl/enc_huffman_tree.cc:WriteHuffmanTree", "lib/jxl/dec_huffman.cc:ReadHuffmanCodeLengths"]}
{"id": "C15", "title": "LZ77 copies reproduce the history", "statement": "When LZ77 is enabled, decoding a literal/copy token sequence yields the sequence obtained by textual expansion (each copy repeats values starting the given distance back), for any distances up to the window and any lengths, including overlapping copies.", "quantifier": "every token sequence and distance multiplier", "why_tests_cant": "overlapping copies, window wraparound at 2^20 and special distances", "anchors": ["lib/jxl/dec_ans.h:ReadHybridUintClustered", "lib/jxl/dec_ans.cc:ANSSymbolReader"]}
{"id": "C16", "title": "Context maps round trip", "statement": "A context map transformed by move-to-front and written by the encoder is restored exactly by the decoder.", "quantifier": "every sequence of cluster indices 0..255", "why_tests_cant": "unbounded sequences", "anchors": ["lib/jxl/enc_context_map.cc:MoveToFrontTransform", "lib/jxl/inverse_mtf-inl.h:InverseMoveToFrontTransform", "lib/jxl/dec_context_map.cc"]}
{"id": "C17", "title": "Permutations round trip through the Lehmer code and only permutations are accepted", "statement": "For every permutation of n elements, encoding with ComputeLehmerCode and decoding with DecodeLehmerCode is the identity; conversely for every valid code the decoder outputs a permutation (each index exactly once).", "quantifier": "every n and each permutation / every Lehmer code of length n", "why_tests_cant": "n! permutations; decoder uses an implicit tree with power-of-two padding", "anchors": ["lib/jxl/lehmer_code.h:ComputeLehmerCode", "lib/jxl/lehmer_code.h:DecodeLehmerCode"]}
{"id": "C18", "title": "The table of contents locates every section exactly", "statement": "For all section sizes and section permutations, the offsets computed from a TOC are such that sections tile the byte range [0,total) without gap or overlap, every section gets its own size, and TOC entry sizes up to 2^30+4211711 round trip; totals that overflow are rejected.", "quantifier": "each list of sizes and each permutation", "why_tests_cant": "unbounded number of sections", "anchors": ["lib/jxl/toc.cc:ReadGroupOffsets", "lib/jxl/toc.cc:ReadToc", "lib/jxl/enc_toc.cc:WriteGroupOffsets", "lib/jxl/toc.h"]}
{"id": "C19", "title": "Signed/unsigned residual packing is a bijection", "statement": "PackSigned and UnpackSigned are mutually inverse on all 32-bit values and keep small magnitudes small (|x| <= k maps into [0,2k]).", "quantifier": "all int32 / uint32 values", "why_tests_cant": "extreme values (INT_MIN) are rarely covered", "anchors": ["lib/jxl/pack_signed.h"]}
{"id": "C20", "title": "Every reversible colour transform is lossless", "statement": "For each of the 42 RCT types, and each triple of 32-bit samples, applying the forward transform then the inverse returns the same triple in the same channel order, including when intermediate values wrap.", "quantifier": "all rct types and all int32 triples, any image size", "why_tests_cant": "2^96 triples x 42 types", "anchors": ["lib/jxl/modular/transform/rct.cc:InvRCT", "lib/jxl/modular/transform/enc_rct.cc:FwdRct"]}
{"id": "C21", "title": "Squeeze is lossless for every image and squeeze parameters", "statement": "For every channel of any width and height (odd or even) with samples of moderate magnitude, forward squeeze followed by inverse squeeze restores it exactly, horizontally and vertically, for any sequence of squeeze steps; the tendency predictor never influences reconstruction.", "quantifier": "each channel content and size; every list of squeeze steps", "why_tests_cant": "odd tails, single-pixel channels and rounding of negative numbers", "anchors": ["lib/jxl/modular/transform/squeeze.cc", "lib/jxl/modular/transform/enc_squeeze.cc", "lib/jxl/modular/transform/squeeze.h"]}
{"id": "C22", "title": "SIMD and scalar squeeze agree", "statement": "The vectorised inverse squeeze step and the scalar one produce the same samples, so that the decoded image does not depend on the CPU, the row count or the column position.", "quantifier": "all samples of moderate magnitude", "why_tests_cant": "requires comparing two arithmetic formulas on 2^128 inputs", "anchors": ["lib/jxl/modular/transform/squeeze.cc:FastUnsqueeze", "lib/jxl/modular/transform/squeeze.h:SmoothTendency"]}
{"id": "C23", "title": "Modular residual coding is lossless for every predictor and decision tree", "statement": "For any decision tree, any predictors and any channel content in the int32 range, decoding the residuals produced by the encoder (pixel minus prediction, in raster order, with the context selected by the tree) restores each pixel; encoder and decoder use the same contexts in the same order.", "quantifier": "every tree, every image, each predictor, all border positions", "why_tests_cant": "the prediction of each pixel depends on all previous ones", "anchors": ["lib/jxl/modular/encoding/encoding.cc:DecodeModularChannelMAANS", "lib/jxl/modular/encoding/enc_encoding.cc:EncodeModularChannelMAANS", "lib/jxl/modular/encoding/context_predict.h:Predict"]}
{"id": "C24", "title": "The flattened decision tree decides like the original tree", "statement": "For each decision tree and all property values, the filtered and flattened tree used for decoding ends in the same leaf (context, predictor, offset, multiplier) as a walk of the transmitted tree, for each value of the static properties; the lookup-table fast path agrees too.", "quantifier": "each well-formed tree and each property vector", "why_tests_cant": "trees and property vectors are unbounded", "anchors": ["lib/jxl/modular/encoding/encoding.cc:FilterTree", "lib/jxl/modular/encoding/context_predict.h:MATreeLookup::Lookup", "lib/jxl/modular/encoding/encoding.h:TreeToLookupTable"]}
{"id": "C25", "title": "Decoded trees are well formed", "statement": "Whatever tokens are read, a decision tree accepted by the decoder has all child indices inside the tree, strictly increasing from parent to child (so that lookups terminate), every node is reachable once, leaf ids are 0..n-1 and size is bounded by the limit.", "quantifier": "every token stream (including hostile ones)", "why_tests_cant": "hostile inputs are unbounded", "anchors": ["lib/jxl/modular/encoding/dec_ma.cc:DecodeTree", "lib/jxl/modular/encoding/dec_ma.cc:ValidateTree"]}
{"id": "C26", "title": "Clamped gradient stays between its neighbours", "statement": "The gradient predictor returns n+w-l clamped to [min(n,w),max(n,w)], for all int32 inputs, despite the 32-bit wraparound of its intermediate value.", "quantifier": "all int32 triples", "why_tests_cant": "2^96 inputs", "anchors": ["lib/jxl/modular/encoding/context_predict.h:ClampedGradient"]}
{"id": "C27", "title": "Palette transform is lossless", "statement": "For images whose colours are in the palette the inverse palette restores the exact channels; for each index (negative, in range, beyond) the implicit colour is defined and no memory outside the palette is read.", "quantifier": "each palette, every index value, each bit depth", "why_tests_cant": "implicit colours cover an unbounded index range", "anchors": ["lib/jxl/modular/transform/palette.h:GetPaletteValue", "lib/jxl/modular/transform/palette.cc:InvPalette"]}
{"id": "C28", "title": "ICC profiles survive encoding byte for byte", "statement": "For every byte string the encoder accepts as ICC profile, the decoder's inverse of the ICC transform returns exactly this byte string.", "quantifier": "every byte string up to the size limit", "why_tests_cant": "profiles are arbitrary data; the transform has a dozen data dependent commands", "anchors": ["lib/jxl/enc_icc_codec.cc:PredictICC", "lib/jxl/icc_codec.cc:UnpredictICC", "lib/jxl/icc_codec_common.cc"]}
{"id": "C29", "title": "The ICC decoder is total and bounded", "statement": "For every byte string, decoding the ICC transform terminates, never reads outside its input or the already produced output, and on success produces exactly the announced number of bytes.", "quantifier": "every byte string (hostile included)", "why_tests_cant": "hostile inputs are unbounded", "anchors": ["lib/jxl/icc_codec.cc:UnpredictICC", "lib/jxl/icc_codec.cc:DecodeVarInt"]}
{"id": "C30", "title": "Signature check is monotone", "statement": "JxlSignatureCheck classifies each byte string as codestream, container, invalid or not-enough-bytes; once a definite answer is given for a prefix it never changes as more bytes arrive, and not-enough-bytes is returned for every proper prefix of a valid signature and otherwise only for strings of fewer than 12 bytes starting with a zero byte.", "quantifier": "every byte string and each extension of it", "why_tests_cant": "chunk boundaries are arbitrary", "anchors": ["lib/jxl/decode.cc:ReadSignature"]}
{"id": "C31", "title": "Box headers are parsed exactly and never overflow", "statement": "The box parser accepts a header iff enough bytes are there and the declared size covers the header and does not overflow the file position; headers produced by the encoder are parsed back to the same type and size for every size below 2^32-8, and for every size below 2^63 if the 64-bit form is requested (for larger sizes without it the claim is false and refuted).", "quantifier": "all 32/64-bit sizes, every file position, each amount of available input", "why_tests_cant": "overflow corner cases at 2^32 and 2^64", "anchors": ["lib/jxl/decode.cc:ParseBoxHeader", "lib/jxl/enc_aux_out.cc", "lib/jxl/encode_internal.h:AppendBoxHeader"]}
{"id": "C32", "title": "The decoder sees one contiguous codestream however input is chunked and boxed", "statement": "For any splitting of the file into chunks given via JxlDecoderSetInput/ReleaseInput and any distribution of the codestream over jxlc/jxlp boxes, the bytes handed to the codestream parser are exactly the codestream bytes following those already consumed, in order, without loss or duplication, also when skipping past the available data; ReleaseInput returns the number of bytes not consumed.", "quantifier": "every chunking of every file, each sequence of parser advances", "why_tests_cant": "the number of chunkings is exponential and interacts with internal buffering", "anchors": ["lib/jxl/decode.cc:GetCodestreamInput", "lib/jxl/decode.cc:AdvanceCodestream", "lib/jxl/decode.cc:RequestMoreInput", "lib/jxl/decode.cc:HandleBoxes"]}
{"id": "C33", "title": "Out-of-order partial codestream boxes are equivalent to in-order ones", "statement": "With file format version 1, a file whose jxlp boxes are permuted gives the same codestream and the same decoder events as the file with the boxes in order.", "quantifier": "each partition of a codestream in jxlp boxes and each permutation, each event subscription", "why_tests_cant": "n! orders times chunkings", "anchors": ["lib/jxl/decode.cc:InjectNextBufferedJxlpBox", "lib/jxl/decode.cc:HandleBoxes"]}
{"id": "C34", "title": "Metadata box contents are delivered exactly", "statement": "The bytes delivered in user buffers for an uncompressed box are exactly its contents, whatever the sizes of input chunks and output buffers; completion is reported exactly when all bytes were delivered.", "quantifier": "each box, each chunking of input, each sequence of output buffer sizes", "why_tests_cant": "two independent chunkings interact", "anchors": ["lib/jxl/box_content_decoder.cc:Process", "lib/jxl/decode.cc:JxlDecoderSetBoxBuffer"]}
{"id": "C35", "title": "Skipping frames never skips a needed frame", "statement": "When the user skips to a frame, every frame that this frame (or any later one) may depend on through reference slots is decoded.", "quantifier": "each history of frames with arbitrary reference/save masks, each target frame", "why_tests_cant": "unbounded animations", "anchors": ["lib/jxl/decode.cc:GetFrameDependencies", "lib/jxl/decode.cc:JxlDecoderSkipFrames"]}
{"id": "C36", "title": "Reset brings the decoder to its initial state", "statement": "After JxlDecoderReset the decoder behaves as one newly created, whatever happened before.", "quantifier": "each history of API calls", "why_tests_cant": "histories are unbounded", "anchors": ["lib/jxl/decode.cc:JxlDecoderReset", "lib/jxl/decode.cc:JxlDecoderCreate", "lib/include/jxl/decode.h:JxlDecoderReset"]}
{"id": "C37", "title": "The minimum output buffer size is exact and never overflows", "statement": "JxlDecoderImageOutBufferSize returns the exact number of bytes that rows of the image occupy under the requested alignment, or an error if this does not fit size_t; it never wraps.", "quantifier": "all dimensions, channel counts, data types and alignments", "why_tests_cant": "overflow only shows at huge sizes", "anchors": ["lib/jxl/decode.cc:GetMinSize", "lib/jxl/base/common.h:SafeMul"]}
{"id": "C38", "title": "The parallel runner executes each task exactly once under every schedule", "statement": "For every number of worker threads and each interleaving, JxlThreadParallelRunner calls the data function exactly once for each value in [start,end), and does not return before all calls finished.", "quantifier": "every range, number of threads and interleaving", "why_tests_cant": "schedules cannot be enumerated by tests", "anchors": ["lib/threads/thread_parallel_runner_internal.cc:RunRange", "lib/threads/thread_parallel_runner_internal.cc:ThreadFunc", "lib/threads/thread_parallel_runner_internal.h:WorkersReadyBarrier"]}
{"id": "C39", "title": "Each pixel is finalized exactly once, after all pixels it depends on", "statement": "For every order and interleaving in which groups complete, the rectangles returned for finalization partition the frame, and a rectangle is only returned after all groups that touch its border were completed.", "quantifier": "each frame size, each padding and each completion order/interleaving of groups", "why_tests_cant": "n! orders and real concurrency", "anchors": ["lib/jxl/dec_group_border.cc:GroupBorderAssigner"]}
{"id": "C40", "title": "Groups tile the frame", "statement": "For each frame size, group size shift and upsampling, group rectangles partition the frame and DC groups partition the block grid.", "quantifier": "all dimensions", "why_tests_cant": "edge groups have odd sizes", "anchors": ["lib/jxl/frame_dimensions.h:FrameDimensions", "lib/jxl/base/rect.h:Rect"]}
{"id": "C41", "title": "Coefficient orders are permutations", "statement": "The natural coefficient order of each transform strategy visits each coefficient exactly once with the low-frequency ones first, and custom orders decoded from the stream are permutations that keep the low-frequency prefix.", "quantifier": "all strategies, every decoded custom order", "why_tests_cant": "custom orders are arbitrary input", "anchors": ["lib/jxl/ac_strategy.cc:CoeffOrderAndLut", "lib/jxl/coeff_order.cc:DecodeCoeffOrders"]}
{"id": "C42", "title": "Encoder output is independent of the output buffer sizes", "statement": "The concatenation of the bytes returned by successive JxlEncoderProcessOutput calls is the same for any sequence of buffer sizes, nothing is lost or duplicated, and NEED_MORE_OUTPUT is returned as long as bytes remain.", "quantifier": "each sequence of buffer sizes", "why_tests_cant": "chunkings of the output are unbounded", "anchors": ["lib/jxl/encode.cc:JxlEncoderProcessOutput", "lib/jxl/encode_internal.h:JxlEncoderOutputProcessorWrapper"]}
{"id": "C43", "title": "Entropy code histograms survive serialization", "statement": "For every normalized histogram the encoder stores with a given precision, the decoder reads back exactly the histogram the encoder codes with (same counts, same alphabet size up to trailing zeros).", "quantifier": "every histogram the encoder's normalization can produce: single symbol, two symbols, flat, and general with every shift and run-length of equal counts", "why_tests_cant": "the number of histograms is astronomical; run-length and omitted-count corner cases interact", "anchors": ["lib/jxl/enc_ans.cc:ANSEncodingHistogram::Encode", "lib/jxl/dec_ans.cc:ReadHistogram"]}
{"id": "C44", "title": "Reading entropy coded values from any stream is memory safe", "statement": "For all bit strings, after any sequence of reads the symbol reader only reads table entries that exist, bits that were buffered, and parts of the LZ77 window that were written before (or zero-filled), also when the counters wrap.", "quantifier": "all bit strings, each number of reads, each choice of contexts within the context map", "why_tests_cant": "needs adversarial streams with special distances at special positions; uninitialised reads do not crash", "anchors": ["lib/jxl/dec_ans.h:ANSSymbolReader::ReadHybridUintClusteredInlined", "lib/jxl/dec_ans.h:ANSSymbolReader::ReadSymbolANSWithoutRefill"]}
{"id": "C45", "title": "Prefix codes built from counts are complete, within the length limit and readable", "statement": "For all symbol counts, the prefix code the encoder builds has a word for each symbol that occurs and for no other, is complete and respects the limit on word lengths; the description it writes of the code is read by the decoder, which from then on decodes each word to its symbol; and on arbitrary input the decoder either rejects the description or ends with a table that decodes any bits to a symbol of the alphabet.", "quantifier": "every sequence of counts of up to 2^15 symbols of which at most 2^14 occur, with number of symbols times twice the largest count below 2^32-1; every bit string for the last part", "why_tests_cant": "needs all tree shapes, including those flattened to the limit over several rounds, and all forms of the description", "anchors": ["lib/jxl/enc_huffman_tree.cc:CreateHuffmanTree", "lib/jxl/enc_huffman.cc:BuildAndStoreHuffmanTree", "lib/jxl/dec_huffman.cc:HuffmanDecodingData::ReadFromBitStream"]}
{"id": "C46", "title": "Descriptions of entropy codes survive serialization and are safe to read", "statement": "The description of an entropy code that the encoder writes (LZ77 parameters, context map, kind of code, integer configurations, prefix codes or ANS histograms) is read back by the decoder consuming exactly those bits, and values the encoder then codes with it are decoded; on arbitrary input the decoder either rejects the description or ends with a code with which any bits can be read safely. The mutual recursion of code descriptions and context maps ends.", "quantifier": "each choice the encoder may make: with or without copies, context map stored directly or coded in turn with or without move-to-front, prefix codes or ANS, any number of clusters up to 256; all memory contents and vector lengths; all bit strings for the last parts", "why_tests_cant": "the combinations are unbounded, corrupt descriptions cannot be enumerated", "anchors": ["lib/jxl/enc_ans.cc:BuildAndEncodeHistograms", "lib/jxl/dec_ans.cc:DecodeHistograms", "lib/jxl/dec_ans.cc:DecodeANSCodes", "lib/jxl/enc_context_map.cc:EncodeContextMap", "lib/jxl/dec_context_map.cc:DecodeContextMap"]}
{"id": "C47", "title": "The bound on decoded values that an entropy code announces holds", "statement": "Every value read with an accepted entropy code is below 2 to the power of the number of bits the decoder computes for that code (it chooses 16-bit storage for coefficients by it); a histogram announced as having a single symbol only yields that symbol; every context maps to a histogram that exists.", "quantifier": "every accepted description of a code, all bits that follow, each number of reads in all contexts, with copies", "why_tests_cant": "the bound is only violated by rare symbols of particular codes; a violation overflows 16-bit coefficients silently", "anchors": ["lib/jxl/dec_ans.cc:ANSCode::UpdateMaxNumBits", "lib/jxl/dec_frame.cc:ProcessACGlobal"]}
{"id": "C48", "title": "Streaming output fills the gap left for the table of contents exactly", "statement": "When the encoder writes the sections of a frame before their sizes are known, the room it leaves in front is always enough and is filled exactly by the frame header, the table of contents, the first section and its padding; the padding is never negative, the size announced for the padded first section needs the same number of bits as was planned, and the encoder's internal checks never fail.", "quantifier": "each size of header and first section, any number and sizes of the other sections", "why_tests_cant": "depends on the sizes of all sections and on carries between size classes; failures need particular sums", "anchors": ["lib/jxl/enc_frame.cc:ComputeGroupDataOffset", "lib/jxl/enc_frame.cc:ComputeDcGlobalPadding", "lib/jxl/enc_frame.cc:EncodeFrameStreaming", "lib/jxl/enc_toc.cc:WriteTocSizes"]}
{"id": "C49", "title": "Whatever order the encoder stores sections in, each is announced where it is", "statement": "With streaming output, with buffered streaming, with numbered boxes (out of order) and with centre-first ordering, the permutation announced in the table of contents lists each section exactly once, and the section produced for a group and pass is the one the decoder takes for that group and pass.", "quantifier": "all frame sizes, group sizes and numbers of passes; each order of the groups", "why_tests_cant": "index arithmetic over frames with any number of groups, including partial DC groups at the borders", "anchors": ["lib/jxl/enc_frame.cc:ComputePermutationForStreaming", "lib/jxl/enc_frame.cc:PermuteGroups", "lib/jxl/enc_frame.cc:EncodeFrameStreaming", "lib/jxl/enc_modular.cc:ComputeStreamingAbsoluteAcGroupId"]}
{"id": "C50", "title": "Decision trees survive writing and reading", "statement": "A decision tree in which each leaf can be reached is tokenized, entropy coded and read back by the decoder node for node (predictors, offsets, multipliers, properties and split values); the encoder's copy of what the decoder will have, with the contexts it uses for its tokens, is what the decoder gets.", "quantifier": "each tree, each code for its tokens", "why_tests_cant": "trees are unbounded, and the encoder numbers the contexts before anything is decoded", "anchors": ["lib/jxl/modular/encoding/enc_ma.cc:TokenizeTree", "lib/jxl/modular/encoding/dec_ma.cc:DecodeTree"]}
{"id": "C51", "title": "An output processor set by the caller receives exactly the file, by the rules of its interface", "statement": "After JxlEncoderSetOutputProcessor, whatever buffer sizes the processor's get_buffer answers with and whether or not it has a seek callback: JxlEncoderFlushInput succeeds, the bytes released at the positions they are released at are the bytes of the queued frames and boxes in order, all of them final in the end; at most one buffer is active, seek and set_finalized_position are called only without one, seek only if it exists and never before the finalized position, and no position is declared final before all bytes before it are there. Until the processor first asks to stop these rules hold for every processor.", "quantifier": "all histories of queueing, closing and flushing, all processors (the sizes may depend on everything seen before), with and without seek", "why_tests_cant": "the sizes a processor may answer with depend on the whole history; the code has a different path for a buffer that is too small, for room left open and for both kinds of processor", "anchors": ["lib/jxl/encode.cc:JxlEncoderOutputProcessorWrapper", "lib/jxl/encode.cc:JxlEncoderFlushInput", "lib/include/jxl/encode.h:JxlEncoderOutputProcessor"]}
{"id": "C52", "title": "When the output processor asks to stop, the caller gets an error", "statement": "Once get_buffer has asked to stop, JxlEncoderFlushInput returns an error: it does not report success for bytes that were not delivered, and declares no position final behind them.", "quantifier": "all histories of queueing, closing and flushing, all processors, with and without seek", "why_tests_cant": "the stop can come at any call of get_buffer, and the code asks for buffers in four places", "anchors": ["lib/jxl/encode.cc:AppendBufferToExternalProcessor", "lib/jxl/encode.cc:FlushOutput", "lib/jxl/encode.cc:ReleaseBuffer", "lib/jxl/encode_internal.h:WasStopRequested"]}
{"id": "C53", "title": "Whatever bytes the decoder is given, it returns and does not run off its input", "statement": "For every sequence of bytes given to the decoder as a file, in any chunks and with any box buffers and subscriptions, as long as no call has returned an error: JxlDecoderProcessInput returns after a bounded number of rounds, no size or position computed from the boxes wraps around and no byte is read outside of the input, and JxlDecoderReleaseInput reports exactly the bytes of the file that were not consumed.", "quantifier": "all files below 2^46 bytes, well formed or not, all chunkings, all histories of the input calls, all behaviours of the codestream parser", "why_tests_cant": "box sizes and part numbers are 32 and 64 bit numbers chosen by an attacker, and each can be cut at any byte", "anchors": ["lib/jxl/decode.cc:HandleBoxes", "lib/jxl/decode.cc:ParseBoxHeader", "lib/jxl/decode.cc:GetCodestreamInput", "lib/jxl/decode.cc:AvailableCodestream", "lib/jxl/decode.cc:JxlDecoderReleaseInput"]}
{"id": "C54", "title": "Patches are drawn over exactly the pixels they cover, in order, however rows are cut up", "statement": "When a frame with patches is decoded, every pixel gets the patches whose rectangle contains it, each once and in the order of the codestream, with the pixel of the reference frame at the same offset from the corner and with the blending of that patch; the result does not depend on how the rows are cut into segments for the threads, nor on how a sorting function of the standard library orders equal keys.", "quantifier": "all dictionaries without dangling references, all rows, all segments, all sorting functions", "why_tests_cant": "patches overlap in arbitrary ways, the rows are looked up in an interval tree, and segments depend on the group size and the threads", "anchors": ["lib/jxl/dec_patch_dictionary.cc:ComputePatchTree", "lib/jxl/dec_patch_dictionary.cc:GetPatchesForRow", "lib/jxl/dec_patch_dictionary.cc:AddOneRow"]}
{"id": "C55", "title": "A patch dictionary from untrusted bits never leads outside of a frame", "statement": "Whatever numbers the entropy decoder delivers, a patch dictionary that is accepted has all patches inside of the frame and all their sources inside of an existing reference frame in XYB; its number of patches is bounded by the size of the frame; and drawing with it reads and writes only pixels that exist.", "quantifier": "all sequences of 32-bit numbers, all reference frames, all frame sizes, all dictionaries left by earlier frames, all rows and segments", "why_tests_cant": "positions are sums of signed differences chosen by the file", "anchors": ["lib/jxl/dec_patch_dictionary.cc:Decode", "lib/jxl/dec_patch_dictionary.cc:AddOneRow"]}
{"id": "C56", "title": "The decoder gets the patches that the encoder wrote", "statement": "For every patch dictionary within the decoder's limits, decoding what the encoder wrote gives the same patches (place, rectangle of the reference frame and blending of every channel), for every frame of an image, and the references that the decoder reports for a frame are those its patches use.", "quantifier": "all dictionaries within the limits, all frame sizes up to 2^30, any number of extra channels, all frames of an image", "why_tests_cant": "patches are coded in groups with differences and with fields left out by blend mode; the dictionary object lives on from frame to frame", "anchors": ["lib/jxl/enc_patch_dictionary.cc:Encode", "lib/jxl/dec_patch_dictionary.cc:Decode", "lib/jxl/dec_patch_dictionary.h:Clear", "lib/jxl/dec_patch_dictionary.cc:GetReferences"]}
{"id": "C57", "title": "No file makes the reading of AC coefficients leave its memory", "statement": "Whatever numbers the entropy decoder delivers, reading the AC coefficients of a group with any accepted block context map, any histogram set of the group, any transforms, coefficient orders and passes accesses context map, block context map, tables and coefficients only inside of their memory; a group with wrong counts is refused. This holds as long as a frame has at most 2^31 contexts.", "quantifier": "all sequences of 32-bit numbers, all block context maps the decoder accepts, all block sizes and orders, all histogram sets, any number of blocks", "why_tests_cant": "contexts are sums of several clustered numbers that a broken file pushes beyond what a valid one reaches", "anchors": ["lib/jxl/dec_group.cc:DecodeACVarBlock", "lib/jxl/ac_context.h:ZeroDensityContext", "lib/jxl/ac_context.h:BlockCtxMap", "lib/jxl/entropy_coder.cc:DecodeBlockCtxMap", "lib/jxl/dec_frame.cc:ProcessACGlobal"]}
{"id": "C58", "title": "The decoder gets the AC coefficients that the encoder wrote", "statement": "For every group of blocks, of any sizes, in any coefficient order and with any coefficients of the decoder's number of bits and nothing in the lowest frequencies (which are coded elsewhere), the encoder makes tokens whose contexts all have a histogram, and the decoder gets back every coefficient and stops behind the last token.", "quantifier": "all lists of blocks of a group, all block sizes and orders, all coefficients, all block context maps, all histogram sets, 16- or 32-bit coefficients", "why_tests_cant": "the contexts depend on the counts of neighbouring blocks and on the coefficients before, which encoder and decoder work out separately", "anchors": ["lib/jxl/enc_entropy_coder.cc:TokenizeCoefficients", "lib/jxl/enc_entropy_coder.cc:NumNonZeroExceptLLF", "lib/jxl/dec_group.cc:DecodeACVarBlock", "lib/jxl/entropy_coder.h:PredictFromTopAndLeft"]}
{"id": "C59", "title": "Progressive passes add up to the coefficients", "statement": "For every block and every progressive mode whose passes refine (each pass after a complete one has at least as many coefficients, each pass after a shifted one the same coefficients with more bits, the last all of them in full), the sum of the decoded passes is the quantized coefficient; after any prefix of the passes the decoder has a value between zero and the coefficient that misses it by less than the unit of the last pass, and zero outside of its square. The modes of the progressive settings refine.", "quantifier": "all block sizes, all 32-bit coefficients, all refining modes with any number of passes, all prefixes", "why_tests_cant": "rounding towards zero of remainders must be undone exactly for each sign, shift and order of passes", "anchors": ["lib/jxl/enc_progressive_split.cc:SplitACCoefficients", "lib/jxl/enc_progressive_split.h:InitPasses", "lib/jxl/dec_group.cc:DecodeACVarBlock", "lib/jxl/enc_frame.cc:SetProgressiveMode"]}
{"id": "C60", "title": "Coefficients written in several passes come back", "statement": "For every group of blocks and every refining progressive mode, with own coefficient orders and histogram sets for each pass, the encoder makes tokens for every pass and a decoder that reads all passes gets exactly the coefficients; what earlier groups left in the maps of counts does not matter.", "quantifier": "all lists of blocks, all sizes, orders, coefficients of 1 to 32 bits, all refining modes, all histogram sets, all contents of the maps of counts", "why_tests_cant": "split, contexts, prediction of counts and accumulation must agree in all passes", "anchors": ["lib/jxl/enc_progressive_split.cc:SplitACCoefficients", "lib/jxl/enc_entropy_coder.cc:TokenizeCoefficients", "lib/jxl/dec_group.cc:DecodeACVarBlock", "lib/jxl/enc_frame.cc:TokenizeAllCoefficients"]}
{"id": "C61", "title": "Block context maps survive serialization and are safe to use", "statement": "For every block context map within the limits of the format (thresholds of DC and of quantization, contexts) the decoder reads back what the encoder wrote; and whatever the bits are, a block context map that the decoder accepts gives every block a context that exists.", "quantifier": "all block context maps within the limits, all bit strings", "why_tests_cant": "sizes of the map are products of counts in the file; thresholds are coded with signs and offsets over the full 32-bit range", "anchors": ["lib/jxl/entropy_coder.cc:DecodeBlockCtxMap", "lib/jxl/enc_context_map.cc:EncodeBlockCtxMap", "lib/jxl/ac_context.h:BlockCtxMap"]}
{"id": "C62", "title": "The transforms a file assigns to a frame always tile it", "statement": "Whatever the file says, if the decoder accepts the block metadata of a group of 2048x2048 pixels then every 8x8 block of it belongs to exactly one transform; each transform lies inside the image, this group and one group of 256x256 pixels, is a single block when chroma is subsampled, and has a quantization multiplier from 1 to 256; sharpness is from 0 to 7; nothing outside of the group is written. Conversely every tiling with allowed transforms, listed row by row, is accepted and each block gets its transform.", "quantifier": "all rectangles, image sizes, transform counts, and values decoded from the file", "why_tests_cant": "overlaps depend on all earlier transforms of the file; there are 27 shapes and any order of them", "anchors": ["lib/jxl/dec_modular.cc:DecodeAcMetadata", "lib/jxl/ac_strategy.h:SetNoBoundsCheck", "lib/jxl/ac_strategy.h:covered_blocks_x"]}
