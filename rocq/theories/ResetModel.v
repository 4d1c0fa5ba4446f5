(* The life of a JxlDecoder: JxlDecoderCreate, JxlDecoderReset, JxlDecoderRewind and what the
   calls in between leave behind.  lib/jxl/decode.cc, lib/jxl/decode_to_jpeg.{h,cc},
   lib/jxl/box_content_decoder.{h,cc}, lib/jxl/icc_codec.{h,cc}.

   The members of JxlDecoder (decode.cc:361-610) are in four groups:
   - rewound: members that JxlDecoderRewindDecodingState sets;
   - guards: of these, the ones that decide whether members of the last group are read;
   - settings: members that only JxlDecoderReset sets;
   - left: members that neither sets, at least not completely.
   The decoder between the accesses to the members of the last group is not modelled: it is any
   function (library below) of the first three groups and of what it read from the last one in
   this call.  It does not change the guards; the code that does is written out.
   V is the type of values of which nothing matters but whether they are equal (pointers,
   images, frame decoders, metadata, results).  frame_index_box is not used anywhere;
   memory_manager is kept by JxlDecoderReset by contract.  Allocation failure is not modelled. *)
From Verif Require Import Base.

(* events: lib/include/jxl/decode.h *)
Definition JXL_DEC_JPEG_RECONSTRUCTION : Z := 8192.
Definition JXL_DEC_BOX : Z := 16384.
Definition kDC : Z := 1.
Definition kFrames : Z := 0.

Inductive fstage := FHeader | FToc | FFull.
(* BoxStage; SOther: any stage except kHeader and kJpegRecon *)
Inductive bxstage := SHeader | SRecon | SOther (stage : Z).

(* decode.cc:737-824, in this order, without the guards *)
Record rewound (V : Type) := mkRewound {
  r_stage : Z; r_got_signature : bool; r_last_codestream_seen : bool; r_got_codestream_signature : bool;
  r_got_basic_info : bool; r_got_transform_data : bool; r_got_all_headers : bool; r_post_headers : bool;
  r_got_preview_image : bool; r_preview_frame : bool;
  r_file_pos : Z; r_box_contents_begin : Z; r_box_contents_end : Z; r_box_contents_size : Z;
  r_box_size : Z; r_header_size : Z; r_box_contents_unbounded : bool;
  r_box_type : list Z; r_box_decoded_type : list Z;
  r_jxl_file_format_version : Z; r_next_jxlp_index : Z; r_jxlp_ooo_buffer : list V;
  r_jxlp_ooo_buffer_total : Z; r_buffering_jxlp_index : Z; r_buffering_jxlp_is_last : bool;
  r_box_out_buffer_set : bool; r_box_out_buffer : option V; r_box_out_buffer_size : Z;
  r_box_out_buffer_begin : Z; r_box_out_buffer_pos : Z;
  r_exif_metadata : list Z; r_xmp_metadata : list Z;
  r_recon_out_buffer_pos : Z; r_recon_exif_size : Z; r_recon_xmp_size : Z; r_recon_output_jpeg : Z;
  r_events_wanted : Z; r_basic_info_size_hint : Z; r_have_container : bool; r_box_count : Z;
  r_downsampling_target : Z;
  r_image_out_buffer : option V; r_image_out_init_callback : option V; r_image_out_run_callback : option V;
  r_image_out_destroy_callback : option V; r_image_out_init_opaque : option V; r_image_out_size : Z;
  r_extra_channel_output : list V;
  r_next_in : option V; r_avail_in : Z; r_input_closed : bool;
  r_passes_state : option V; r_frame_dec : option V; r_next_section : Z; r_section_processed : list Z;
  r_ib : option V; r_metadata : V; r_image_metadata : V; r_frame_header : V;
  r_codestream_copy : list Z; r_codestream_unconsumed : Z; r_codestream_pos : Z; r_codestream_bits_ahead : Z;
  r_remaining_frame_size : Z; r_is_last_of_still : bool; r_is_last_total : bool;
  r_skip_frames : Z; r_skipping_frame : bool; r_internal_frames : Z; r_external_frames : Z }.

(* members set in the same function and read before members of the group left are;
   g_simple: image_out_init_opaque points to simple_image_out_callback *)
Record guards := mkGuards {
  g_box_event : bool; g_box_stage : bxstage; g_current_box : bool; g_store_exif : Z; g_store_xmp : Z;
  g_image_out_set : bool; g_simple : bool; g_custom_depth : bool; g_frame_stage : fstage;
  g_orig_events : Z }.

(* decode.cc:827-842 without events_wanted and orig_events_wanted *)
Record settings (V : Type) := mkSettings {
  s_thread_pool : option V; s_keep_orientation : bool; s_unpremul_alpha : bool; s_render_spotcolors : bool;
  s_coalescing : bool; s_desired_intensity_target : V; s_frame_refs : list V;
  s_frame_external_to_internal : list Z; s_frame_required : list Z; s_decompress_boxes : bool }.

(* ICCReader, icc_codec.h:24-45: bits_to_skip_ and the rest *)
Record icc (V : Type) := mkIcc { i_skip : Z; i_rest : V }.
(* JxlBoxContentDecoder, box_content_decoder.h:33-41 *)
Record boxdec (V : Type) := mkBoxDec {
  b_brotli : option V; b_header_done : bool; b_brob : bool; b_eof : bool; b_remaining : Z; b_pos : Z }.
(* JxlToJpegDecoder, decode_to_jpeg.h:155-178 *)
Record jpegdec (V : Type) := mkJpeg {
  j_buffer : list Z; j_data : option V; j_inside : bool; j_eof : bool; j_size : Z;
  j_next_out : option V; j_avail : Z }.

Record left (V : Type) := mkLeft {
  l_icc : option (icc V); l_prog_detail : Z; l_frame_prog_detail : Z; l_dc_done : bool;
  l_simple : V; l_format : V; l_depth : V; l_box : boxdec V; l_meta : boxdec V; l_jpeg : jpegdec V }.

Record dec (V : Type) := mkDec { d_rest : rewound V; d_guards : guards; d_settings : settings V; d_left : left V }.

Arguments mkRewound {V}. Arguments mkSettings {V}. Arguments mkIcc {V}. Arguments i_skip {V}. Arguments i_rest {V}.
Arguments mkBoxDec {V}. Arguments mkJpeg {V}. Arguments mkLeft {V}. Arguments mkDec {V}.
Arguments j_buffer {V}. Arguments j_data {V}. Arguments j_inside {V}. Arguments j_eof {V}. Arguments j_size {V}.
Arguments j_next_out {V}. Arguments j_avail {V}.
Arguments l_icc {V}. Arguments l_prog_detail {V}. Arguments l_frame_prog_detail {V}. Arguments l_dc_done {V}.
Arguments l_simple {V}. Arguments l_format {V}. Arguments l_depth {V}. Arguments l_box {V}. Arguments l_meta {V}. Arguments l_jpeg {V}.
Arguments d_rest {V}. Arguments d_guards {V}. Arguments d_settings {V}. Arguments d_left {V}.
Arguments r_events_wanted {V}. Arguments r_internal_frames {V}.

(* what the decoder reads from the group left in a call; the words of the comments of micro *)
Inductive seen (V : Type) :=
| VIcc (ok : bool) (v : V) | VBox (v : V) | VMeta (v : V) | VJpeg (status : Z) (used : Z) (data : option V)
| VOutput (set : bool) (data : option V) | VDetail (d : Z) (dc : bool) | VFormat (f : V) | VDepth (v : V) | VSimple (v : V)
| VRoom (p : option V) (n : Z).
Arguments VIcc {V}. Arguments VBox {V}. Arguments VMeta {V}. Arguments VJpeg {V}. Arguments VOutput {V}.
Arguments VDetail {V}. Arguments VFormat {V}. Arguments VDepth {V}. Arguments VSimple {V}. Arguments VRoom {V}.

(* the places in JxlDecoderProcessInput where members of the group left are used, and those
   where guards change *)
Inductive micro (V : Type) :=
| MReturn (v : V)
| MIcc                                      (* decode.cc:1101-1125, 1245-1247 *)
| MBoxHeader (recon exif xmp brob unbounded : bool) (size stage : Z)   (* decode.cc:1886-1947 *)
| MBoxStage (header : bool) (stage : Z)     (* box_stage set elsewhere in HandleBoxes *)
| MBoxNoBuffer                              (* decode.cc:1681-1687 *)
| MBoxOut                                   (* decode.cc:1688-1698 *)
| MMeta                                     (* decode.cc:1714-1731 *)
| MMetaDone                                 (* decode.cc:1748-1750 *)
| MJpegRecon (input : list Z)               (* decode.cc:2076-2113 *)
| MFrameHeader                              (* decode.cc:1299-1333 *)
| MToc (progression full : bool)            (* decode.cc:1417-1446 *)
| MFull                                     (* decode.cc:1446-1490 *)
| MFrameProgress                            (* decode.cc:1495-1508 *)
| MDcDone                                   (* decode.cc:1497 *)
| MFrameEnd (out : bool)                    (* decode.cc:1535-1549 *)
| MJpegWrite (size : Z) (v : V).            (* decode.cc:1778-1783 *)
Arguments MReturn {V}. Arguments MIcc {V}. Arguments MBoxHeader {V}. Arguments MBoxStage {V}.
Arguments MBoxNoBuffer {V}. Arguments MBoxOut {V}. Arguments MMeta {V}. Arguments MMetaDone {V}. Arguments MJpegRecon {V}.
Arguments MFrameHeader {V}. Arguments MToc {V}. Arguments MFull {V}. Arguments MFrameProgress {V}. Arguments MDcDone {V}.
Arguments MFrameEnd {V}. Arguments MJpegWrite {V}.

(* API functions; those that touch neither guards nor the group left are COther *)
Inductive call (V : Type) :=
| CProcessInput (steps : nat)
| CSetImageOutBuffer (format : V)           (* also JxlDecoderSetPreviewOutBuffer *)
| CSetImageOutCallback (format callback : V)
| CSetMultithreadedImageOutCallback (format : V)
| CSetImageOutBitDepth (custom : bool) (depth : V)
| CSetOutputColorProfile (profile : V)
| CSetBoxBuffer (size : Z) | CReleaseBoxBuffer
| CSetJPEGBuffer (data : option V) (size : Z) | CReleaseJPEGBuffer
| CSkipCurrentFrame
| CSetProgressiveDetail (detail : Z)
| CSubscribeEvents (events : Z)
| COther (function : V)
| CRewind | CReset.
Arguments CProcessInput {V}. Arguments CSetImageOutBuffer {V}. Arguments CSetImageOutCallback {V}.
Arguments CSetMultithreadedImageOutCallback {V}. Arguments CSetImageOutBitDepth {V}. Arguments CSetOutputColorProfile {V}.
Arguments CSetBoxBuffer {V}. Arguments CReleaseBoxBuffer {V}. Arguments CSetJPEGBuffer {V}. Arguments CReleaseJPEGBuffer {V}.
Arguments CSkipCurrentFrame {V}. Arguments CSetProgressiveDetail {V}. Arguments CSubscribeEvents {V}. Arguments COther {V}.
Arguments CRewind {V}. Arguments CReset {V}.

(* the part that is not modelled *)
Record library (V : Type) := mkLib {
  (* values of CodecMetadata(), a new FrameHeader and 0.0f *)
  k_metadata : V; k_frame_header : V; k_zero : V;
  (* one step of JxlDecoderProcessInput *)
  k_next : rewound V -> settings V -> guards -> list (seen V) -> rewound V * settings V * micro V;
  (* an API function: whether it succeeds, its result, its changes *)
  k_api : call V -> rewound V -> settings V -> guards -> list (seen V) -> bool * V * rewound V * settings V;
  (* ICCReader::Init from the start: success with bits_to_skip_ and the other members, or what is
     returned instead; then the members may be a mixture of old and new *)
  k_icc_init : rewound V -> icc V + V;
  k_icc_mixed : rewound V -> V -> V;
  (* ICCReader::Process *)
  k_icc_process : rewound V -> V -> icc V * bool * V;
  (* JxlBoxContentDecoder::Process *)
  k_box_process : rewound V -> boxdec V -> boxdec V * V;
  (* jpeg::DecodeJPEGData: Some true: success, Some false: not enough data, None: fatal *)
  k_jpeg_decode : list Z -> V * option bool }.
Arguments k_metadata {V}. Arguments k_frame_header {V}. Arguments k_zero {V}. Arguments k_next {V}. Arguments k_api {V}.
Arguments k_icc_init {V}. Arguments k_icc_mixed {V}. Arguments k_icc_process {V}. Arguments k_box_process {V}. Arguments k_jpeg_decode {V}.

(* decode.cc:737-824; InitialBasicInfoSizeHint decode.cc:170 *)
Definition rewound_init {V} (L : library V) (orig_events : Z) : rewound V :=
  mkRewound 0 false false false false false false false false false
    0 0 0 0 0 0 false [0; 0; 0; 0] [0; 0; 0; 0]
    0 0 [] 0 0 false
    false None 0 0 0
    [] [] 0 0 0 0
    orig_events 98 false 0
    8
    None None None None None 0
    []
    None 0 false
    None None 0 []
    None (k_metadata L) (k_metadata L) (k_frame_header L)
    [] 0 0 0
    0 false false 0 false 0 0.
Definition guards_init (orig_events : Z) : guards :=
  mkGuards false SHeader false 0 0 false false false FHeader orig_events.

(* decode.cc:746: if (dec->icc_reader) dec->icc_reader->Reset(), icc_codec.h:30-33 *)
Definition icc_reset {V} (i : option (icc V)) : option (icc V) :=
  match i with None => None | Some i => Some (mkIcc 0 (i_rest i)) end.
Definition with_icc {V} (l : left V) i := mkLeft i (l_prog_detail l) (l_frame_prog_detail l) (l_dc_done l) (l_simple l) (l_format l) (l_depth l) (l_box l) (l_meta l) (l_jpeg l).
Definition with_detail {V} (l : left V) d := mkLeft (l_icc l) d (l_frame_prog_detail l) (l_dc_done l) (l_simple l) (l_format l) (l_depth l) (l_box l) (l_meta l) (l_jpeg l).
Definition with_frame {V} (l : left V) d dc := mkLeft (l_icc l) (l_prog_detail l) d dc (l_simple l) (l_format l) (l_depth l) (l_box l) (l_meta l) (l_jpeg l).
Definition with_simple {V} (l : left V) v := mkLeft (l_icc l) (l_prog_detail l) (l_frame_prog_detail l) (l_dc_done l) v (l_format l) (l_depth l) (l_box l) (l_meta l) (l_jpeg l).
Definition with_format {V} (l : left V) v := mkLeft (l_icc l) (l_prog_detail l) (l_frame_prog_detail l) (l_dc_done l) (l_simple l) v (l_depth l) (l_box l) (l_meta l) (l_jpeg l).
Definition with_depth {V} (l : left V) v := mkLeft (l_icc l) (l_prog_detail l) (l_frame_prog_detail l) (l_dc_done l) (l_simple l) (l_format l) v (l_box l) (l_meta l) (l_jpeg l).
Definition with_box {V} (l : left V) v := mkLeft (l_icc l) (l_prog_detail l) (l_frame_prog_detail l) (l_dc_done l) (l_simple l) (l_format l) (l_depth l) v (l_meta l) (l_jpeg l).
Definition with_meta {V} (l : left V) v := mkLeft (l_icc l) (l_prog_detail l) (l_frame_prog_detail l) (l_dc_done l) (l_simple l) (l_format l) (l_depth l) (l_box l) v (l_jpeg l).
Definition with_jpeg {V} (l : left V) v := mkLeft (l_icc l) (l_prog_detail l) (l_frame_prog_detail l) (l_dc_done l) (l_simple l) (l_format l) (l_depth l) (l_box l) (l_meta l) v.

(* JxlDecoderRewind, decode.cc:737-824, 870 *)
Definition rewind {V} (L : library V) (d : dec V) : dec V :=
  let events := g_orig_events (d_guards d) in
  mkDec (rewound_init L events) (guards_init events) (d_settings d)
        (with_icc (d_left d) (icc_reset (l_icc (d_left d)))).

(* JxlDecoderReset, decode.cc:826-842 *)
Definition reset {V} (L : library V) (d : dec V) : dec V :=
  mkDec (rewound_init L 0) (guards_init 0)
        (mkSettings None false false true true (k_zero L) [] [] [] false)
        (d_left (rewind L d)).

(* JxlDecoderCreate, decode.cc:844-860: the members with an initialiser (decode.cc:372, 389, 449,
   box_content_decoder.h:34, decode_to_jpeg.h:155-178); the others may have any value *)
Definition create {V} (L : library V) (memory : dec V) : dec V :=
  let l := d_left memory in
  let fresh (b : boxdec V) := mkBoxDec None (b_header_done _ b) (b_brob _ b) (b_eof _ b) (b_remaining _ b) (b_pos _ b) in
  reset L (mkDec (d_rest memory) (d_guards memory) (d_settings memory)
    (mkLeft None kDC (l_frame_prog_detail l) (l_dc_done l) (l_simple l) (l_format l) (l_depth l)
       (fresh (l_box l)) (fresh (l_meta l)) (mkJpeg [] None false false 0 None 0))).

(* JxlBoxContentDecoder::StartBox, box_content_decoder.cc:29-41 *)
Definition box_start {V} (brob unbounded : bool) (size : Z) : boxdec V :=
  mkBoxDec None false brob unbounded (if unbounded then 0 else size) 0.

(* JxlToJpegDecoder::StartBox, decode_to_jpeg.h:57-66 *)
Definition jpeg_start {V} (j : jpegdec V) (unbounded : bool) (size : Z) : jpegdec V :=
  mkJpeg [] (j_data j) true (if unbounded then true else j_eof j) (if unbounded then j_size j else size) (j_next_out j) (j_avail j).

(* results of JxlToJpegDecoder::Process *)
Definition stError : Z := 1.
Definition stNeedInput : Z := 2.
Definition stRecon : Z := 8192.

(* JxlToJpegDecoder::Process, decode_to_jpeg.cc:26-88: the decoder, the status and how much input
   was used *)
Definition jpeg_process {V} (L : library V) (j : jpegdec V) (input : list Z) : jpegdec V * Z * Z :=
  if negb (j_inside j) then (j, stError, 0) else
  let used := if j_eof j then zlen input else Z.min (zlen input) (w64 (j_size j - zlen (j_buffer j))) in
  let new := firstn (Z.to_nat used) input in
  let old := negb (zlen (j_buffer j) =? 0) in
  let buffer := if old then j_buffer j ++ new else j_buffer j in
  let to_decode := if old then buffer else new in
  let keep b := mkJpeg b (j_data j) true (j_eof j) (j_size j) (j_next_out j) (j_avail j) in
  if negb (j_eof j) && (j_size j <? zlen to_decode) then (keep buffer, stError, used) else
  if j_eof j || (zlen to_decode =? j_size j) then
    let '(data, ok) := k_jpeg_decode L to_decode in
    let decoded inside b := mkJpeg b (Some data) inside (j_eof j) (j_size j) (j_next_out j) (j_avail j) in
    match ok with
    | None => (decoded true buffer, stError, used)
    | Some true => (decoded false buffer, stRecon, used)
    | Some false => if j_eof j then (decoded true (if old then buffer else to_decode), stNeedInput, used)
                    else (decoded true buffer, stError, used)
    end
  else (keep (if old then buffer else to_decode), stNeedInput, used).

(* IsOutputSet, decode_to_jpeg.h:35 *)
Definition output_set {V} (j : jpegdec V) : bool := match j_next_out j with Some _ => true | None => false end.

Definition has (events bit : Z) : bool := negb (Z.land events bit =? 0).

(* one step: the new guards and group left, and what was read *)
Definition micro_step {V} (L : library V) (r : rewound V) (s : settings V) (g : guards) (l : left V) (m : micro V)
  : guards * left V * list (seen V) :=
  match m with
  | MReturn _ => (g, l, [])
  | MIcc =>
      (* make_unique<ICCReader>, icc_codec.h:25-26, 37-44 *)
      let i := match l_icc l with None => mkIcc 0 (k_zero L) | Some i => i end in
      let go rest := let '(i', ok, v) := k_icc_process L r rest in (g, with_icc l (Some i'), [VIcc ok v]) in
      if i_skip i =? 0 then
        match k_icc_init L r with
        | inl i1 => go (i_rest i1)
        | inr v => (g, with_icc l (Some (mkIcc 0 (k_icc_mixed L r (i_rest i)))), [VIcc false v])
        end
      else go (i_rest i)
  | MBoxHeader recon exif xmp brob unbounded size stage =>
      let wants := has (g_orig_events g) JXL_DEC_JPEG_RECONSTRUCTION in
      let exif1 := if wants && (g_store_exif g =? 0) && exif then 1 else g_store_exif g in
      let xmp1 := if wants && (g_store_xmp g =? 0) && xmp then 1 else g_store_xmp g in
      (* JXL_DEC_BOX is never taken out of events_wanted *)
      let boxes := has (g_orig_events g) JXL_DEC_BOX in
      let l1 := if boxes then with_box l (box_start (s_decompress_boxes _ s && brob) unbounded size) else l in
      let l2 := if (exif1 =? 1) || (xmp1 =? 1) then with_meta l1 (box_start brob unbounded size) else l1 in
      let stage' := if wants && recon then SRecon else SOther stage in
      (mkGuards (if boxes then true else g_box_event g) stage' (if boxes then false else g_current_box g) exif1 xmp1
                (g_image_out_set g) (g_simple g) (g_custom_depth g) (g_frame_stage g) (g_orig_events g), l2, [])
  | MBoxStage header stage =>
      (mkGuards (g_box_event g) (if header then SHeader else SOther stage) (g_current_box g) (g_store_exif g) (g_store_xmp g)
                (g_image_out_set g) (g_simple g) (g_custom_depth g) (g_frame_stage g) (g_orig_events g), l, [])
  | MBoxNoBuffer =>
      (mkGuards (if has (g_orig_events g) JXL_DEC_BOX && negb (g_current_box g) then false else g_box_event g)
                (g_box_stage g) (g_current_box g) (g_store_exif g) (g_store_xmp g)
                (g_image_out_set g) (g_simple g) (g_custom_depth g) (g_frame_stage g) (g_orig_events g), l, [])
  | MBoxOut =>
      if has (g_orig_events g) JXL_DEC_BOX && g_current_box g then
        let '(b, v) := k_box_process L r (l_box l) in (g, with_box l b, [VBox v])
      else (g, l, [])
  | MMeta =>
      if (g_store_exif g =? 1) || (g_store_xmp g =? 1) then
        let '(b, v) := k_box_process L r (l_meta l) in (g, with_meta l b, [VMeta v])
      else (g, l, [])
  | MMetaDone =>
      (mkGuards (g_box_event g) (g_box_stage g) (g_current_box g)
                (if g_store_exif g =? 1 then 2 else g_store_exif g) (if g_store_xmp g =? 1 then 2 else g_store_xmp g)
                (g_image_out_set g) (g_simple g) (g_custom_depth g) (g_frame_stage g) (g_orig_events g), l, [])
  | MJpegRecon input =>
      match g_box_stage g with
      | SRecon =>
          let j1 := if j_inside (l_jpeg l) then l_jpeg l else jpeg_start (l_jpeg l) (r_box_contents_unbounded _ r) (r_box_contents_size _ r) in
          let '(j2, status, used) := jpeg_process L j1 input in
          (g, with_jpeg l j2, [VJpeg status used (if status =? stRecon then j_data j2 else None)])
      | _ => (g, l, [])
      end
  | MFrameHeader =>
      (* SetImageBundleJpegData, decode_to_jpeg.h:104-115: the data moves to the image bundle *)
      match g_frame_stage g with
      | FHeader =>
          let j := l_jpeg l in
          let moved := if output_set j then j_data j else None in
          (mkGuards (g_box_event g) (g_box_stage g) (g_current_box g) (g_store_exif g) (g_store_xmp g)
                    (g_image_out_set g) (g_simple g) (g_custom_depth g) FToc (g_orig_events g),
           match moved with
           | Some _ => with_jpeg l (mkJpeg (j_buffer j) None (j_inside j) (j_eof j) (j_size j) (j_next_out j) (j_avail j))
           | None => l
           end, [VOutput (output_set j) moved])
      | _ => (g, l, [])
      end
  | MToc progression full =>
      match g_frame_stage g with
      | FToc =>
          (mkGuards (g_box_event g) (g_box_stage g) (g_current_box g) (g_store_exif g) (g_store_xmp g)
                    (g_image_out_set g) (g_simple g) (g_custom_depth g) (if full then FFull else FHeader) (g_orig_events g),
           with_frame l (if progression then l_prog_detail l else kFrames) false,
           if progression then [VDetail (l_prog_detail l) false] else [])
      | _ => (g, l, [])
      end
  | MFull =>
      match g_frame_stage g with
      | FFull =>
          (g, l, VOutput (output_set (l_jpeg l)) None ::
                 (if g_image_out_set g then
                    VFormat (l_format l) :: (if g_custom_depth g then [VDepth (l_depth l)] else []) ++
                    (if g_simple g then [VSimple (l_simple l)] else [])
                  else []))
      | _ => (g, l, [])
      end
  | MFrameProgress =>
      match g_frame_stage g with
      | FFull => (g, l, [VDetail (l_frame_prog_detail l) (l_dc_done l)])
      | _ => (g, l, [])
      end
  | MDcDone =>
      match g_frame_stage g with
      | FFull => (g, with_frame l (l_frame_prog_detail l) true, [])
      | _ => (g, l, [])
      end
  | MFrameEnd out =>
      (mkGuards (g_box_event g) (g_box_stage g) (g_current_box g) (g_store_exif g) (g_store_xmp g)
                (if out then false else g_image_out_set g) (g_simple g) (g_custom_depth g) FHeader (g_orig_events g),
       l, [VOutput (output_set (l_jpeg l)) None])
  | MJpegWrite size v =>
      (* WriteOutput, decode_to_jpeg.h:117-140: nothing is updated if there is not enough room *)
      let j := l_jpeg l in
      (g, if (0 <=? size) && (size <=? j_avail j) then with_jpeg l (mkJpeg (j_buffer j) (j_data j) (j_inside j) (j_eof j) (j_size j)
             (match j_next_out j with Some _ => Some v | None => None end) (j_avail j - size)) else l,
       [VRoom (j_next_out j) (j_avail j)])
  end.

(* JxlDecoderProcessInput *)
Fixpoint process {V} (L : library V) (steps : nat) (d : dec V) (log : list (seen V)) : dec V * list (seen V) * option V :=
  match steps with
  | O => (d, log, None)
  | S steps =>
      let '(r, s, m) := k_next L (d_rest d) (d_settings d) (d_guards d) log in
      let '(g, l, new) := micro_step L r s (d_guards d) (d_left d) m in
      match m with
      | MReturn v => (mkDec r g s l, log, Some v)
      | _ => process L steps (mkDec r g s l) (log ++ new)
      end
  end.

(* what was read and the result *)
Definition obs V : Type := list (seen V) * option V.

Definition set_out {V} (d : dec V) r s (g : guards) l : dec V :=
  mkDec r (mkGuards (g_box_event g) (g_box_stage g) (g_current_box g) (g_store_exif g) (g_store_xmp g)
                    true (g_simple g) (g_custom_depth g) (g_frame_stage g) (g_orig_events g)) s l.

(* a function that asks the rest of the decoder and, if it succeeds, goes on with yes *)
Definition api {V} (L : library V) (d : dec V) (c : call V) (log : list (seen V))
    (yes : rewound V -> settings V -> guards -> left V -> dec V) : dec V * obs V :=
  let '(ok, v, r, s) := k_api L c (d_rest d) (d_settings d) (d_guards d) log in
  ((if ok then yes r s (d_guards d) (d_left d) else mkDec r (d_guards d) s (d_left d)), (log, Some v)).

Definition step {V} (L : library V) (d : dec V) (c : call V) : dec V * obs V :=
  let g := d_guards d in let l := d_left d in
  match c with
  | CProcessInput steps => let '(d1, log, v) := process L steps d [] in (d1, (log, v))
  | CSetImageOutBuffer format =>
      (* decode.cc:2541-2569, 2581-2610 *)
      api L d c [] (fun r s g l => set_out d r s g (with_format l format))
  | CSetImageOutCallback format callback =>
      (* decode.cc:2655-2678: the callback is stored in any case *)
      let l1 := with_simple l callback in
      api L (mkDec (d_rest d) g (d_settings d) l1) c []
        (fun r s g l => set_out d r s (mkGuards (g_box_event g) (g_box_stage g) (g_current_box g) (g_store_exif g) (g_store_xmp g)
             (g_image_out_set g) true (g_custom_depth g) (g_frame_stage g) (g_orig_events g)) (with_format l format))
  | CSetMultithreadedImageOutCallback format =>
      (* decode.cc:2680-2707 *)
      api L d c []
        (fun r s g l => set_out d r s (mkGuards (g_box_event g) (g_box_stage g) (g_current_box g) (g_store_exif g) (g_store_xmp g)
             (g_image_out_set g) false (g_custom_depth g) (g_frame_stage g) (g_orig_events g)) (with_format l format))
  | CSetImageOutBitDepth custom depth =>
      (* decode.cc:2998-3007 *)
      api L d c (if g_image_out_set g then [VFormat (l_format l)] else [])
        (fun r s g l => mkDec r (mkGuards (g_box_event g) (g_box_stage g) (g_current_box g) (g_store_exif g) (g_store_xmp g)
             (g_image_out_set g) (g_simple g) custom (g_frame_stage g) (g_orig_events g)) s (with_depth l depth))
  | CSetOutputColorProfile _ =>
      (* decode.cc:2851-2855 *)
      api L d c (if g_image_out_set g then [VFormat (l_format l)] else []) (fun r s g l => mkDec r g s l)
  | CSetBoxBuffer _ =>
      (* decode.cc:2889-2904 *)
      if g_box_event g then
        api L d c [] (fun r s g l => mkDec r (mkGuards (g_box_event g) (g_box_stage g) true (g_store_exif g) (g_store_xmp g)
             (g_image_out_set g) (g_simple g) (g_custom_depth g) (g_frame_stage g) (g_orig_events g)) s l)
      else (d, ([], None))
  | CReleaseBoxBuffer =>
      (* decode.cc:2906-2921; ok: a buffer was set *)
      api L d c [] (fun r s g l => mkDec r (mkGuards (g_box_event g) (g_box_stage g) false (g_store_exif g) (g_store_xmp g)
             (g_image_out_set g) (g_simple g) (g_custom_depth g) (g_frame_stage g) (g_orig_events g)) s l)
  | CSetJPEGBuffer data size =>
      (* decode.cc:1597-1613, decode_to_jpeg.h:41-46 *)
      let j := l_jpeg l in
      if (1 <? r_internal_frames (d_rest d)) || output_set j then (d, ([VOutput (output_set j) None], None))
      else (mkDec (d_rest d) g (d_settings d)
              (with_jpeg l (mkJpeg (j_buffer j) (j_data j) (j_inside j) (j_eof j) (j_size j) data size)),
            ([VOutput false None], Some (k_zero L)))
  | CReleaseJPEGBuffer =>
      (* decode.cc:1615-1621, decode_to_jpeg.h:49-54 *)
      let j := l_jpeg l in
      (mkDec (d_rest d) g (d_settings d)
         (with_jpeg l (mkJpeg (j_buffer j) (j_data j) (j_inside j) (j_eof j) (j_size j) None 0)),
       ([VRoom None (j_avail j)], Some (k_zero L)))
  | CSkipCurrentFrame =>
      (* decode.cc:904-915; ok: is_last_of_still *)
      match g_frame_stage g with
      | FFull =>
          let '(ok, v, r, s) := k_api L c (d_rest d) (d_settings d) g [] in
          (mkDec r (mkGuards (g_box_event g) (g_box_stage g) (g_current_box g) (g_store_exif g) (g_store_xmp g)
             (if ok then false else g_image_out_set g) (g_simple g) (g_custom_depth g) FHeader (g_orig_events g)) s l, ([], Some v))
      | _ => (d, ([], None))
      end
  | CSetProgressiveDetail detail =>
      (* decode.cc:2967-2977; kDC, kLastPasses, kPasses *)
      if (1 <=? detail) && (detail <=? 3) then
        (mkDec (d_rest d) g (d_settings d) (with_detail l detail), ([], Some (k_zero L)))
      else (d, ([], None))
  | CSubscribeEvents events =>
      (* decode.cc:934-944; ok: not started and no event below 64.  events_wanted is in the rest *)
      api L d c [] (fun r s g l => mkDec r (mkGuards (g_box_event g) (g_box_stage g) (g_current_box g) (g_store_exif g) (g_store_xmp g)
             (g_image_out_set g) (g_simple g) (g_custom_depth g) (g_frame_stage g) events) s l)
  | COther _ => api L d c [] (fun r s g l => mkDec r g s l)
  | CRewind => (rewind L d, ([], None))
  | CReset => (reset L d, ([], None))
  end.

Fixpoint run {V} (L : library V) (d : dec V) (cs : list (call V)) : dec V * list (obs V) :=
  match cs with
  | [] => (d, [])
  | c :: cs => let '(d1, o) := step L d c in let '(d2, os) := run L d1 cs in (d2, o :: os)
  end.
