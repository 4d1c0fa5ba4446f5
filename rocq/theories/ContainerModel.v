(* Model of the file signature check, box headers and the output buffer size computation:
   lib/jxl/decode.cc, lib/jxl/encode.cc, lib/jxl/encode_internal.h, lib/jxl/base/common.h. *)
From Verif Require Import Base.

(* JxlSignature, lib/include/jxl/decode.h *)
Inductive signature := SigNotEnough | SigInvalid | SigCodestream | SigContainer.

(* jxl::kJxlSignatureBox, lib/jxl/common.h:33-35 *)
Definition signature_box : list Z := [0; 0; 0; 12; 74; 88; 76; 32; 13; 10; 135; 10].

(* memcmp(a, b, n) == 0 for the first |b| bytes of a *)
Fixpoint starts_with (s p : list Z) {struct p} : bool :=
  match p, s with
  | [], _ => true
  | x :: p', y :: s' => (x =? y) && starts_with s' p'
  | _ :: _, [] => false
  end.

(* ReadSignature, lib/jxl/decode.cc:115-147; returns the verdict and the new *pos.
   kCodestreamMarker = 0x0a, lib/jxl/headers.h:24. *)
Definition read_signature (buf : list Z) (pos : Z) : signature * Z :=
  let len := zlen buf in
  if pos >=? len then (SigNotEnough, pos) else
  let s := skipn (Z.to_nat pos) buf in
  let len := len - pos in
  match s with
  | [] => (SigNotEnough, pos) (* unreachable: len >= 1 *)
  | b0 :: r =>
      if b0 =? 255 then
        if len <? 2 then (SigNotEnough, pos)
        else match r with
             | b1 :: _ => if b1 =? 10 then (SigCodestream, pos + 2) else (SigInvalid, pos)
             | [] => (SigNotEnough, pos) (* unreachable: len >= 2 *)
             end
      else if b0 =? 0 then
        if len <? 12 then (SigNotEnough, pos)
        else if starts_with s signature_box then (SigContainer, pos + 12)
        else (SigInvalid, pos)
      else (SigInvalid, pos)
  end.

(* JxlSignatureCheck, lib/jxl/decode.cc:154-157: ReadSignature at position 0. *)
Definition signature_check (buf : list Z) : signature := fst (read_signature buf 0).

(* OutOfBounds, lib/jxl/decode.cc:61-66; size_t arithmetic *)
Definition out_of_bounds (a b size : Z) : bool :=
  let pos := w64 (a + b) in
  if pos >? size then true else if pos <? a then true else false.

(* n bytes of memory starting at p; None is an access outside the input *)
Definition load (inp : list Z) (p : Z) (n : nat) : option (list Z) :=
  if (p <? 0) || (zlen inp <? p + Z.of_nat n) then None
  else Some (firstn n (skipn (Z.to_nat p) inp)).

(* LoadBE32 / LoadBE64, lib/jxl/base/byte_order.h *)
Definition be (bs : list Z) : Z := fold_left (fun acc b => 256 * acc + b) bs 0.

(* Outcome of ParseBoxHeader: need more input (with the known minimal header size), error,
   success with the box size, type and header size. *)
Inductive box_result := BoxNeedMore (header_size : Z) | BoxError | BoxOk (box_size : Z) (type : list Z) (header_size : Z).

(* ParseBoxHeader, lib/jxl/decode.cc:1639-1670.  size_t is 64 bits, so the test
   box_size_64 != box_size never holds and is omitted.  None: access outside the input. *)
Definition parse_box_header (inp : list Z) (pos file_pos : Z) : option box_result :=
  let size := zlen inp in
  if out_of_bounds pos 8 size then Some (BoxNeedMore 8) else
  let box_start := pos in
  match load inp pos 4, load inp (pos + 4) 4 with
  | Some sz, Some type =>
      let box_size := be sz in
      let pos := pos + 8 in
      let finish (box_size pos : Z) :=
        let header_size := pos - box_start in
        if (box_size >? 0) && (box_size <? header_size) then Some BoxError
        else if w64 (file_pos + box_size) <? file_pos then Some BoxError
        else Some (BoxOk box_size type header_size) in
      if box_size =? 1 then
        if out_of_bounds pos 8 size then Some (BoxNeedMore 16) else
        match load inp pos 8 with
        | Some sz64 => finish (be sz64) (pos + 8)
        | None => None
        end
      else finish box_size pos
  | _, _ => None
  end.

(* kSmallBoxHeaderSize, kLargeBoxHeaderSize, kLargeBoxContentSizeThreshold,
   lib/jxl/encode_internal.h:410-413 *)
Definition small_box_header_size : Z := 8.
Definition large_box_header_size : Z := 16.
Definition large_box_content_size_threshold : Z := 2 ^ 32 - small_box_header_size.

(* for (i < n) output = v >> (8 * (n-1-i)) & 0xff *)
Fixpoint be_bytes (n : nat) (v : Z) : list Z :=
  match n with
  | O => []
  | S n' => Z.land (Z.shiftr v (8 * Z.of_nat n')) 255 :: be_bytes n' v
  end.

(* WriteBoxHeader, lib/jxl/encode.cc:361-396.  The comparison is on box_size, which is still
   0 there, as in the code. *)
Definition write_box_header (type : list Z) (size : Z) (unbounded force_large_box : bool) : list Z :=
  let box_size0 := 0 in
  let '(large_size, box_size) :=
    if unbounded then (false, box_size0)
    else if (box_size0 >=? large_box_content_size_threshold) || force_large_box
    then (true, w64 (size + large_box_header_size))
    else (false, w64 (size + small_box_header_size)) in
  be_bytes 4 (if large_size then 1 else box_size) ++ type ++
  (if large_size then be_bytes 8 box_size else []).

(* JxlEncoder::AppendBox, lib/jxl/encode.cc:399-437: the bytes it appends for the contents
   written by write_box; None when the declared maximum is violated or JXL_ENSURE fails.
   Simplified: the output processor is the byte string being appended to; seeking back over
   the header is writing the header before the contents. *)
Definition append_box (type : list Z) (unbounded : bool) (box_max_size : Z) (contents : list Z)
  : option (list Z) :=
  let large_box := (box_max_size >=? large_box_content_size_threshold) && negb unbounded in
  let box_header_size := if large_box then large_box_header_size else small_box_header_size in
  if zlen contents >? box_max_size then None
  else
    let h := write_box_header type (zlen contents) unbounded large_box in
    if zlen h =? box_header_size then Some (h ++ contents) else None.

(* MakeContainerHeader, lib/jxl/encode_internal.h:432-442 *)
Definition container_header (ftyp_version : Z) : list Z :=
  let ftyp := [106; 120; 108; 32; 0; 0; 0; w8 ftyp_version; 106; 120; 108; 32] in
  signature_box ++ write_box_header [102; 116; 121; 112] (zlen ftyp) false false ++ ftyp.

(* SafeAdd, SafeMul, DivCeil, SafeRoundUpTo on size_t, lib/jxl/base/common.h:40-100; None is
   the false return *)
Definition safe_add (a b : Z) : option Z :=
  let sum := w64 (a + b) in if sum >=? a then Some sum else None.
Definition safe_mul (a b : Z) : option Z :=
  if (a =? 0) || (b =? 0) then Some 0
  else if b >? (2 ^ 64 - 1) / a then None else Some (w64 (a * b)).
Definition div_ceil (a b : Z) : Z := w64 (a + b - 1) / b.
Definition safe_round_up_to (what align : Z) : option Z :=
  if align <? 2 then Some what
  else let reminder := what mod align in
       if reminder =? 0 then Some what else safe_add what (align - reminder).

(* BitsPerChannel, lib/jxl/decode.cc:163-177; JXL_TYPE_FLOAT 0, UINT8 2, UINT16 3, FLOAT16 5 *)
Definition bits_per_channel (data_type : Z) : Z :=
  if data_type =? 2 then 8 else if data_type =? 3 then 16 else if data_type =? 0 then 32
  else if data_type =? 5 then 16 else 0.

(* GetMinSize, lib/jxl/decode.cc:2495-2533, after PrepareSizeCheck's tests on the decoder
   state; num_channels = 0 stands for format->num_channels.  None is JXL_DEC_ERROR. *)
Definition get_min_size (xsize ysize data_type format_channels align num_channels : Z) : option Z :=
  if format_channels >? 4 then None else
  let bits := bits_per_channel data_type in
  if bits =? 0 then None else
  let num_channels := if num_channels =? 0 then format_channels else num_channels in
  match safe_mul xsize num_channels with
  | None => None
  | Some rb =>
  match safe_mul rb bits with
  | None => None
  | Some row_bits =>
      let row_size := div_ceil row_bits 8 in
      let last_row_size := row_size in
      match safe_round_up_to row_size align with
      | None => None
      | Some row_size =>
          match (if ysize >? 1 then safe_mul row_size (ysize - 1) else Some 0) with
          | None => None
          | Some total => safe_add total last_row_size
          end
      end
  end end.
