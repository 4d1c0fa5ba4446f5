(* Skipping frames: GetFrameDependencies, JxlDecoderSkipFrames and the part of JxlDecoderProcessCodestream
   that decides whether a frame is decoded, lib/jxl/decode.cc. *)
From Verif Require Import Base Arr OMap.

(* What a frame of the codestream says, lib/jxl/frame_header.h and FrameDecoder::References.
   f_refs is what FrameDecoder::References (dec_frame.cc:821-858) returns once the frame is decoded. *)
Record frame := Frame {
  f_is_last : bool; f_duration : Z; f_regular : bool; f_dc : bool; f_dc_level : Z; f_save_as_reference : Z; f_refs : Z }.

(* FrameHeader::CanBeReferenced, frame_header.h:373-379 *)
Definition can_be_referenced (f : frame) : bool := negb (f_is_last f) && negb (f_dc f) && ((f_duration f =? 0) || negb (f_save_as_reference f =? 0)).
(* FrameDecoder::SavedAs, dec_frame.cc:799-809 *)
Definition saved_as (f : frame) : Z :=
  if f_dc f then Z.shiftl 16 (f_dc_level f - 1)
  else if can_be_referenced f then Z.shiftl 1 (f_save_as_reference f) else 0.
(* is_last_of_still, decode.cc:1345-1353 *)
Definition last_of_still (coalescing : bool) (f : frame) : bool :=
  f_is_last f || (0 <? f_duration f) || (negb coalescing && f_regular f).

(* FrameRef, decode.cc:228-231 *)
Record frame_ref := FrameRef { reference : Z; r_saved_as : Z }.

(* the storage vector of a slot, decode.cc:256-267 *)
Fixpoint storage_of (slot : Z) (id i : Z) (refs : list frame_ref) : list Z :=
  match refs with
  | [] => []
  | r :: refs => let id := if Z.testbit (r_saved_as r) slot then i else id in id :: storage_of slot id (i + 1) refs
  end.

(* Pushing frames not yet seen: decode.cc:281-288 and 294-303.  seen has size entries; the top of the
   stack is the head of the list *)
Fixpoint push_all (invalid size : Z) (found : list Z) (seen : Z -> bool) (stack result : list Z) : option ((Z -> bool) * list Z * list Z) :=
  match found with
  | [] => Some (seen, stack, result)
  | frame_ref :: found =>
      if frame_ref =? invalid then push_all invalid size found seen stack result
      else
        do s <- get size seen frame_ref;
        if s : bool then push_all invalid size found seen stack result
        else do seen <- set size seen frame_ref true; push_all invalid size found seen (frame_ref :: stack) (result ++ [frame_ref])
  end.
(* storage[s][i] for some slots *)
Definition stored (storage : list (list Z)) (i : Z) (slots : list Z) : option (list Z) :=
  omap (fun s => do row <- znth storage s; znth row i) slots.
(* decode.cc:290-304.  None also when the fuel is used up *)
Fixpoint search (fuel : nat) (refs : list frame_ref) (storage : list (list Z)) (size : Z) (seen : Z -> bool) (stack result : list Z) : option (list Z) :=
  match stack with
  | [] => Some result
  | frame_index :: stack =>
      match fuel with
      | O => None
      | S fuel =>
          if frame_index =? 0 then search fuel refs storage size seen stack result
          else
            do r <- znth refs frame_index;
            do found <- stored storage (frame_index - 1) (filter (Z.testbit (reference r)) (zseq 0 8));
            do p <- push_all (zlen refs) size found seen stack result;
            let '(seen, stack, result) := p in
            search fuel refs storage size seen stack result
      end
  end.
(* GetFrameDependencies, decode.cc:243-307 *)
Definition get_frame_dependencies (index : Z) (refs : list frame_ref) : option (list Z) :=
  let storage := map (fun s => storage_of s (zlen refs) 0 refs) (zseq 0 8) in
  let size := index + 1 in
  do seen <- set size (fun _ => false) index true;
  do found <- stored storage index (zseq 0 8);
  do p <- push_all (zlen refs) size found seen [index] [];
  let '(seen, stack, result) := p in
  search (Z.to_nat (index + 1)) refs storage size seen stack result.

(* ---- the decoder ---- *)
(* the members of JxlDecoder in question, decode.cc:500-527; current: the frame being decoded, if any;
   full_image: JXL_DEC_FULL_IMAGE is among the events wanted *)
Record decoder := Dec {
  d_coalescing : bool; d_full : bool;
  skip_frames : Z; internal_frames : Z; external_frames : Z;
  frame_refs : list frame_ref; external_to_internal : list Z; frame_required : list bool;
  current : option Z }.

Definition new_decoder (coalescing full : bool) : decoder := Dec coalescing full 0 0 0 [] [] [] None.

(* What is seen from outside: the decoding of frame i begins (shown: it is not one of those the user
   skips); frame i is passed over; frame i has been decoded; the user rewinds *)
Inductive event := Started (i : Z) (shown : bool) | Passed (i : Z) | Done (i : Z) | Rewound.
(* What happens: the next frame header is parsed; all sections of the frame have been decoded;
   JxlDecoderSkipFrames; JxlDecoderRewind followed by the calls that change settings *)
Inductive op := Header | Finish | Skip (amount : Z) | Rewind (coalescing full : bool).

(* decode.cc:892-899; None: unreachable *)
Fixpoint require (required : list bool) (deps : list Z) : option (list bool) :=
  match deps with
  | [] => Some required
  | idx :: deps => if idx <? zlen required then require (put required idx true) deps else None
  end.
(* JxlDecoderSkipFrames, decode.cc:872-902 *)
Definition skip (d : decoder) (amount : Z) : option decoder :=
  let n := w64 (skip_frames d + amount) in
  let next_frame := w64 (external_frames d + n) in
  let ret required := Some (Dec (d_coalescing d) (d_full d) n (internal_frames d) (external_frames d) (frame_refs d) (external_to_internal d) required (current d)) in
  match znth (external_to_internal d) next_frame with
  | Some internal_index =>
      if internal_index <? zlen (frame_refs d) then
        do deps <- get_frame_dependencies internal_index (frame_refs d);
        do required <- require (repeat false (Z.to_nat (internal_index + 1))) deps;
        ret required
      else ret []
  | None => ret []
  end.

(* JxlDecoderProcessCodestream at a frame header, decode.cc:1339-1440 (no preview).  None: an API error *)
Definition header (f : frame) (d : decoder) : option (decoder * list event) :=
  let last := last_of_still (d_coalescing d) f in
  let i := internal_frames d in
  let e := external_frames d in
  let skipping := 0 <? skip_frames d in
  let n := if skipping && last then skip_frames d - 1 else skip_frames d in
  do e2i <- (if zlen (external_to_internal d) <=? e then
               let l := external_to_internal d ++ [i] in if zlen l =? e + 1 then Some l else None
             else Some (external_to_internal d));
  do refs <- (if zlen (frame_refs d) <=? i then
                let l := frame_refs d ++ [FrameRef 255 (saved_as f)] in if zlen l =? i + 1 then Some l else None
              else Some (frame_refs d));
  let ret cur ev := Some (Dec (d_coalescing d) (d_full d) n (i + 1) (if last then e + 1 else e) refs e2i (frame_required d) cur, [ev]) in
  let referenceable := (can_be_referenced f || f_dc f) && match znth (frame_required d) i with Some false => false | _ => true end in
  if skipping && negb referenceable then ret None (Passed i)
  else if d_full d then ret (Some i) (Started i (negb skipping))
  else ret None (Passed i).

(* decode.cc:1518-1531 *)
Definition finish (fs : list frame) (d : decoder) (i : Z) : option (decoder * list event) :=
  do f <- znth fs i;
  do r <- znth (frame_refs d) (internal_frames d - 1);
  Some (Dec (d_coalescing d) (d_full d) (skip_frames d) (internal_frames d) (external_frames d)
            (put (frame_refs d) (internal_frames d - 1) (FrameRef (f_refs f) (r_saved_as r))) (external_to_internal d) (frame_required d) None, [Done i]).

(* One step on the codestream with frames fs.  JxlDecoderRewind, decode.cc:737-825: frame_refs,
   frame_external_to_internal and frame_required stay.  What cannot happen does nothing. *)
Definition step (fs : list frame) (d : decoder) (o : op) : option (decoder * list event) :=
  match o with
  | Header => match current d, znth fs (internal_frames d) with None, Some f => header f d | _, _ => Some (d, []) end
  | Finish => match current d with Some i => finish fs d i | None => Some (d, []) end
  | Skip amount => do d <- skip d amount; Some (d, [])
  | Rewind coalescing full => Some (Dec coalescing full 0 0 0 (frame_refs d) (external_to_internal d) (frame_required d) None, [Rewound])
  end.
Fixpoint run (fs : list frame) (d : decoder) (ops : list op) : option (list event) :=
  match ops with
  | [] => Some []
  | o :: ops => do p <- step fs d o; let '(d, ev) := p in do r <- run fs d ops; Some (ev ++ r)
  end.
