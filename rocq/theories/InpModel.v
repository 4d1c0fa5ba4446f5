(* The input side of the decoder: boxes, the codestream window, jxlp boxes out of order and the
   delivery of box contents.  lib/jxl/decode.cc, lib/jxl/box_content_decoder.cc.

   Not modelled: JPEG reconstruction (no jbrd subscription), Brotli decompression of brob boxes
   (decompress_boxes is false), the size hint, memory allocation failure.  The signature was
   already checked (C30).  size_t values are unbounded Z here except where a subtraction could
   wrap: that is the outcome SCrash. *)
From Verif Require Import Base ContainerModel.

(* BoxStage, decode.cc:208-217 without kJpegRecon *)
Inductive bstage := BHeader | BFtyp | BSkip | BCodestream | BPartial | BBuffering.

(* reasons for JXL_DEC_ERROR, for the theorems to tell apart *)
Inductive err := EFormat | EInternal | ELimit | EParser | EPremature | ENeverFinished.

(* JxlDecoderStatus; SEvent stands for every codestream event.  SFuel: the loop of the model was
   not given enough iterations.  SCrash: a read or subtraction outside the input. *)
Inductive status :=
| SSuccess | SError (e : err) | SNeedInput | SBox | SBoxMoreOutput | SBoxComplete | SEvent
| SFuel | SCrash.

(* what can be observed: bytes shown to the codestream parser, the parser moving on, bytes
   written to the user's box buffer, a value returned by JxlDecoderProcessInput, the user
   setting a box buffer of some size, or releasing it and being told how much is unused *)
Inductive obs :=
| OSpan (bytes : list Z) | OAdv (n : Z) | OData (bytes : list Z) | ORet (s : status)
| OBuf (size : Z) | ORel (unused : Z).

(* next_in/avail_in, file_pos: decode.cc:396, 612-621 *)
Record input := mkInput { i_in : list Z; i_pos : Z }.
(* box_contents_begin .. box_contents_unbounded, header_size: decode.cc:400-407 *)
Record boxst := mkBox { x_begin : Z; x_end : Z; x_size : Z; x_header : Z; x_unb : bool }.
(* codestream_copy, codestream_unconsumed, codestream_pos: decode.cc:529-541 *)
Record window := mkWin { w_copy : list Z; w_unc : Z; w_pos : Z }.
(* jxl_file_format_version .. buffering_jxlp_index: decode.cc:547-563.  The map is a list of
   pairs with distinct keys. *)
Record jxlp := mkJxlp { j_ver : Z; j_next : Z; j_ooo : list (Z * (list Z * bool)); j_total : Z; j_buf : Z }.
(* box_event, box_out_buffer_*: decode.cc:412-427; pos_, remaining_, box_until_eof_ of
   JxlBoxContentDecoder: box_content_decoder.h:37-41 *)
Record outst := mkOut { o_event : bool; o_set : bool; o_cur : bool; o_size : Z; o_pos : Z;
                        c_pos : Z; c_rem : Z; c_eof : bool }.
(* the decoder; d_done: stage == kCodestreamFinished; d_last: last_codestream_seen *)
Record dec := mkDec { d_in : input; d_box : boxst; d_win : window; d_jx : jxlp; d_out : outst;
                      d_stage : bstage; d_count : Z; d_last : bool; d_done : bool; d_closed : bool }.

Definition set_in (d : dec) v := mkDec v (d_box d) (d_win d) (d_jx d) (d_out d) (d_stage d) (d_count d) (d_last d) (d_done d) (d_closed d).
Definition set_box (d : dec) v := mkDec (d_in d) v (d_win d) (d_jx d) (d_out d) (d_stage d) (d_count d) (d_last d) (d_done d) (d_closed d).
Definition set_win (d : dec) v := mkDec (d_in d) (d_box d) v (d_jx d) (d_out d) (d_stage d) (d_count d) (d_last d) (d_done d) (d_closed d).
Definition set_jx (d : dec) v := mkDec (d_in d) (d_box d) (d_win d) v (d_out d) (d_stage d) (d_count d) (d_last d) (d_done d) (d_closed d).
Definition set_out (d : dec) v := mkDec (d_in d) (d_box d) (d_win d) (d_jx d) v (d_stage d) (d_count d) (d_last d) (d_done d) (d_closed d).
Definition set_stage (d : dec) v := mkDec (d_in d) (d_box d) (d_win d) (d_jx d) (d_out d) v (d_count d) (d_last d) (d_done d) (d_closed d).
Definition set_count (d : dec) v := mkDec (d_in d) (d_box d) (d_win d) (d_jx d) (d_out d) (d_stage d) v (d_last d) (d_done d) (d_closed d).
Definition set_last (d : dec) v := mkDec (d_in d) (d_box d) (d_win d) (d_jx d) (d_out d) (d_stage d) (d_count d) v (d_done d) (d_closed d).
Definition set_done (d : dec) v := mkDec (d_in d) (d_box d) (d_win d) (d_jx d) (d_out d) (d_stage d) (d_count d) (d_last d) v (d_closed d).
Definition set_closed (d : dec) v := mkDec (d_in d) (d_box d) (d_win d) (d_jx d) (d_out d) (d_stage d) (d_count d) (d_last d) (d_done d) v.

(* settings that do not change while decoding: have_container, events_wanted & JXL_DEC_BOX,
   events_wanted & JXL_DEC_BOX_COMPLETE *)
Record config := mkConfig { have_container : bool; want_box : bool; want_complete : bool }.

(* decode.cc:737-825: the state before the first call, after the signature was recognised
   (decode.cc:2173-2193: a naked codestream sets last_codestream_seen) *)
Definition init (c : config) : dec :=
  mkDec (mkInput [] 0) (mkBox 0 0 0 0 false) (mkWin [] 0 0) (mkJxlp 0 0 [] 0 0)
        (mkOut false false false 0 0 0 0 false) BHeader 0 (negb (have_container c)) false false.

Definition avail_in (d : dec) : Z := zlen (i_in (d_in d)).
Definition file_pos (d : dec) : Z := i_pos (d_in d).
Definition take (n : Z) (l : list Z) : list Z := firstn (Z.to_nat n) l.
Definition drop (n : Z) (l : list Z) : list Z := skipn (Z.to_nat n) l.

(* AdvanceInput, decode.cc:616-621; None when avail_in would wrap *)
Definition advance_input (d : dec) (n : Z) : option dec :=
  if (n <? 0) || (avail_in d <? n) then None
  else Some (set_in d (mkInput (drop n (i_in (d_in d))) (file_pos d + n))).

(* AvailableCodestream, decode.cc:623-630; None when box_contents_end - file_pos would wrap *)
Definition available_codestream (d : dec) : option Z :=
  if x_unb (d_box d) then Some (avail_in d)
  else if x_end (d_box d) <? file_pos d then None
  else Some (Z.min (avail_in d) (x_end (d_box d) - file_pos d)).

(* AdvanceCodestream, decode.cc:639-660 *)
Definition advance_codestream (d : dec) (size : Z) : option dec :=
  match available_codestream d with
  | None => None
  | Some avail =>
      let w := d_win d in
      match w_copy w with
      | [] =>
          if size <=? avail then advance_input d size
          else advance_input (set_win d (mkWin [] (w_unc w) (size - avail))) avail
      | _ =>
          let pos := w_pos w + size in
          if pos + w_unc w >=? zlen (w_copy w) then
            match advance_input d (Z.min (w_unc w) (w_unc w + pos - zlen (w_copy w))) with
            | Some d' => Some (set_win d' (mkWin [] 0 (pos - Z.min pos (zlen (w_copy w)))))
            | None => None
            end
          else Some (set_win d (mkWin (w_copy w) (w_unc w) pos))
      end
  end.

(* CanAddBuffer, decode.cc:565-571, size_t of 64 bits *)
Definition can_add_buffer (d : dec) (length : Z) : bool :=
  (length <? 2 ^ 48) && (length + j_total (d_jx d) + zlen (w_copy (d_win d)) <? 2 ^ 48).

(* RequestMoreInput, decode.cc:662-674 *)
Definition request_more_input (d : dec) : status * dec :=
  let w := d_win d in
  match w_copy w with
  | [] =>
      match available_codestream d with
      | None => (SCrash, d)
      | Some avail =>
          if negb (can_add_buffer d avail) then (SError ELimit, d) else
          let d1 := set_win d (mkWin (take avail (i_in (d_in d))) (w_unc w) (w_pos w)) in
          match advance_input d1 avail with
          | Some d2 => (SNeedInput, d2)
          | None => (SCrash, d)
          end
      end
  | _ =>
      match advance_input d (w_unc w) with
      | Some d' => (SNeedInput, set_win d' (mkWin (w_copy w) 0 (w_pos w)))
      | None => (SCrash, d)
      end
  end.

(* GetCodestreamInput, decode.cc:676-710; GSpan is JXL_DEC_SUCCESS *)
Inductive get_result := GSpan (bytes : list Z) (d : dec) | GStop (s : status) (d : dec).

(* decode.cc:686-710 *)
Definition get_window (d : dec) : get_result :=
  let w := d_win d in
  if w_pos w >? zlen (w_copy w) then GStop (SError EInternal) d else
  if w_unc w >? zlen (w_copy w) then GStop (SError EInternal) d else
  match available_codestream d with
  | None => GStop SCrash d
  | Some avail =>
      match w_copy w with
      | [] =>
          if avail =? 0 then let '(s, d') := request_more_input d in GStop s d'
          else GSpan (take avail (i_in (d_in d))) d
      | _ =>
          if negb (can_add_buffer d avail) then GStop (SError ELimit) d else
          let copy := w_copy w ++ drop (w_unc w) (take avail (i_in (d_in d))) in
          GSpan (drop (w_pos w) copy) (set_win d (mkWin copy avail (w_pos w)))
      end
  end.

Definition get_codestream_input (d : dec) : get_result :=
  let w := d_win d in
  match w_copy w with
  | [] =>
      if w_pos w >? 0 then
        match available_codestream d with
        | None => GStop SCrash d
        | Some avail =>
            let skip := Z.min (w_pos w) avail in
            match advance_input d skip with
            | None => GStop SCrash d
            | Some d1 =>
                let d2 := set_win d1 (mkWin [] (w_unc w) (w_pos w - skip)) in
                if w_pos w - skip >? 0 then let '(s, d') := request_more_input d2 in GStop s d'
                else get_window d2
            end
        end
      else get_window d
  | _ => get_window d
  end.

(* The codestream parser (JxlDecoderProcessCodestream and the functions it calls, decode.cc:
   1042-1570) is not modelled: what it does with the window is arbitrary.  One step of it takes
   the span, advances any number of times inside it (the amounts are cut off at the end of the
   span), possibly advances once more by any amount (skipping a frame), and then goes on, asks
   for more input or returns an event.  ADone and AFail return without looking at the input. *)
Inductive aend := ENext | EMore | EEvent.
Inductive act := AStep (inside : list Z) (skip : Z) (e : aend) | ADone | AFail.

Fixpoint advance_inside (d : dec) (inside : list Z) (left : Z) : option (dec * list obs) :=
  match inside with
  | [] => Some (d, [])
  | n :: rest =>
      let n := Z.min (Z.max 0 n) left in
      match advance_codestream d n with
      | None => None
      | Some d' =>
          match advance_inside d' rest (left - n) with
          | None => None
          | Some (d2, os) => Some (d2, OAdv n :: os)
          end
      end
  end.

(* the result of one call of JxlDecoderProcessCodestream: status, decoder, unused actions,
   observations *)
Fixpoint process_codestream (acts : list act) (d : dec) : status * dec * list act * list obs :=
  if d_done d then (SSuccess, d, acts, []) else
  match acts with
  | [] => (SEvent, d, [], [])
  | ADone :: rest => (SSuccess, set_done d true, rest, [])
  | AFail :: rest => (SError EParser, d, rest, [])
  | AStep inside skip e :: rest =>
      match get_codestream_input d with
      | GStop s d1 => (s, d1, rest, [])
      | GSpan span d1 =>
          match advance_inside d1 inside (zlen span) with
          | None => (SCrash, d1, rest, [OSpan span])
          | Some (d2, os) =>
              match e with
              | EMore => let '(s, d3) := request_more_input d2 in (s, d3, rest, OSpan span :: os)
              | _ =>
                  let skip := Z.max 0 skip in
                  match advance_codestream d2 skip with
                  | None => (SCrash, d2, rest, OSpan span :: os)
                  | Some d3 =>
                      match e with
                      | ENext =>
                          let '(s, d4, rest', os') := process_codestream rest d3 in
                          (s, d4, rest', OSpan span :: os ++ OAdv skip :: os')
                      | _ => (SEvent, d3, rest, OSpan span :: os ++ [OAdv skip])
                      end
                  end
              end
          end
      end
  end.

(* JxlBoxContentDecoder::StartBox, box_content_decoder.cc:29-40 *)
Definition start_box (o : outst) (until_eof : bool) (size : Z) : outst :=
  mkOut (o_event o) (o_set o) (o_cur o) (o_size o) (o_pos o) 0 (if until_eof then 0 else size) until_eof.

(* JxlBoxContentDecoder::Process without Brotli, box_content_decoder.cc:42-61, 104-122, with
   box_out_buffer_pos += produced of decode.cc:1690-1698 *)
Definition content_process (o : outst) (inp : list Z) (box_pos : Z) : status * outst * list Z :=
  if box_pos >? c_pos o then (SError EInternal, o, []) else
  let offset := c_pos o - box_pos in
  if offset >? zlen inp then (SError EInternal, o, []) else
  let inp := drop offset inp in
  let can_read := if c_eof o then zlen inp else Z.min (zlen inp) (c_rem o) in
  let to_write := Z.min can_read (o_size o - o_pos o) in
  let rem := if c_eof o then c_rem o else c_rem o - to_write in
  let o' := mkOut (o_event o) (o_set o) (o_cur o) (o_size o) (o_pos o + to_write)
                  (c_pos o + to_write) rem (c_eof o) in
  let data := take to_write inp in
  if to_write <? can_read then (SBoxMoreOutput, o', data)
  else if negb (c_eof o) && (rem >? 0) then (SNeedInput, o', data)
  else (SBoxComplete, o', data).

(* decode.cc:1680-1713: box contents are output before the box is handled.  The status is
   SSuccess to go on. *)
Definition output_box (c : config) (d : dec) : status * dec * list obs :=
  let o := d_out d in
  let o := if want_box c && o_event o && negb (o_cur o)
           then mkOut false (o_set o) (o_cur o) (o_size o) (o_pos o) (c_pos o) (c_rem o) (c_eof o) else o in
  if want_box c && o_cur o then
    let '(s, o', data) := content_process o (i_in (d_in d)) (file_pos d - x_begin (d_box d)) in
    let s := match s with
             | SBoxComplete => if want_complete c then s else SSuccess
             | SNeedInput => SSuccess
             | _ => s
             end in
    (s, set_out d o', [OData data])
  else (SSuccess, set_out d o, []).

(* memcmp(type, "xxxx", 4) == 0 *)
Fixpoint same (a b : list Z) : bool :=
  match a, b with
  | [], [] => true
  | x :: a', y :: b' => (x =? y) && same a' b'
  | _, _ => false
  end.
Definition t_jxl : list Z := [74; 88; 76; 32].
Definition t_ftyp : list Z := [102; 116; 121; 112].
Definition t_jxlc : list Z := [106; 120; 108; 99].
Definition t_jxlp : list Z := [106; 120; 108; 112].
Definition t_brob : list Z := [98; 114; 111; 98].
Definition t_brand : list Z := [106; 120; 108; 32].

Definition ooo_find (m : list (Z * (list Z * bool))) (k : Z) : option (list Z * bool) :=
  option_map snd (find (fun e => fst e =? k) m).
Definition ooo_erase (m : list (Z * (list Z * bool))) (k : Z) : list (Z * (list Z * bool)) :=
  filter (fun e => negb (fst e =? k)) m.
Definition ooo_append (m : list (Z * (list Z * bool))) (k : Z) (data : list Z) : list (Z * (list Z * bool)) :=
  map (fun e => if fst e =? k then (fst e, (fst (snd e) ++ data, snd (snd e))) else e) m.

(* InjectNextBufferedJxlpBox, decode.cc:573-589; None: no box injected *)
Definition inject_next (d : dec) : option dec :=
  let j := d_jx d in
  match ooo_find (j_ooo j) (j_next j) with
  | None => None
  | Some (data, is_last) =>
      let w := d_win d in
      let d1 := set_win d (mkWin (w_copy w ++ data) (w_unc w) (w_pos w)) in
      let d2 := if is_last then set_last d1 true else d1 in
      Some (set_jx d2 (mkJxlp (j_ver j) (j_next j + 1) (ooo_erase (j_ooo j) (j_next j))
                              (j_total j - zlen data) (j_buf j)))
  end.

(* one branch of the loop in HandleBoxes: go on with the loop, or return *)
Inductive step := Go (d : dec) (acts : list act) (os : list obs) | Stop (s : status) (d : dec) (acts : list act) (os : list obs).

(* decode.cc:1793-1947 *)
Definition step_header (c : config) (acts : list act) (d : dec) : step :=
  if negb (have_container c) then
    if d_done d then Stop SSuccess d acts []
    else
      let b := d_box d in
      Go (set_box (set_stage d BCodestream) (mkBox (x_begin b) (x_end b) (x_size b) (x_header b) true)) acts []
  else if avail_in d =? 0 then
    if negb (d_done d) then Stop SNeedInput d acts []
    else if d_closed d then Stop SSuccess d acts []
    else if negb (want_box c) then Stop SSuccess d acts []
    else Stop SNeedInput d acts []
  else
  let boxed_done := want_box c && d_done d && d_last d in
  if boxed_done && (2 <=? avail_in d) && same (take 2 (i_in (d_in d))) [255; 10] then Stop SSuccess d acts [] else
  match parse_box_header (i_in (d_in d)) 0 (file_pos d) with
  | None => Stop SCrash d acts []
  | Some (BoxNeedMore _) => Stop SNeedInput d acts []
  | Some BoxError => Stop (SError EFormat) d acts []
  | Some (BoxOk box_size type header_size) =>
      if same type t_brob && (avail_in d <? header_size + 4) then Stop SNeedInput d acts [] else
      let d := set_count d (d_count d + 1) in
      if boxed_done && same type t_jxl then Stop SSuccess d acts [] else
      if (d_count d =? 2) && negb (same type t_ftyp) then Stop (SError EFormat) d acts [] else
      if same type t_ftyp && negb (d_count d =? 2) then Stop (SError EFormat) d acts [] else
      let unb := box_size =? 0 in
      let size := if unb then 0 else box_size - header_size in
      let d := set_box d (mkBox (file_pos d + header_size) (if unb then 0 else file_pos d + box_size)
                                size header_size unb) in
      let d := if want_box c then set_out d (start_box (d_out d) unb size) else d in
      if same type t_jxlc && d_last d then Stop (SError EFormat) d acts [] else
      let d := if same type t_ftyp then set_stage d BFtyp
               else if same type t_jxlc then set_stage (set_last d true) BCodestream
               else if same type t_jxlp then set_stage d BPartial
               else set_stage d BSkip in
      if want_box c then
        let o := d_out d in
        Stop SBox (set_out d (mkOut true (o_set o) false (o_size o) (o_pos o) (c_pos o) (c_rem o) (c_eof o))) acts []
      else Go d acts []
  end.

(* decode.cc:1948-1964 *)
Definition step_ftyp (acts : list act) (d : dec) : step :=
  if x_size (d_box d) <? 12 then Stop (SError EFormat) d acts [] else
  if avail_in d <? 8 then Stop SNeedInput d acts [] else
  if negb (same (take 4 (i_in (d_in d))) t_brand) then Stop (SError EFormat) d acts [] else
  let version := be (take 4 (drop 4 (i_in (d_in d)))) in
  if version >? 1 then Stop (SError EFormat) d acts [] else
  let j := d_jx d in
  let d := set_jx d (mkJxlp version (j_next j) (j_ooo j) (j_total j) (j_buf j)) in
  match advance_input d 8 with
  | None => Stop SCrash d acts []
  | Some d => Go (set_stage d BSkip) acts []
  end.

(* decode.cc:1965-2014; kNumBuffersLimit is 1 << 20 *)
Definition step_partial (acts : list act) (d : dec) : step :=
  if d_last d then Stop (SError EFormat) d acts [] else
  if avail_in d <? 4 then Stop SNeedInput d acts [] else
  if negb (x_unb (d_box d)) && (x_size (d_box d) <? 4) then Stop (SError EFormat) d acts [] else
  let jxlp_index := be (take 4 (i_in (d_in d))) in
  let counter := Z.land jxlp_index (2 ^ 31 - 1) in
  let is_last := negb (Z.land jxlp_index (2 ^ 31) =? 0) in
  let j := d_jx d in
  if counter <? j_next j then Stop (SError EFormat) d acts [] else
  match advance_input d 4 with
  | None => Stop SCrash d acts []
  | Some d =>
      if counter =? j_next j then
        let d := set_jx d (mkJxlp (j_ver j) (j_next j + 1) (j_ooo j) (j_total j) (j_buf j)) in
        let d := if is_last then set_last d true else d in
        Go (set_stage d BCodestream) acts []
      else if 1 <=? j_ver j then
        if 2 ^ 20 <=? zlen (j_ooo j) then Stop (SError ELimit) d acts [] else
        match ooo_find (j_ooo j) counter with
        | Some _ => Stop (SError EFormat) d acts []
        | None =>
            let d := set_jx d (mkJxlp (j_ver j) (j_next j) (j_ooo j ++ [(counter, ([], is_last))]) (j_total j) counter) in
            Go (set_stage d BBuffering) acts []
        end
      else Stop (SError EFormat) d acts []
  end.

(* decode.cc:2015-2054 *)
Definition step_codestream (c : config) (acts : list act) (d : dec) : step :=
  let '(s, d1, rest, os) := process_codestream acts d in
  match s with
  | SNeedInput =>
      if (file_pos d1 =? x_end (d_box d1)) && negb (x_unb (d_box d1)) then
        match inject_next d1 with
        | Some d2 => Go d2 rest os
        | None => Go (set_stage d1 BHeader) rest os
        end
      else Stop SNeedInput d1 rest os
  | SSuccess =>
      if x_unb (d_box d1) then Stop SSuccess d1 rest os
      else if want_box c then Go (set_stage d1 BSkip) rest os
      else Stop SSuccess d1 rest os
  | _ => Stop s d1 rest os
  end.

(* decode.cc:2055-2074 *)
Definition step_buffering (acts : list act) (d : dec) : step :=
  match available_codestream d with
  | None => Stop SCrash d acts []
  | Some remaining =>
      if negb (can_add_buffer d remaining) then Stop (SError ELimit) d acts [] else
      let j := d_jx d in
      let d := set_jx d (mkJxlp (j_ver j) (j_next j)
                           (ooo_append (j_ooo j) (j_buf j) (take remaining (i_in (d_in d))))
                           (j_total j + remaining) (j_buf j)) in
      match advance_input d remaining with
      | None => Stop SCrash d acts []
      | Some d =>
          if negb (x_unb (d_box d)) && (x_end (d_box d) <=? file_pos d)
          then Go (set_stage d BHeader) acts []
          else Stop SNeedInput d acts []
      end
  end.

(* decode.cc:2125-2155 *)
Definition step_skip (acts : list act) (d : dec) : step :=
  if x_unb (d_box d) then
    if d_closed d then Stop SSuccess d acts []
    else if negb (o_set (d_out d)) then Stop SSuccess d acts []
    else match advance_input d (avail_in d) with
         | None => Stop SCrash d acts []
         | Some d => Stop SNeedInput d acts []
         end
  else
  let remaining := x_end (d_box d) - file_pos d in
  if remaining <? 0 then Stop SCrash d acts []
  else if avail_in d <? remaining then
    match advance_input d (avail_in d) with
    | None => Stop SCrash d acts []
    | Some d => Stop SNeedInput d acts []
    end
  else
    match advance_input d remaining with
    | None => Stop SCrash d acts []
    | Some d => Go (set_stage d BHeader) acts []
    end.

Definition is_header (s : bstage) : bool := match s with BHeader => true | _ => false end.

(* decode.cc:1677-1714: the part of the loop before the stages.  SSuccess: go on. *)
Definition preamble (c : config) (d : dec) : status * dec * list obs :=
  if is_header (d_stage d) then (SSuccess, d, []) else
  match advance_input d (x_header (d_box d)) with
  | None => (SCrash, d, [])
  | Some d =>
      let b := d_box d in
      output_box c (set_box d (mkBox (x_begin b) (x_end b) (x_size b) 0 (x_unb b)))
  end.

Definition stage_step (c : config) (acts : list act) (d : dec) : step :=
  match d_stage d with
  | BHeader => step_header c acts d
  | BFtyp => step_ftyp acts d
  | BPartial => step_partial acts d
  | BCodestream => step_codestream c acts d
  | BBuffering => step_buffering acts d
  | BSkip => step_skip acts d
  end.

(* HandleBoxes, decode.cc:1674-2162.  The loop runs at most fuel times. *)
Fixpoint handle_boxes (c : config) (fuel : nat) (acts : list act) (d : dec) : status * dec * list obs :=
  match fuel with
  | O => (SFuel, d, [])
  | S fuel =>
      let '(s, d1, os1) := preamble c d in
      match s with
      | SSuccess =>
          match stage_step c acts d1 with
          | Stop s d2 _ os2 => (s, d2, os1 ++ os2)
          | Go d2 rest os2 =>
              let '(s, d3, os3) := handle_boxes c fuel rest d2 in (s, d3, os1 ++ os2 ++ os3)
          end
      | _ => (s, d1, os1)
      end
  end.

(* JxlDecoderProcessInput, decode.cc:2194-2213 *)
Definition process_input (c : config) (fuel : nat) (acts : list act) (d : dec) : status * dec * list obs :=
  let '(s, d, os) := handle_boxes c fuel acts d in
  let s := match s with
           | SNeedInput => if d_closed d then SError EPremature else s
           | SSuccess => if d_done d then s else SError ENeverFinished
           | _ => s
           end in
  (s, d, os).

(* JxlDecoderReleaseInput, decode.cc:1588-1593 *)
Definition release_input (d : dec) : Z * dec :=
  (avail_in d, set_in d (mkInput [] (file_pos d))).
(* JxlDecoderSetInput, decode.cc:1574-1586, after JxlDecoderReleaseInput; None: error *)
Definition set_input (d : dec) (bytes : list Z) : option dec :=
  if d_closed d then None else Some (set_in d (mkInput bytes (file_pos d))).
(* JxlDecoderSetBoxBuffer, decode.cc:2889-2904 *)
Definition set_box_buffer (d : dec) (size : Z) : option dec :=
  let o := d_out d in
  if o_set o then None else if negb (o_event o) then None
  else Some (set_out d (mkOut (o_event o) true true size 0 (c_pos o) (c_rem o) (c_eof o))).
(* JxlDecoderReleaseBoxBuffer, decode.cc:2906-2921 *)
Definition release_box_buffer (d : dec) : Z * dec :=
  let o := d_out d in
  if negb (o_set o) then (0, d)
  else (o_size o - o_pos o,
        set_out d (mkOut (o_event o) false false 0 (o_pos o) (c_pos o) (c_rem o) (c_eof o))).
(* JxlDecoderSkipCurrentFrame, decode.cc:904-915: moves past what is left of the frame *)
Definition skip_current_frame (d : dec) (remaining_frame_size : Z) : option dec :=
  advance_codestream d remaining_frame_size.

(* A user reading a file.  u_at: position in the file of the first byte of the current input;
   u_given: its size. *)
Record user := mkUser { u_dec : dec; u_at : Z; u_given : Z }.

(* UFeed k: release the input and set it again, the unprocessed bytes followed by at most k new
   ones (decode.h:143-150).  UProcess: call JxlDecoderProcessInput; the parser acts as given. *)
Inductive uop := UFeed (k : Z) | UProcess (fuel : nat) (acts : list act) | UClose
               | UBuffer (size : Z) | URelease | USkip (n : Z).

(* A frame can be skipped only while one is being decoded: the parser has not already gone
   past its input, and is not finished; the header of the (first) codestream box is behind; if
   the contents of the box are being output, that was done for all of the input (no input was
   set since the last call of JxlDecoderProcessInput).  See DESIGN.md for what happens
   otherwise. *)
Definition can_skip (d : dec) : bool :=
  negb (d_done d) && (x_header (d_box d) =? 0) && (match w_copy (d_win d) with [] => w_pos (d_win d) =? 0 | _ => true end) &&
  (negb (o_event (d_out d)) ||
   match available_codestream d with
   | Some avail => file_pos d + avail <=? x_begin (d_box d) + c_pos (d_out d)
   | None => false
   end).

Definition user_step (c : config) (file : list Z) (u : user) (op : uop) : user * list obs :=
  let d := u_dec u in
  match op with
  | UFeed k =>
      if d_closed d then (u, []) else
      let '(unread, d1) := release_input d in
      let at' := u_at u + u_given u - unread in
      let chunk := take (unread + Z.max 0 k) (drop at' file) in
      match set_input d1 chunk with
      | Some d2 => (mkUser d2 at' (zlen chunk), [])
      | None => (u, [])
      end
  | UProcess fuel acts =>
      let '(s, d', os) := process_input c fuel acts d in
      (mkUser d' (u_at u) (u_given u), os ++ [ORet s])
  | UClose => (mkUser (set_closed d true) (u_at u) (u_given u), [])
  | UBuffer size =>
      match set_box_buffer d (Z.max 0 size) with
      | Some d' => (mkUser d' (u_at u) (u_given u), [OBuf (Z.max 0 size)])
      | None => (u, [])
      end
  | URelease =>
      let '(unused, d') := release_box_buffer d in
      (mkUser d' (u_at u) (u_given u), [ORel unused])
  | USkip n =>
      match d_stage d with
      | BCodestream =>
          if can_skip d then
            match skip_current_frame d (Z.max 0 n) with
            | Some d' => (mkUser d' (u_at u) (u_given u), [OAdv (Z.max 0 n)])
            | None => (u, [ORet SCrash])
            end
          else (u, [])
      | _ => (u, [])
      end
  end.

Fixpoint user_run (c : config) (file : list Z) (u : user) (ops : list uop) : user * list obs :=
  match ops with
  | [] => (u, [])
  | op :: rest =>
      let '(u1, os1) := user_step c file u op in
      let '(u2, os2) := user_run c file u1 rest in
      (u2, os1 ++ os2)
  end.

Definition run (c : config) (file : list Z) (ops : list uop) : user * list obs :=
  user_run c file (mkUser (init c) 0 0) ops.
