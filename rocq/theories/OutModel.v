(** * The encoder's output queue: JxlEncoderOutputProcessorWrapper and
    JxlEncoderProcessOutput, for the case without an output processor set by
    the caller (external_output_processor_ is null).

    The encoder does not write its file front to back.  It leaves room for a
    box header, writes the contents, seeks back and fills the header in; a
    frame coded in streaming mode leaves room for its header and table of
    contents in the same way.  Each piece goes directly into the caller's
    buffer when it fits there, and into a buffer of the library's own
    otherwise.  Bytes are handed over when the finalized position passes them.

    Positions and sizes are size_t in the code and mathematical integers here:
    the sum of all bytes written by an encoder would have to exceed 2^64 for
    the two to differ. *)
From Coq Require Import ZArith List Bool Lia.
From Verif Require Import Base ListAux.
Import ListNotations.
Local Open Scope Z_scope.

(** A function returns normally, fails one of the code's JXL_ENSURE checks
    (the API call then returns an error), accesses memory outside the buffer
    it was given, or runs out of the fuel of its loop. *)
Inductive ores (A : Type) : Type :=
| Ok (a : A)
| EnsureFails
| OutOfBounds
| OutOfFuel.
Arguments Ok {A} a.
Arguments EnsureFails {A}.
Arguments OutOfBounds {A}.
Arguments OutOfFuel {A}.

Definition obind {A B} (x : ores A) (f : A -> ores B) : ores B :=
  match x with
  | Ok a => f a
  | EnsureFails => EnsureFails
  | OutOfBounds => OutOfBounds
  | OutOfFuel => OutOfFuel
  end.
Notation "'let!' x ':=' p 'in' q" := (obind p (fun x => q))
  (at level 200, x pattern, right associativity).

Definition ensure (b : bool) : ores unit := if b then Ok tt else EnsureFails.

(** struct InternalBuffer, encode_internal.h:498-509: written_bytes and
    owned_data.  owned_data is empty for a buffer in the caller's memory. *)
Record ibuf := IBuf { written : Z; owned : list Z }.

(** std::map<size_t, InternalBuffer> internal_buffers_, encode_internal.h:513:
    an association list in increasing order of position. *)
Definition imap := list (Z * ibuf).

(** std::map::emplace: the new element is inserted unless the key is there. *)
Fixpoint emplace (k : Z) (v : ibuf) (m : imap) : imap :=
  match m with
  | [] => [(k, v)]
  | (k', v') :: t =>
      if k =? k' then m
      else if k <? k' then (k, v) :: m
      else (k', v') :: emplace k v t
  end.

(** std::map::find. *)
Fixpoint find_key (k : Z) (m : imap) : option ibuf :=
  match m with
  | [] => None
  | (k', v') :: t => if k =? k' then Some v' else find_key k t
  end.

(** The key of the element after the one at [k] ([it++]), if there is one. *)
Fixpoint next_key (k : Z) (m : imap) : option Z :=
  match m with
  | [] => None
  | (k', _) :: t => if k <? k' then Some k' else next_key k t
  end.

(** Assignment through an iterator at [k]. *)
Fixpoint assign (k : Z) (v : ibuf) (m : imap) : imap :=
  match m with
  | [] => []
  | (k', v') :: t => if k =? k' then (k', v) :: t else (k', v') :: assign k v t
  end.

(** std::map::erase of an iterator at [k]. *)
Fixpoint erase (k : Z) (m : imap) : imap :=
  match m with
  | [] => []
  | (k', v') :: t => if k =? k' then t else (k', v') :: erase k t
  end.

(** The fields of JxlEncoderOutputProcessorWrapper, encode_internal.h:511-530.
    [mem] is the caller's buffer of the current JxlEncoderProcessOutput call
    from its first byte on, [nxt] the offset of *next_out_ in it and [avail]
    the value of *avail_out_. *)
Record wst := WSt {
  bufs : imap;
  position : Z;
  finalized : Z;
  outpos : Z;
  has_buffer : bool;
  mem : list Z;
  nxt : Z;
  avail : Z }.

Definition set_bufs (s : wst) (b : imap) (h : bool) : wst :=
  WSt b (position s) (finalized s) (outpos s) h (mem s) (nxt s) (avail s).

(** The caller's memory ([Direct off]: the buffer starts [off] bytes into it)
    or the owned data of the internal buffer at the current position. *)
Inductive bref := Direct (off : Z) | Owned.

(** JxlEncoderOutputProcessorWrapper::GetBuffer, encode.cc:111-173, with
    stop_requested_ false (it is set only through an output processor) and
    avail_out_ set.  Returns the buffer and its size.  Memory allocated for
    owned_data is modelled as filled with 0. *)
Definition get_buffer (s : wst) (min_size requested : Z) : ores (wst * bref * Z) :=
  let! _ := ensure (0 <? min_size) in
  let! _ := ensure (negb (has_buffer s)) in
  let requested := Z.max min_size requested in
  let! _ := ensure (outpos s <=? position s) in
  let additional := position s - outpos s in
  if min_size + additional <? avail s then
    Ok (set_bufs s (emplace (position s) (IBuf 0 []) (bufs s)) true,
        Direct (nxt s + additional), avail s - additional)
  else
    let m := emplace (position s) (IBuf 0 []) (bufs s) in
    let alloc :=
      match next_key (position s) m with
      | Some k => Z.min requested (k - position s)
      | None => requested
      end in
    let! _ := ensure (match next_key (position s) m with
                      | Some _ => min_size <=? alloc
                      | None => true
                      end) in
    match find_key (position s) m with
    | None => EnsureFails
    | Some b =>
        let b' := IBuf (written b) (repeat 0 (Z.to_nat alloc)) in
        Ok (set_bufs s (assign (position s) b' m) true, Owned, alloc)
    end.

(** Overwriting part of a list: memcpy into a buffer. *)
Definition overwrite (l : list Z) (off : Z) (data : list Z) : list Z :=
  firstn (Z.to_nat off) l ++ data ++ skipn (Z.to_nat (off + zlen data)) l.

(** JxlOutputProcessorBuffer::append, encode_internal.h:571-575: a memcpy of
    [data] to the start of the buffer, followed by advance (559-565), whose
    check comes after the copy; a copy beyond the end of the memory is
    [OutOfBounds]. *)
Definition buffer_append (s : wst) (r : bref) (size : Z) (data : list Z) : ores wst :=
  let! s' :=
    match r with
    | Direct off =>
        if (0 <=? off) && (off + zlen data <=? zlen (mem s)) then
          Ok (WSt (bufs s) (position s) (finalized s) (outpos s) (has_buffer s)
                  (overwrite (mem s) off data) (nxt s) (avail s))
        else OutOfBounds
    | Owned =>
        match find_key (position s) (bufs s) with
        | None => OutOfBounds
        | Some b =>
            if zlen data <=? zlen (owned b) then
              Ok (set_bufs s (assign (position s)
                                (IBuf (written b) (overwrite (owned b) 0 data))
                                (bufs s)) (has_buffer s))
            else OutOfBounds
        end
    end in
  let! _ := ensure (zlen data <=? size) in
  Ok s'.

(** JxlEncoderOutputProcessorWrapper::ReleaseBuffer, encode.cc:224-284. *)
Definition release_buffer (s : wst) (used : Z) : ores wst :=
  let! _ := ensure (has_buffer s) in
  match find_key (position s) (bufs s) with
  | None => EnsureFails
  | Some b =>
      if used =? 0 then Ok (set_bufs s (erase (position s) (bufs s)) false)
      else
        let m := assign (position s) (IBuf used (owned b)) (bufs s) in
        let p := position s + used in
        let! _ := ensure (match next_key (position s) m with
                          | Some k => p <=? k
                          | None => true
                          end) in
        Ok (WSt m p (finalized s) (outpos s) false (mem s) (nxt s) (avail s))
  end.

(** JxlEncoderOutputProcessorWrapper::FlushOutput, encode.cc:287-339, with
    avail_out set. *)
Fixpoint flush_loop (fuel : nat) (s : wst) : ores wst :=
  match fuel with
  | O => OutOfFuel
  | S fuel' =>
      if (outpos s <? finalized s) && (0 <? avail s) then
        match bufs s with
        | [] => EnsureFails
        | (k, b) :: rest =>
            let! _ := ensure (k <=? outpos s) in
            let! _ := ensure (negb (written b =? 0)) in
            let last := k + written b in
            let! s' :=
              match owned b with
              | _ :: _ =>
                  let start := outpos s - k in
                  let! _ := ensure (outpos s <? last) in
                  let num := Z.min last (finalized s) - outpos s in
                  let n := Z.min num (avail s) in
                  if (start + n <=? zlen (owned b)) && (nxt s + n <=? zlen (mem s)) then
                    Ok (WSt (bufs s) (position s) (finalized s) (outpos s + n)
                            (has_buffer s)
                            (overwrite (mem s) (nxt s)
                               (firstn (Z.to_nat n) (skipn (Z.to_nat start) (owned b))))
                            (nxt s + n) (avail s - n))
                  else OutOfBounds
              | [] =>
                  let advance := Z.min last (finalized s) - outpos s in
                  Ok (WSt (bufs s) (position s) (finalized s) (outpos s + advance)
                          (has_buffer s) (mem s) (nxt s + advance) (avail s - advance))
              end in
            let s' := if last =? outpos s' then set_bufs s' rest (has_buffer s')
                      else s' in
            flush_loop fuel' s'
        end
      else Ok s
  end.

Definition flush_output (s : wst) : ores wst :=
  let! _ := ensure (negb (has_buffer s)) in
  flush_loop (S (S (length (bufs s)))) s.

(** JxlEncoderOutputProcessorWrapper::Seek, encode.cc:175-184. *)
Definition seek (s : wst) (pos : Z) : ores wst :=
  let! _ := ensure (negb (has_buffer s)) in
  let! _ := ensure (finalized s <=? pos) in
  Ok (WSt (bufs s) pos (finalized s) (outpos s) (has_buffer s) (mem s) (nxt s) (avail s)).

(** JxlEncoderOutputProcessorWrapper::SetFinalizedPosition, encode.cc:186-195. *)
Definition set_finalized_position (s : wst) : ores wst :=
  let! _ := ensure (negb (has_buffer s)) in
  flush_output (WSt (bufs s) (position s) (position s) (outpos s) (has_buffer s)
                    (mem s) (nxt s) (avail s)).

(** JxlEncoderOutputProcessorWrapper::SetAvailOut, encode.cc:197-204: [buffer]
    is the memory the caller passes, of *avail_out bytes. *)
Definition set_avail_out (s : wst) (buffer : list Z) : ores wst :=
  flush_output (WSt (bufs s) (position s) (finalized s) (outpos s) (has_buffer s)
                    buffer 0 (zlen buffer)).

(** One round of a writing loop: a buffer of at least [min_size] bytes is
    asked for, [n] bytes of data put in it and the buffer released. *)
Definition write_piece (s : wst) (min_size requested : Z) (pick : Z -> Z)
    (data : list Z) : ores (wst * list Z) :=
  let! (s1, r, size) := get_buffer s min_size requested in
  let n := pick size in
  let! s2 := buffer_append s1 r size (firstn (Z.to_nat n) data) in
  let! s3 := release_buffer s2 n in
  Ok (s3, skipn (Z.to_nat n) data).

(** AppendData, encode_internal.h:600-612; JxlFastLosslessOutputAlignedSection,
    enc_fast_lossless.cc:884-900, is the same loop.  With [min_size] 32 and the
    number of bytes chosen by JxlFastLosslessWriteOutput (enc_fast_lossless.cc:
    939-1011, not modelled: [pick] is given the number of bytes left and the
    size of the buffer) it is JxlFastLosslessOutputFrame,
    enc_fast_lossless.cc:4418-4434. *)
Fixpoint append_loop (fuel : nat) (s : wst) (min_size : Z) (pick : Z -> Z -> Z)
    (data : list Z) : ores wst :=
  match fuel with
  | O => OutOfFuel
  | S fuel' =>
      match data with
      | [] => Ok s
      | _ :: _ =>
          let! (s', rest) := write_piece s min_size (zlen data) (pick (zlen data)) data in
          append_loop fuel' s' min_size pick rest
      end
  end.

(** The calls the encoder makes on the wrapper. *)
Inductive op :=
| OSeek (pos : Z)                                  (* Seek(pos) *)
| OPut (data : list Z)                             (* GetBuffer(size), append, release *)
| OAppend (data : list Z)                          (* AppendData *)
| OFast (pick : Z -> Z -> Z) (data : list Z)       (* JxlFastLosslessOutputFrame *)
| OCheck (pos : Z)                                 (* JXL_ENSURE(CurrentPosition() == pos) *)
| OFinal.                                          (* SetFinalizedPosition() *)

Definition exec (s : wst) (o : op) : ores wst :=
  match o with
  | OSeek p => seek s p
  | OPut data =>
      let! (s', _) := write_piece s (zlen data) 0 (fun _ => zlen data) data in Ok s'
  | OAppend data => append_loop (S (length data)) s 1 Z.min data
  | OFast pick data => append_loop (S (length data)) s 32 pick data
  | OCheck p => let! _ := ensure (position s =? p) in Ok s
  | OFinal => set_finalized_position s
  end.

Fixpoint exec_all (s : wst) (os : list op) : ores wst :=
  match os with
  | [] => Ok s
  | o :: t => let! s' := exec s o in exec_all s' t
  end.

(** What the encoder computes for one element of its input queue: the bytes of
    each piece, whose values are not modelled here.

    A piece of the prologue (encode.cc:847-897): the container header and the
    jxll box are appended as they are; the jxlp box with the codestream headers
    is written by AppendBox with one GetBuffer; the jbrd box by
    AppendBoxWithContents. *)
Inductive piece :=
| PRaw (bytes : list Z)
| PBoxPut (header contents : list Z)
| PBoxAppend (header contents : list Z).

(** The contents of a frame: a list of byte strings each given to AppendData
    (EncodeFrameOneShot, enc_frame.cc:2307-2360; the last branch of
    EncodeFrameStreaming 2296-2303; its branch with out-of-order boxes 2111-2137,
    2160-2275); the seeking mode of EncodeFrameStreaming 2087-2089, 2163-2182,
    2234-2255; and the two modes of the fast lossless encoder,
    enc_fast_lossless.cc:4031-4041 and 4148-4158, and 4052-4058, 4117-4147. *)
Inductive content :=
| CStrings (strings : list (list Z))
| CStream (offset : Z) (frame_header toc dc_global padding : list Z)
          (groups : list (list Z))
| CFast (pick : Z -> Z -> Z) (bytes : list Z)
| CFastStream (pick : Z -> Z -> Z) (offset : Z) (header group0 : list Z)
              (groups : list (list Z)).

(** A frame (encode.cc:1001-1133) or a box (1134-1158).  [f_before] is what
    comes before the place of the box header (output mode 2: the jxlp box with
    the codestream headers), [f_header] the box header filled in at the end if
    there is one, [f_after] the codestream headers written inside the box, and
    [f_index] the frame index box, if written. *)
Inductive body :=
| BFrame (f_before : list (list Z)) (f_header : option (list Z))
         (f_after : list (list Z)) (f_content : content)
         (f_index : option (list Z * list Z))
| BBox (header contents : list Z).

Record input := Input { i_prologue : list piece; i_body : body }.

Definition total (l : list (list Z)) : Z := zlen (concat l).

(** JxlEncoder::AppendBox, encode.cc:396-436, with the calls made by its
    write_box argument; [p] is CurrentPosition(). *)
Definition append_box (p : Z) (header : list Z) (contents : list op) (size : Z) : list op :=
  [OSeek (p + zlen header)] ++ contents
  ++ [OSeek p; OPut header; OSeek (p + zlen header + size); OFinal].

Definition piece_ops (p : Z) (x : piece) : list op * Z :=
  match x with
  | PRaw b => ([OAppend b], p + zlen b)
  | PBoxPut h c => (append_box p h [OPut c] (zlen c), p + zlen h + zlen c)
  | PBoxAppend h c => (append_box p h [OAppend c] (zlen c), p + zlen h + zlen c)
  end.

Fixpoint pieces_ops (p : Z) (xs : list piece) : list op * Z :=
  match xs with
  | [] => ([], p)
  | x :: t =>
      let '(o1, p1) := piece_ops p x in
      let '(o2, p2) := pieces_ops p1 t in
      (o1 ++ o2, p2)
  end.

Definition appends (l : list (list Z)) : list op := map OAppend l.

(** EncodeFrame's calls on the wrapper, starting at position [p], and the
    position it leaves off at. *)
Definition content_ops (p : Z) (c : content) : list op * Z :=
  match c with
  | CStrings l => (appends l, p + total l)
  | CStream off fh toc dcg pad groups =>
      let e := p + off + total groups in
      ([OSeek (p + off)] ++ appends groups
       ++ [OSeek p; OAppend fh; OAppend toc; OAppend dcg; OAppend pad;
           OCheck (p + off); OSeek e], e)
  | CFast pick b => ([OFast pick b], p + zlen b)
  | CFastStream pick off h g0 groups =>
      let e := p + off + total groups in
      ([OSeek (p + off)] ++ map (OFast pick) groups
       ++ [OSeek p; OAppend h; OAppend g0; OSeek e], e)
  end.

Definition body_ops (p : Z) (b : body) : list op :=
  match b with
  | BBox h c => append_box p h [OAppend c] (zlen c)
  | BFrame before header after content index =>
      let p1 := p + total before in
      let hs := match header with Some h => zlen h | None => 0 end in
      let p2 := p1 + hs + total after in
      let '(co, e) := content_ops p2 content in
      appends before
      ++ match header with Some _ => [OSeek (p1 + hs)] | None => [] end
      ++ appends after ++ co
      ++ match header with
         | Some h => [OSeek p1; OAppend h; OCheck (p1 + hs); OSeek e]
         | None => []
         end
      ++ [OFinal]
      ++ match index with
         | Some (h, c) => append_box e h [OAppend c] (zlen c)
         | None => []
         end
  end.

(** JxlEncoder::ProcessOneEnqueuedInput, encode.cc:765-1161. *)
Definition input_ops (p : Z) (i : input) : list op :=
  let '(o, p1) := pieces_ops p (i_prologue i) in
  o ++ [OFinal] ++ body_ops p1 (i_body i).

(** An element of input_queue.  A frame is coded with is_last set when
    frames_closed is set and no frame is queued behind it (encode.cc:978). *)
Inductive queued :=
| QFrame (code : bool -> input)
| QBox (code : input).

Definition is_frame (q : queued) : bool :=
  match q with QFrame _ => true | QBox _ => false end.

Definition resolve (closed : bool) (q : queued) (behind : list queued) : input :=
  match q with
  | QFrame f => f (closed && negb (existsb is_frame behind))
  | QBox i => i
  end.

Inductive status := Success | MoreOutput.

(** The fields of JxlEncoder used here: input_queue, frames_closed and
    output_processor. *)
Record enc := Enc { queue : list queued; closed : bool; wrapper : wst }.

(** The state JxlEncoderCreate leaves; the caller's buffer is not set. *)
Definition enc_init : enc := Enc [] false (WSt [] 0 0 0 false [] 0 0).

(** The loop of JxlEncoderProcessOutput, encode.cc:2705-2709. *)
Fixpoint process_loop (q : list queued) (cl : bool) (s : wst) : ores (list queued * wst) :=
  match q with
  | [] => Ok (q, s)
  | i :: rest =>
      if negb (avail s =? 0) then
        let! s' := exec_all s (input_ops (position s) (resolve cl i rest)) in
        process_loop rest cl s'
      else Ok (q, s)
  end.

(** JxlEncoderProcessOutput, encode.cc:2695-2715.  Returns the status and the
    bytes before the advanced next_out. *)
Definition process_output (e : enc) (buffer : list Z) : ores (enc * status * list Z) :=
  let! s := set_avail_out (wrapper e) buffer in
  let! (q, s') := process_loop (queue e) (closed e) s in
  let more := match q with [] => outpos s' <? finalized s' | _ :: _ => true end in
  Ok (Enc q (closed e) s', if more then MoreOutput else Success,
      firstn (Z.to_nat (nxt s')) (mem s')).

(** What an application does with an encoder, as far as modelled: it queues
    frames and boxes (JxlEncoderAddImageFrame, JxlEncoderAddBox), closes the
    frames (JxlEncoderCloseFrames, encode.cc:2655) and asks for output. *)
Inductive event :=
| EAdd (q : queued)
| EClose
| ECall (buffer : list Z).

(** Runs the events and lists what each JxlEncoderProcessOutput returned. *)
Fixpoint run (e : enc) (evs : list event) : ores (enc * list (status * list Z)) :=
  match evs with
  | [] => Ok (e, [])
  | EAdd q :: t => run (Enc (queue e ++ [q]) (closed e) (wrapper e)) t
  | EClose :: t => run (Enc (queue e) true (wrapper e)) t
  | ECall b :: t =>
      let! (e1, st, out) := process_output e b in
      let! (e2, outs) := run e1 t in
      Ok (e2, (st, out) :: outs)
  end.
