(** * The encoder's output queue with an output processor set by the caller:
    JxlEncoderSetOutputProcessor, JxlEncoderFlushInput and the branches of
    JxlEncoderOutputProcessorWrapper with external_output_processor_ set.

    The calls the encoder makes on the wrapper are those of [OutModel]: [op] and
    [input_ops].  Positions are size_t in the code and mathematical integers
    here.  In FlushOutput the subtraction that gives [advance] can wrap around
    after the processor asked to stop; the addition behind it wraps back, so
    integers give the same position. *)
From Coq Require Import ZArith List Bool Lia.
From Verif Require Import Base ListAux OutModel.
Import ListNotations.
Local Open Scope Z_scope.

(** What the processor sees (struct JxlEncoderOutputProcessor, encode.h:756-818):
    get_buffer with the suggested size and the size it answered with,
    release_buffer with the bytes found in the buffer, seek, and
    set_finalized_position. *)
Inductive xevent :=
| XGet (asked given : Z)
| XRelease (bytes : list Z)
| XSeek (pos : Z)
| XFinal (pos : Z).

(** An output processor: whether its seek callback is set, and the size it
    answers with, which may depend on all that happened before.  0 or less
    stands for a size of 0 as well as for a null pointer. *)
Record proc := Proc { can_seek : bool; give : list xevent -> Z -> Z }.

(** Why a call failed: GetBuffer returned kNotEnoughBytes because a stop was
    asked for, a JXL_ENSURE failed, memory outside a buffer was accessed, or the
    fuel of a loop ran out. *)
Inductive why := BStop | BEnsure | BBounds | BFuel.

Inductive xres (A : Type) : Type :=
| XOk (a : A)
| XBad (w : why) (trace : list xevent).
Arguments XOk {A} a.
Arguments XBad {A} w trace.

Definition xbind {A B} (x : xres A) (f : A -> xres B) : xres B :=
  match x with XOk a => f a | XBad w t => XBad w t end.
Notation "'let?' x ':=' p 'in' q" := (xbind p (fun x => q))
  (at level 200, x pattern, right associativity).

(** The fields of JxlEncoderOutputProcessorWrapper, encode_internal.h:511-530,
    with the memory of the buffer the processor gave, as long as there is one,
    and the calls made to the processor, oldest first. *)
Record xst := XSt {
  x_bufs : imap;
  x_position : Z;
  x_finalized : Z;
  x_outpos : Z;
  x_stop : bool;
  x_has : bool;
  x_user : list Z;
  x_trace : list xevent }.

Definition xensure (s : xst) (b : bool) : xres unit :=
  if b then XOk tt else XBad BEnsure (x_trace s).

Definition emit (s : xst) (e : xevent) : xst :=
  XSt (x_bufs s) (x_position s) (x_finalized s) (x_outpos s) (x_stop s) (x_has s)
      (x_user s) (x_trace s ++ [e]).
Definition set_xbufs (s : xst) (m : imap) : xst :=
  XSt m (x_position s) (x_finalized s) (x_outpos s) (x_stop s) (x_has s) (x_user s) (x_trace s).
Definition set_xhas (s : xst) (h : bool) : xst :=
  XSt (x_bufs s) (x_position s) (x_finalized s) (x_outpos s) (x_stop s) h (x_user s) (x_trace s).
Definition set_xuser (s : xst) (u : list Z) : xst :=
  XSt (x_bufs s) (x_position s) (x_finalized s) (x_outpos s) (x_stop s) (x_has s) u (x_trace s).
Definition set_xpos (s : xst) (p : Z) : xst :=
  XSt (x_bufs s) p (x_finalized s) (x_outpos s) (x_stop s) (x_has s) (x_user s) (x_trace s).
Definition set_xfin (s : xst) (p : Z) : xst :=
  XSt (x_bufs s) (x_position s) p (x_outpos s) (x_stop s) (x_has s) (x_user s) (x_trace s).
Definition set_xout (s : xst) (p : Z) : xst :=
  XSt (x_bufs s) (x_position s) (x_finalized s) p (x_stop s) (x_has s) (x_user s) (x_trace s).
Definition set_xstop (s : xst) : xst :=
  XSt (x_bufs s) (x_position s) (x_finalized s) (x_outpos s) true (x_has s) (x_user s) (x_trace s).

(** The processor's buffer, or the owned data of the internal buffer at the
    current position. *)
Inductive xref := XUser | XOwned.

(** The last part of GetBuffer, encode.cc:158-172: the library's own buffer. *)
Definition xget_own (s : xst) (min_size requested : Z) : xres (xst * xref * Z) :=
  let m := emplace (x_position s) (IBuf 0 []) (x_bufs s) in
  let alloc :=
    match next_key (x_position s) m with
    | Some k => Z.min requested (k - x_position s)
    | None => requested
    end in
  let? _ := xensure s (match next_key (x_position s) m with
                       | Some _ => min_size <=? alloc
                       | None => true
                       end) in
  match find_key (x_position s) m with
  | None => XBad BEnsure (x_trace s)
  | Some b =>
      let b' := IBuf (written b) (repeat 0 (Z.to_nat alloc)) in
      XOk (set_xhas (set_xbufs s (assign (x_position s) b' m)) true, XOwned, alloc)
  end.

(** JxlEncoderOutputProcessorWrapper::GetBuffer, encode.cc:111-173, with an
    output processor.  Memory is modelled as filled with 0. *)
Definition xget_buffer (P : proc) (s : xst) (min_size requested : Z)
    : xres (xst * xref * Z) :=
  let? _ := xensure s (0 <? min_size) in
  let? _ := xensure s (negb (x_has s)) in
  if x_stop s then XBad BStop (x_trace s) else
  let requested := Z.max min_size requested in
  let? _ := xensure s (if can_seek P then x_outpos s =? x_position s else true) in
  let? _ := xensure s (x_outpos s <=? x_position s) in
  let additional := x_position s - x_outpos s in
  if additional =? 0 then
    let size := give P (x_trace s) requested in
    let s := emit s (XGet requested size) in
    if size <=? 0 then XBad BStop (x_trace s)
    else if size <? min_size then xget_own (emit s (XRelease [])) min_size requested
    else
      XOk (set_xuser (set_xhas (set_xbufs s (emplace (x_position s) (IBuf 0 []) (x_bufs s))) true)
             (repeat 0 (Z.to_nat size)), XUser, size)
  else xget_own s min_size requested.

(** JxlOutputProcessorBuffer::append, encode_internal.h:571-575. *)
Definition xbuffer_append (s : xst) (r : xref) (size : Z) (data : list Z) : xres xst :=
  let? s' :=
    match r with
    | XUser =>
        if zlen data <=? zlen (x_user s) then XOk (set_xuser s (overwrite (x_user s) 0 data))
        else XBad BBounds (x_trace s)
    | XOwned =>
        match find_key (x_position s) (x_bufs s) with
        | None => XBad BBounds (x_trace s)
        | Some b =>
            if zlen data <=? zlen (owned b) then
              XOk (set_xbufs s (assign (x_position s)
                     (IBuf (written b) (overwrite (owned b) 0 data)) (x_bufs s)))
            else XBad BBounds (x_trace s)
        end
    end in
  let? _ := xensure s' (zlen data <=? size) in
  XOk s'.

(** AppendBufferToExternalProcessor, encode.cc:341-358: [data] is what the
    pointer points to.  Returns whether bytes were written. *)
Definition append_external (P : proc) (s : xst) (data : list Z) (count : Z) : xres (xst * bool) :=
  let n := give P (x_trace s) count in
  let s := emit s (XGet count n) in
  if n <=? 0 then XOk (set_xstop s, false)
  else
    let n := Z.min n count in
    if n <=? zlen data then
      let s := emit s (XRelease (firstn (Z.to_nat n) data)) in
      XOk (set_xout s (x_outpos s + n), true)
    else XBad BBounds (x_trace s).

(** FlushOutput, encode.cc:287-339, without a buffer of the caller. *)
Fixpoint xflush_loop (P : proc) (fuel : nat) (s : xst) : xres xst :=
  match fuel with
  | O => XBad BFuel (x_trace s)
  | S fuel' =>
      if x_outpos s <? x_finalized s then
        match x_bufs s with
        | [] => XBad BEnsure (x_trace s)
        | (k, b) :: rest =>
            let? _ := xensure s (k <=? x_outpos s) in
            let? _ := xensure s (negb (written b =? 0)) in
            let last := k + written b in
            let? (s', more) :=
              match owned b with
              | _ :: _ =>
                  let start := x_outpos s - k in
                  let? _ := xensure s (x_outpos s <? last) in
                  let num := Z.min last (x_finalized s) - x_outpos s in
                  append_external P s (skipn (Z.to_nat start) (owned b)) num
              | [] => XOk (set_xout s (Z.min last (x_finalized s)), true)
              end in
            if more then
              let s' := if last =? x_outpos s' then set_xbufs s' rest else s' in
              let s' := if can_seek P then s' else emit s' (XFinal (x_outpos s')) in
              xflush_loop P fuel' s'
            else XOk s'
        end
      else XOk s
  end.

Definition xflush_output (P : proc) (s : xst) : xres xst :=
  let? _ := xensure s (negb (x_has s)) in
  xflush_loop P (S (Z.to_nat (x_finalized s) + Z.to_nat (x_finalized s))) s.

(** SetFinalizedPosition, encode.cc:186-195. *)
Definition xset_finalized (P : proc) (s : xst) : xres xst :=
  let? _ := xensure s (negb (x_has s)) in
  let s := if can_seek P then emit s (XFinal (x_position s)) else s in
  xflush_output P (set_xfin s (x_position s)).

(** Seek, encode.cc:175-184. *)
Definition xseek (P : proc) (s : xst) (pos : Z) : xres xst :=
  let? _ := xensure s (negb (x_has s)) in
  let s := if can_seek P then set_xout (emit s (XSeek pos)) pos else s in
  let? _ := xensure s (x_finalized s <=? pos) in
  XOk (set_xpos s pos).

(** The loop of ReleaseBuffer that writes out a buffer of the library,
    encode.cc:271-279; [data] is owned_data, [used] bytes of it written.  The
    flag is false if the processor asked to stop. *)
Fixpoint write_out (P : proc) (fuel : nat) (s : xst) (data : list Z) (used : Z) : xres (xst * bool) :=
  match fuel with
  | O => XBad BFuel (x_trace s)
  | S fuel' =>
      if x_outpos s <? x_position s then
        let? (s', more) := append_external P s
          (skipn (Z.to_nat (x_outpos s - x_position s + used)) data) (x_position s - x_outpos s) in
        if more then write_out P fuel' s' data used else XOk (s', false)
      else XOk (s, true)
  end.

(** ReleaseBuffer, encode.cc:224-284, with an output processor. *)
Definition xrelease_buffer (P : proc) (s : xst) (used : Z) : xres xst :=
  let? _ := xensure s (x_has s) in
  let s := set_xhas s false in
  match find_key (x_position s) (x_bufs s) with
  | None => XBad BEnsure (x_trace s)
  | Some b =>
      if used =? 0 then XOk (set_xbufs (emit s (XRelease [])) (erase (x_position s) (x_bufs s)))
      else
        let k := x_position s in
        let m := assign k (IBuf used (owned b)) (x_bufs s) in
        let s := set_xpos (set_xbufs s m) (k + used) in
        let? _ := xensure s (match next_key k m with
                             | Some k' => x_position s <=? k'
                             | None => true
                             end) in
        match owned b with
        | [] =>
            let s := set_xuser (emit s (XRelease (firstn (Z.to_nat used) (x_user s)))) [] in
            if can_seek P then
              let s := set_xout s (x_outpos s + used) in
              let? _ := xensure s (x_finalized s <=? x_outpos s) in
              let? _ := xensure s (x_outpos s =? x_position s) in
              XOk s
            else
              let? s := xset_finalized P s in
              let? _ := xensure s (x_outpos s =? x_finalized s) in
              let? _ := xensure s (x_outpos s =? x_position s) in
              XOk s
        | _ :: _ =>
            if can_seek P then
              let s := set_xout (emit s (XSeek (x_position s - used))) (x_position s - used) in
              let? (s, all) := write_out P (S (Z.to_nat used)) s (owned b) used in
              XOk (if all then set_xbufs s (assign k (IBuf used []) (x_bufs s)) else s)
            else XOk s
        end
  end.

(** One round of a writing loop, as [OutModel.write_piece]. *)
Definition xwrite_piece (P : proc) (s : xst) (min_size requested : Z) (pick : Z -> Z)
    (data : list Z) : xres (xst * list Z) :=
  let? (s1, r, size) := xget_buffer P s min_size requested in
  let n := pick size in
  let? s2 := xbuffer_append s1 r size (firstn (Z.to_nat n) data) in
  let? s3 := xrelease_buffer P s2 n in
  XOk (s3, skipn (Z.to_nat n) data).

(** AppendData and JxlFastLosslessOutputFrame, as [OutModel.append_loop]. *)
Fixpoint xappend_loop (P : proc) (fuel : nat) (s : xst) (min_size : Z) (pick : Z -> Z -> Z)
    (data : list Z) : xres xst :=
  match fuel with
  | O => XBad BFuel (x_trace s)
  | S fuel' =>
      match data with
      | [] => XOk s
      | _ :: _ =>
          let? (s', rest) := xwrite_piece P s min_size (zlen data) (pick (zlen data)) data in
          xappend_loop P fuel' s' min_size pick rest
      end
  end.

(** The calls of the encoder, as [OutModel.exec]. *)
Definition xexec (P : proc) (s : xst) (o : op) : xres xst :=
  match o with
  | OSeek p => xseek P s p
  | OPut data =>
      let? (s', _) := xwrite_piece P s (zlen data) 0 (fun _ => zlen data) data in XOk s'
  | OAppend data => xappend_loop P (S (length data)) s 1 Z.min data
  | OFast pick data => xappend_loop P (S (length data)) s 32 pick data
  | OCheck p => let? _ := xensure s (x_position s =? p) in XOk s
  | OFinal => xset_finalized P s
  end.

Fixpoint xexec_all (P : proc) (s : xst) (os : list op) : xres xst :=
  match os with
  | [] => XOk s
  | o :: t => let? s' := xexec P s o in xexec_all P s' t
  end.

(** input_queue, frames_closed and output_processor. *)
Record xenc := XEnc { xqueue : list queued; xclosed : bool; xwrapper : xst }.

(** JxlEncoderSetOutputProcessor, encode.cc:2678-2693, on a new encoder. *)
Definition xenc_init : xenc := XEnc [] false (XSt [] 0 0 0 false false [] []).

(** JxlEncoderFlushInput, encode.cc:2664-2676: JXL_ENC_SUCCESS when the loop
    ends, JXL_ENC_ERROR when an input could not be processed. *)
Fixpoint xflush_input (P : proc) (q : list queued) (cl : bool) (s : xst) : xres xst :=
  match q with
  | [] => XOk s
  | i :: rest =>
      let? s' := xexec_all P s (input_ops (x_position s) (resolve cl i rest)) in
      xflush_input P rest cl s'
  end.

(** What an application does: it queues frames and boxes, closes the frames and
    flushes the input. *)
Inductive xcall :=
| CAdd (q : queued)
| CClose
| CFlush.

Fixpoint xrun (P : proc) (e : xenc) (cs : list xcall) : xres xenc :=
  match cs with
  | [] => XOk e
  | CAdd q :: t => xrun P (XEnc (xqueue e ++ [q]) (xclosed e) (xwrapper e)) t
  | CClose :: t => xrun P (XEnc (xqueue e) true (xwrapper e)) t
  | CFlush :: t =>
      let? s := xflush_input P (xqueue e) (xclosed e) (xwrapper e) in
      xrun P (XEnc [] (xclosed e) s) t
  end.
