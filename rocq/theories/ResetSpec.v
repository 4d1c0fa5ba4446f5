(* C36.  What remains of earlier calls after JxlDecoderReset. *)
From Verif Require Import Base ResetModel.

(* the level of detail last chosen with JxlDecoderSetProgressiveDetail, which accepts 1 to 3;
   1 (kDC) if none was *)
Definition choice {V} (before : Z) (c : call V) : Z :=
  match c with CSetProgressiveDetail d => if (1 <=? d) && (d <=? 3) then d else before | _ => before end.
Definition last_detail {V} (history : list (call V)) : Z := fold_left choice history 1.

(* no JPEG reconstruction: the event (0x2000) is not subscribed to, no buffer is given *)
Definition no_jpeg {V} (c : call V) : Prop :=
  match c with
  | CSubscribeEvents events => Z.land events 8192 = 0
  | CSetJPEGBuffer _ _ => False
  | _ => True
  end.

(* JPEG reconstruction was used and is finished: not in the middle of a box, no data that was
   not given to an image, the buffer released, and no box without a size was seen *)
Definition jpeg_finished {V} (d : dec V) : Prop :=
  let j := l_jpeg (d_left d) in
  j_inside j = false /\ j_data j = None /\ j_next_out j = None /\ j_avail j = 0 /\ j_eof j = false.

(* the results of the calls, and what the rest of the decoder was told during each *)
Definition behaviour {V} (L : library V) (d : dec V) (calls : list (call V)) : list (obs V) := snd (run L d calls).
Definition after {V} (L : library V) (d : dec V) (calls : list (call V)) : dec V := fst (run L d calls).
