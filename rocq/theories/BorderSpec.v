(* Specification for the finalization of pixels (C39). *)
From Verif Require Import Base FrameDimModel FrameDimSpec BorderModel.

(* group g has a pixel within padx, pady of pixel (x, y) *)
Definition near (f : frame_dim) (padx pady x y g : Z) : Prop :=
  0 <= g < fd_num_groups f /\ exists x' y', Z.abs (x' - x) <= padx /\ Z.abs (y' - y) <= pady /\ covers (group_rect f g) x' y'.

(* a non-empty rectangle of the frame *)
Definition in_frame (f : frame_dim) (r : rect) : Prop :=
  0 <= rx0 r /\ 0 < rxsize r /\ rx0 r + rxsize r <= fd_xsize f /\ 0 <= ry0 r /\ 0 < rysize r /\ ry0 r + rysize r <= fd_ysize f.
(* how many of the delivered rectangles contain the pixel *)
Definition coversb (r : rect) (x y : Z) : bool :=
  (rx0 r <=? x) && (x <? rx0 r + rxsize r) && (ry0 r <=? y) && (y <? ry0 r + rysize r).
Definition times (es : list (Z * list rect)) (x y : Z) : Z := zlen (filter (fun r => coversb r x y) (flat_map snd es)).

(* A frame is painted in rounds.  In a round some groups are done, their calls interleaved in some order;
   between rounds groups may be marked as not done. *)
Inductive action := Paint (set : Z -> bool) (order : list Z) | Clear (g : Z).
Definition act (f : frame_dim) (padx pady : Z) (a : action) (c : counters) : option (counters * list (Z * list rect)) :=
  match a with
  | Paint set order => match run_steps f (Run c (start_calls f padx pady set)) order with Some (s, es) => Some (cnt s, es) | None => None end
  | Clear g => match clear_done f g c with Some c => Some (c, []) | None => None end
  end.
Fixpoint history (f : frame_dim) (padx pady : Z) (l : list action) (c : counters) : option counters :=
  match l with
  | [] => Some c
  | a :: l => match act f padx pady a c with Some (c, _) => history f padx pady l c | None => None end
  end.

(* the groups that are done after an action *)
Definition done_after (a : action) (done : Z -> bool) : Z -> bool :=
  match a with Paint set _ => fun g => done g || set g | Clear g => fun h => done h && negb (h =? g) end.
Definition steps_of (g : Z) (order : list Z) : Z := zlen (filter (Z.eqb g) order).
(* all calls of the round come to their end *)
Definition complete (f : frame_dim) (set : Z -> bool) (order : list Z) : Prop := forall g, 0 <= g < fd_num_groups f -> set g = true -> 4 <= steps_of g order.
(* no group is done twice without being cleared *)
Definition allowed (f : frame_dim) (done : Z -> bool) (a : action) : Prop :=
  match a with
  | Paint set order => forall g, 0 <= g < fd_num_groups f -> done g = true -> set g = false
  | Clear g => 0 <= g < fd_num_groups f
  end.
Fixpoint valid (f : frame_dim) (l : list action) (done : Z -> bool) : Prop :=
  match l with
  | [] => True
  | a :: l => allowed f done a /\ match a with Paint set order => complete f set order | Clear _ => True end /\ valid f l (done_after a done)
  end.
Definition done_by (l : list action) : Z -> bool := fold_left (fun d a => done_after a d) l (fun _ => false).

(* all that is delivered in the course of a history *)
Fixpoint delivered (f : frame_dim) (padx pady : Z) (l : list action) (c : counters) : option (list (Z * list rect)) :=
  match l with
  | [] => Some []
  | a :: l =>
      match act f padx pady a c with
      | Some (c, es) => match delivered f padx pady l c with Some es' => Some (es ++ es') | None => None end
      | None => None
      end
  end.
Definition paints (a : action) : Prop := match a with Paint _ _ => True | Clear _ => False end.
(* paddings for which GroupBorderAssigner is meant: the borders of a group do not overlap *)
Definition padding_ok (f : frame_dim) (pad : Z) : Prop := 0 <= pad /\ 2 * pad <= fd_group_dim f.
