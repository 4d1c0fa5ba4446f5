(* What frames need, and what a user sees of the skipping of frames *)
From Verif Require Import Base SkipModel.

(* masks as the headers make them *)
Definition frame_ok (f : frame) : Prop :=
  0 <= f_refs f < 256 /\ (f_dc f = true -> 1 <= f_dc_level f <= 4) /\ 0 <= f_save_as_reference f <= 3.

(* frame f is saved in a slot: frames of DC of level 1 to 4 in slots 4 to 7; others in the slot they name, if
   they are not the last frame and have no duration or name another slot than 0 *)
Definition saved_in (f : frame) (slot : Z) : Prop :=
  if f_dc f then slot = 3 + f_dc_level f
  else f_is_last f = false /\ (f_duration f = 0 \/ f_save_as_reference f <> 0) /\ slot = f_save_as_reference f.
(* frame k reads a slot, and frame j was the last before k to be saved in it *)
Definition uses (fs : list frame) (k j : Z) : Prop :=
  exists slot fk fj, 0 <= slot < 8 /\ znth fs k = Some fk /\ znth fs j = Some fj /\ j < k /\
    Z.testbit (f_refs fk) slot = true /\ saved_in fj slot /\
    forall i fi, j < i < k -> znth fs i = Some fi -> ~ saved_in fi slot.
(* directly or not *)
Inductive needs (fs : list frame) (k : Z) : Z -> Prop :=
| needs_one j : uses fs k j -> needs fs k j
| needs_more i j : needs fs k i -> uses fs i j -> needs fs k j.

(* the events after the last time the user rewound *)
Fixpoint since_rewind (l : list event) (acc : list event) : list event :=
  match l with
  | [] => acc
  | Rewound :: l => since_rewind l []
  | e :: l => since_rewind l (acc ++ [e])
  end.
(* frame j was decoded since *)
Definition decoded (l : list event) (j : Z) : Prop := In (Done j) (since_rewind l []).

(* the user never changes the coalescing setting, and skips fewer than 2^62 frames in all *)
Definition op_ok (coalescing : bool) (o : op) : Prop :=
  match o with Skip n => 0 <= n | Rewind c _ => c = coalescing | _ => True end.
Fixpoint total_skip (ops : list op) : Z := match ops with [] => 0 | Skip n :: ops => n + total_skip ops | _ :: ops => total_skip ops end.
Definition history (coalescing : bool) (ops : list op) : Prop := Forall (op_ok coalescing) ops /\ total_skip ops < 2 ^ 62.

(* no Skip is asked for while frames of an earlier Skip are still to be passed over *)
Fixpoint calm (fs : list frame) (d : decoder) (ops : list op) : Prop :=
  match ops with
  | [] => True
  | o :: r => match o with Skip _ => skip_frames d = 0 | _ => True end /\
    match step fs d o with Some (d', _) => calm fs d' r | None => True end
  end.

(* a still ends with the last frame, with a frame that has a duration, and, without coalescing, with every
   regular frame *)
Definition ends_still (coalescing : bool) (f : frame) : bool :=
  f_is_last f || (0 <? f_duration f) || (if coalescing then false else f_regular f).
(* the number of stills that end before frame i *)
Definition stills (coalescing : bool) (fs : list frame) (i : Z) : Z := zlen (filter (ends_still coalescing) (firstn (Z.to_nat i) fs)).
(* the user only lets the decoder go on *)
Definition quiet (o : op) : Prop := match o with Header | Finish => True | _ => False end.
