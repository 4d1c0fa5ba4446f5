(* GroupBorderAssigner: lib/jxl/dec_group_border.{h,cc}.  Memory is taken to be sequentially consistent:
   the fetch_or and fetch_and of the counters are single steps, in any interleaving. *)
From Verif Require Import Base ContainerModel FrameDimModel.

(* dec_group_border.h:38-41 *)
Definition kTopLeft := 1.
Definition kTopRight := 2.
Definition kBottomRight := 4.
Definition kBottomLeft := 8.

(* the counters: row, word *)
Definition counters := Z -> Z -> Z.
(* counters_[y][w] exists; dec_group_border.cc:25, 28 *)
Definition in_counters (f : frame_dim) (y w : Z) : bool :=
  (0 <=? y) && (y <? fd_ysize_groups f + 1) && (0 <=? w) && (w <? (fd_xsize_groups f + 1 + 7) / 8).
Definition update (c : counters) (y w v : Z) : counters := fun y' w' => if (y' =? y) && (w' =? w) then v else c y' w'.

(* dec_group_border.cc:36-38; corners << (4 * (x & 7)) is below 2^32 *)
Definition set_corners (f : frame_dim) (x y corners : Z) (c : counters) : option counters :=
  if in_counters f y (x / 8) then Some (update c y (x / 8) (Z.lor (c y (x / 8)) (Z.shiftl corners (4 * Z.land x 7)))) else None.
Fixpoint all_of {A} (step : Z -> A -> option A) (l : list Z) (a : A) : option A :=
  match l with [] => Some a | i :: l => match step i a with Some a => all_of step l a | None => None end end.
(* GroupBorderAssigner::Init, dec_group_border.cc:21-47 *)
Definition init_counters (f : frame_dim) : option counters :=
  let x_size := fd_xsize_groups f in
  let y_size := fd_ysize_groups f in
  match all_of (fun x c => match set_corners f x 0 (Z.lor kTopLeft kTopRight) c with
                           | Some c => set_corners f x y_size (Z.lor kBottomLeft kBottomRight) c
                           | None => None
                           end) (zseq 0 (Z.to_nat (x_size + 1))) (fun _ _ => 0) with
  | Some c =>
      all_of (fun y c => match set_corners f 0 y (Z.lor kTopLeft kBottomLeft) c with
                         | Some c => set_corners f x_size y (Z.lor kTopRight kBottomRight) c
                         | None => None
                         end) (zseq 0 (Z.to_nat (y_size + 1))) c
  | None => None
  end.

(* dec_group_border.cc:50-52; x & ~y is ldiff *)
Definition clear_corners (f : frame_dim) (x y corners : Z) (c : counters) : option counters :=
  if in_counters f y (x / 8) then Some (update c y (x / 8) (Z.ldiff (c y (x / 8)) (Z.shiftl corners (4 * Z.land x 7)))) else None.
(* GroupBorderAssigner::ClearDone, dec_group_border.cc:49-59 *)
Definition clear_done (f : frame_dim) (group_id : Z) (c : counters) : option counters :=
  let x := group_id mod fd_xsize_groups f in
  let y := group_id / fd_xsize_groups f in
  match clear_corners f x y kBottomRight c with
  | Some c => match clear_corners f (x + 1) y kBottomLeft c with
              | Some c => match clear_corners f x (y + 1) kTopRight c with
                          | Some c => clear_corners f (x + 1) (y + 1) kTopLeft c
                          | None => None
                          end
              | None => None
              end
  | None => None
  end.

(* A call of GroupDone: fetch_or's of the counters, then the rectangles.  GFail: a JXL_DASSERT. *)
Inductive gprog :=
| GDone (rects : list rect)
| GFail
| GFetch (y w bits : Z) (k : Z -> gprog).

(* dec_group_border.cc:83-91 *)
Definition fetch_status (x y bit : Z) (k : Z -> gprog) : gprog :=
  let shift := 4 * Z.land x 7 in
  GFetch y (x / 8) (Z.shiftl bit shift) (fun old =>
    let status := Z.shiftr old shift in
    if Z.land bit status =? 0 then k (Z.land (Z.lor bit status) 15) else GFail).

(* dec_group_border.cc:134-148: available_parts_mask *)
Definition available (tl tr br bl : Z) (px py : Z) : bool :=
  match px, py with
  | 1, 1 => true
  | 0, 0 => tl =? 15
  | 2, 0 => tr =? 15
  | 2, 2 => br =? 15
  | 0, 2 => bl =? 15
  | 1, 0 => negb (Z.land tl kTopRight =? 0)
  | 0, 1 => negb (Z.land tl kBottomLeft =? 0)
  | 2, 1 => negb (Z.land tr kBottomRight =? 0)
  | 1, 2 => negb (Z.land bl kBottomRight =? 0)
  | _, _ => false
  end.

(* dec_group_border.cc:151-167: the segment of one row of parts; kNoSegment is 3; None: a JXL_DASSERT *)
Definition segment_step (mask : Z -> Z -> bool) (py px : Z) (seg : Z * Z) : option (Z * Z) :=
  let '(first, second) := seg in
  if mask px py then
    if ((second =? 3) || (second =? px)) && Bool.eqb (first =? 3) (second =? 3)
    then Some ((if first =? 3 then px else first), px + 1)
    else None
  else Some seg.
Definition segment (mask : Z -> Z -> bool) (py : Z) : option (Z * Z) := all_of (segment_step mask py) [0; 1; 2] (3, 3).

Definition seg_eqb (a b : Z * Z) : bool := (fst a =? fst b) && (snd a =? snd b).
(* dec_group_border.cc:168-193: the calls of append_rect, as x0, x1, y0, y1 *)
Definition merged (s0 s1 s2 : Z * Z) : list (Z * Z * Z * Z) :=
  if seg_eqb s0 s1 && seg_eqb s0 s2 then [(fst s0, snd s0, 0, 3)]
  else if seg_eqb s0 s1 then [(fst s0, snd s0, 0, 2); (fst s2, snd s2, 2, 3)]
  else if seg_eqb s1 s2 then [(fst s0, snd s0, 0, 1); (fst s1, snd s1, 1, 3)]
  else [(fst s0, snd s0, 0, 1); (fst s1, snd s1, 1, 2); (fst s2, snd s2, 2, 3)].

(* dec_group_border.cc:104-118: the four positions along an axis; x0, xs: begin and size of the group in
   blocks, n: the size of the frame *)
Definition positions (x0 xs n pad : Z) (is_last : bool) (i : Z) : Z :=
  let x1 := w64 (x0 + xs) in
  match i with
  | 0 => if x0 =? 0 then 0 else w64 (x0 * 8 - pad)
  | 1 => if x0 =? 0 then 0 else Z.min n (w64 (x0 * 8 + pad))
  | 2 => if is_last then n else w64 (x1 * 8 - pad)
  | _ => Z.min n (w64 (x1 * 8 + pad))
  end.

(* dec_group_border.cc:121-126 *)
Definition append_rect (xpos ypos : Z -> Z) (q : Z * Z * Z * Z) : list rect :=
  let '(x0, x1, y0, y1) := q in
  let r := Rect (xpos x0) (ypos y0) (w64 (xpos x1 - xpos x0)) (w64 (ypos y1 - ypos y0)) in
  if (rxsize r =? 0) || (rysize r =? 0) then [] else [r].

(* dec_group_border.cc:98-193: from the statuses to the rectangles *)
Definition ready_rects (f : frame_dim) (padx pady group_id : Z) (tl tr br bl : Z) : gprog :=
  let x := group_id mod fd_xsize_groups f in
  let y := group_id / fd_xsize_groups f in
  let block_rect := rect_clamped (w64 (x * fd_group_dim f) / 8) (w64 (y * fd_group_dim f) / 8) (fd_group_dim f / 8) (fd_group_dim f / 8)
                      (fd_xsize_blocks f) (fd_ysize_blocks f) in
  let xpos := positions (rx0 block_rect) (rxsize block_rect) (fd_xsize f) padx (fd_xsize_groups f =? x + 1) in
  let ypos := positions (ry0 block_rect) (rysize block_rect) (fd_ysize f) pady (fd_ysize_groups f =? y + 1) in
  let mask := available tl tr br bl in
  match segment mask 0, segment mask 1, segment mask 2 with
  | Some s0, Some s1, Some s2 =>
      let rs := flat_map (append_rect xpos ypos) (merged s0 s1 s2) in
      if zlen rs <=? 3 then GDone rs else GFail
  | _, _, _ => GFail
  end.

(* GroupBorderAssigner::GroupDone, dec_group_border.cc:69-194 *)
Definition group_done (f : frame_dim) (padx pady group_id : Z) : gprog :=
  let x := group_id mod fd_xsize_groups f in
  let y := group_id / fd_xsize_groups f in
  fetch_status x y kBottomRight (fun top_left =>
  fetch_status (x + 1) y kBottomLeft (fun top_right =>
  fetch_status (x + 1) (y + 1) kTopLeft (fun bottom_right =>
  fetch_status x (y + 1) kTopRight (fun bottom_left =>
  ready_rects f padx pady group_id top_left top_right bottom_right bottom_left)))).

(* Several calls at once: what is left of the call for each group, and the counters.  A step of a
   group is its next fetch_or, and after the last one the delivery of its rectangles.  None: an access out
   of bounds, or a failed JXL_DASSERT. *)
Record running := Run { cnt : counters; calls : Z -> option gprog }.
Definition put (m : Z -> option gprog) (g : Z) (v : option gprog) : Z -> option gprog := fun h => if h =? g then v else m h.
Definition run_step (f : frame_dim) (s : running) (g : Z) : option (running * list (Z * list rect)) :=
  match calls s g with
  | Some (GFetch y w bits k) =>
      if in_counters f y w then
        let old := cnt s y w in
        let c := update (cnt s) y w (Z.lor old bits) in
        match k old with
        | GDone rs => Some (Run c (put (calls s) g None), [(g, rs)])
        | GFail => None
        | p => Some (Run c (put (calls s) g (Some p)), [])
        end
      else None
  | Some _ => None
  | None => Some (s, [])
  end.
(* the groups in the order of their steps; the rectangles with the groups they are delivered to, in order *)
Fixpoint run_steps (f : frame_dim) (s : running) (order : list Z) : option (running * list (Z * list rect)) :=
  match order with
  | [] => Some (s, [])
  | g :: order =>
      match run_step f s g with
      | Some (s, e) => match run_steps f s order with Some (s, es) => Some (s, e ++ es) | None => None end
      | None => None
      end
  end.
(* GroupDone called for the groups in [set] *)
Definition start_calls (f : frame_dim) (padx pady : Z) (set : Z -> bool) : Z -> option gprog :=
  fun g => if (0 <=? g) && (g <? fd_num_groups f) && set g then Some (group_done f padx pady g) else None.
