(** * Patches: PatchDictionary (dec_patch_dictionary.{h,cc}) and the tokens the
    encoder writes for it (enc_patch_dictionary.cc).

    Not modelled: the pixels and the blending itself (PerformBlending), the
    entropy coding of the tokens (C12, C46) with CheckANSFinalState, the flag
    uses_extra_channels (its value is not used by the caller, dec_frame.cc:273)
    and reserve.  Sizes and positions are size_t in the code and integers here:
    they stay below 2^34 (a frame has at most 2^30 columns and rows). *)
From Coq Require Import ZArith List Bool Lia.
From Verif Require Import Base FieldsModel.
Import ListNotations.
Local Open Scope Z_scope.

(** PatchReferencePosition, PatchPosition, PatchBlending:
    dec_patch_dictionary.h:82-97.  The mode is its number in PatchBlendMode. *)
Record refpos := RefPos { r_ref : Z; r_x0 : Z; r_y0 : Z; r_xs : Z; r_ys : Z }.
Record ppos := PPos { p_x : Z; p_y : Z; p_idx : nat }.
Record blend := Blend { b_mode : Z; b_alpha : Z; b_clamp : bool }.

(** positions_, ref_positions_, blendings_, blendings_stride_:
    dec_patch_dictionary.h:141-144 *)
Record dict := Dict { positions : list ppos; refs : list refpos; blends : list blend; stride : nat }.

(** The members when a PassesDecoderState is created. *)
Definition fresh : dict := Dict [] [] [] 0.

(** ReferenceFrame, dec_patch_dictionary.h:28-32: size of the frame (0 columns: no
    such frame) and ib_is_in_xyb. *)
Record rframe := RFrame { f_xs : Z; f_ys : Z; f_xyb : bool }.

(** UsesAlpha, UsesClamp: dec_patch_dictionary.h:72-80 *)
Definition uses_alpha (mode : Z) : bool := (mode =? 4) || (mode =? 5) || (mode =? 6) || (mode =? 7).
Definition uses_clamp (mode : Z) : bool := uses_alpha mode || (mode =? 3).

(** The contexts, patch_dictionary_internal.h:12-24 *)
Definition ctx_num_ref : Z := 0.
Definition ctx_ref_frame : Z := 1.
Definition ctx_size : Z := 2.
Definition ctx_ref_pos : Z := 3.
Definition ctx_pos : Z := 4.
Definition ctx_mode : Z := 5.
Definition ctx_offset : Z := 6.
Definition ctx_count : Z := 7.
Definition ctx_alpha : Z := 8.
Definition ctx_clamp : Z := 9.

(** ** PatchDictionary::Decode, dec_patch_dictionary.cc:31-178 *)
Section Decode.
(** read_num, dec_patch_dictionary.cc:44-47: any source of values, which may
    depend on the context. *)
Variable S : Type.
Variable read : S -> Z -> Z * S.
Variable frames : list rframe.
Variables xsize ysize : Z.
Variable nec : nat.

(** dec_patch_dictionary.cc:136-165: n blendings *)
Fixpoint read_blends (n : nat) (st : S) : option (list blend * S) :=
  match n with
  | O => Some ([], st)
  | Datatypes.S n' =>
      let '(mode, st) := read st ctx_mode in
      if 8 <=? mode then None else
      let choose_alpha := (1 <? nec)%nat in
      let '(alpha, st) := if uses_alpha mode && choose_alpha then read st ctx_alpha else (0, st) in
      if uses_alpha mode && choose_alpha && (Z.of_nat nec <=? alpha) then None else
      let '(clamp, st) := if uses_clamp mode then let '(v, st) := read st ctx_clamp in (negb (v =? 0), st)
                          else (false, st) in
      match read_blends n' st with
      | None => None
      | Some (l, st) => Some (Blend mode alpha clamp :: l, st)
      end
  end.

(** dec_patch_dictionary.cc:106-125: the position of one patch.  A sum that would be
    negative is refused before. *)
Definition read_offset (prev : Z) (st : S) : option (Z * S) :=
  let '(v, st) := read st ctx_offset in
  let delta := unpack_signed v in
  if (delta <? 0) && (- delta >? prev) then None else Some (prev + delta, st).

(** dec_patch_dictionary.cc:106-125 *)
Definition read_position (first : bool) (ps : list ppos) (idx : nat) (st : S) : option (ppos * S) :=
  if first then
    let '(x, st) := read st ctx_pos in
    let '(y, st) := read st ctx_pos in
    Some (PPos x y idx, st)
  else
    let back := last ps (PPos 0 0 0) in
    match read_offset (p_x back) st with
    | None => None
    | Some (x, st) =>
        match read_offset (p_y back) st with
        | None => None
        | Some (y, st) => Some (PPos x y idx, st)
        end
    end.

(** dec_patch_dictionary.cc:104-167: the n patches that show one reference *)
Fixpoint read_group (n : nat) (first : bool) (rp : refpos) (d : dict) (st : S) : option (dict * S) :=
  match n with
  | O => Some (d, st)
  | Datatypes.S n' =>
      match read_position first (positions d) (length (refs d)) st with
      | None => None
      | Some (pos, st) =>
          if p_x pos + r_xs rp >? xsize then None else
          if p_y pos + r_ys rp >? ysize then None else
          match read_blends (stride d) st with
          | None => None
          | Some (bs, st) =>
              read_group n' false rp (Dict (positions d ++ [pos]) (refs d) (blends d ++ bs) (stride d)) st
          end
      end
  end.

(** dec_patch_dictionary.cc:50-55 *)
Definition max_ref_patches : Z := 1024 + xsize * ysize / 4.
Definition max_patches : Z := max_ref_patches * 4.
Definition max_blending_infos : Z := max_patches * 4.

(** dec_patch_dictionary.cc:64-84 *)
Definition read_ref (st : S) : option (refpos * S) :=
  let '(ref, st) := read st ctx_ref_frame in
  if 4 <=? ref then None else
  match nth_error frames (Z.to_nat ref) with
  | None => None
  | Some f =>
      if f_xs f =? 0 then None else
      if negb (f_xyb f) then None else
      let '(x0, st) := read st ctx_ref_pos in
      let '(y0, st) := read st ctx_ref_pos in
      let '(xs, st) := read st ctx_size in
      let '(ys, st) := read st ctx_size in
      if x0 + (xs + 1) >? f_xs f then None else
      if y0 + (ys + 1) >? f_ys f then None else
      Some (RefPos ref x0 y0 (xs + 1) (ys + 1), st)
  end.

(** dec_patch_dictionary.cc:60-169 *)
Fixpoint read_refs (n : nat) (total next_size : Z) (d : dict) (st : S) : option (dict * S) :=
  match n with
  | O => Some (d, st)
  | Datatypes.S n' =>
      match read_ref st with
      | None => None
      | Some (rp, st) =>
          let '(id_count, st) := read st ctx_count in
          if id_count >? max_patches then None else
          let total := total + (id_count + 1) in
          if total >? max_patches then None else
          let next_size := if next_size <? total then Z.min (next_size * 2) max_patches else next_size in
          if next_size * Z.of_nat (stride d) >? max_blending_infos then None else
          match read_group (Z.to_nat (id_count + 1)) true rp d st with
          | None => None
          | Some (d, st) =>
              read_refs n' total next_size (Dict (positions d) (refs d ++ [rp]) (blends d) (stride d)) st
          end
      end
  end.

(** dec_patch_dictionary.cc:35-58: only positions_ is cleared *)
Definition decode (d : dict) (st : S) : option (dict * S) :=
  let d := Dict [] (refs d) (blends d) (nec + 1) in
  let '(num, st) := read st ctx_num_ref in
  if num >? max_ref_patches then None else read_refs (Z.to_nat num) 0 1 d st.
End Decode.

(** PatchDictionary::Clear, dec_patch_dictionary.h:119-122 *)
Definition clear (d : dict) : dict := Dict [] (refs d) (blends d) (stride d).

(** GetReferences, dec_patch_dictionary.cc:180-186, as the list of the numbers that
    are or-ed together *)
Definition get_references (d : dict) : list Z := map r_ref (refs d).

(** ** The interval tree *)

(** PatchInterval, dec_patch_dictionary.cc:189-192 *)
Record interval := Iv { i_idx : nat; i_y0 : Z; i_y1 : Z }.

(** dec_patch_dictionary.cc:203-210; a position without a reference cannot occur
    (the code would read outside of ref_positions_) *)
Fixpoint intervals_from (d : dict) (i : nat) (ps : list ppos) : option (list interval) :=
  match ps with
  | [] => Some []
  | p :: r =>
      match nth_error (refs d) (p_idx p), intervals_from d (Datatypes.S i) r with
      | Some rp, Some l => Some (Iv i (p_y p) (p_y p + r_ys rp) :: l)
      | _, _ => None
      end
  end.
Definition intervals (d : dict) : option (list interval) := intervals_from d 0 (positions d).

(** PatchTreeNode, dec_patch_dictionary.h:147-155; None is -1 *)
Record node := Node { n_left : option nat; n_right : option nat; n_center : Z; n_start : nat; n_num : nat }.

(** The loops over neighbouring elements of an array *)
Fixpoint take_while {A} (f : A -> bool) (l : list A) : list A :=
  match l with [] => [] | a :: r => if f a then a :: take_while f r else [] end.

Section Tree.
(** std::sort by y0, by y1 and of numbers: the order of equal elements is not
    specified *)
Variables sort0 sort1 : list interval -> list interval.
Variable sortn : list nat -> list nat.

(** dec_patch_dictionary.cc:223-228: the number of patches of each row, as far as the
    last row with a patch *)
Definition num_patches (ivs : list interval) : list nat :=
  map (fun y => length (filter (fun v => (i_y0 v <=? Z.of_nat y) && (Z.of_nat y <? i_y1 v)) ivs))
      (seq 0 (Z.to_nat (i_y1 (last (sort1 ivs) (Iv 0 0 0))))).

(** The three groups of a node and its y_center, dec_patch_dictionary.cc:236-254.
    [ivs] is the range [start, end) of the array. *)
Definition split (ivs : list interval) : Z * list interval * list interval * list interval :=
  let a := sort0 ivs in
  let middle := (length ivs / 2)%nat in
  let center := i_y0 (nth middle a (Iv 0 0 0)) in
  let right_start := (middle + length (take_while (fun v => (i_y0 v =? center)%Z) (skipn middle a)))%nat in
  let hi := skipn right_start a in
  let b := sort1 (firstn right_start a) in
  let left_end := (right_start - length (take_while (fun v => (i_y1 v >? center)%Z) (rev b)))%nat in
  (center, firstn left_end b, skipn left_end b, hi).

(** A child is only made for a range that is not empty: dec_patch_dictionary.cc:268, 275 *)
Definition some_list (l : list interval) : list (list interval) := match l with [] => [] | _ => [l] end.

(** The loop of dec_patch_dictionary.cc:229-283.  [k] is next, the queue holds the
    ranges of the nodes from next on (each node permutes only its own range, so that
    the ranges can be lists of their own), [start] is the size of
    sorted_patches_y0_.  Returns what is added to patch_tree_, sorted_patches_y0_ and
    sorted_patches_y1_. *)
Fixpoint build (fuel : nat) (k start : nat) (queue : list (list interval))
    : option (list node * list (Z * nat) * list (Z * nat)) :=
  match fuel with
  | O => None
  | Datatypes.S fuel' =>
      match queue with
      | [] => Some ([], [], [])
      | ivs :: rest =>
          let '(center, lo, mid, hi) := split ivs in
          let size := (k + 1 + length rest)%nat in
          let n := Node (match lo with [] => None | _ => Some size end)
                        (match hi with [] => None
                         | _ => Some (size + length (some_list lo))%nat end)
                        center start (length mid) in
          let y1s := map (fun v => (i_y1 v, i_idx v)) (rev mid) in
          let y0s := map (fun v => (i_y0 v, i_idx v)) (sort0 mid) in
          match build fuel' (k + 1) (start + length mid) (rest ++ some_list lo ++ some_list hi) with
          | None => None
          | Some (ns, s0, s1) => Some (n :: ns, y0s ++ s0, y1s ++ s1)
          end
      end
  end.

(** ComputePatchTree, dec_patch_dictionary.cc:195-284 *)
Record tree := Tr { t_nodes : list node; t_num : list nat; t_y0 : list (Z * nat); t_y1 : list (Z * nat) }.
Definition compute_tree (d : dict) : option tree :=
  match intervals d with
  | None => None
  | Some [] => Some (Tr [] [] [] [])
  | Some ivs =>
      match build (length ivs + 1) 0 0 [sort1 ivs] with
      | None => None
      | Some (ns, s0, s1) => Some (Tr ns (num_patches ivs) s0 s1)
      end
  end.

(** The walk of GetPatchesForRow, dec_patch_dictionary.cc:290-308.  None: the index
    is outside of patch_tree_, or the loop does not end. *)
Fixpoint walk (fuel : nat) (t : tree) (y : Z) (at_ : option nat) : option (list nat) :=
  match at_ with
  | None => Some []
  | Some i =>
      match fuel with
      | O => None
      | Datatypes.S fuel' =>
          match nth_error (t_nodes t) i with
          | None => None
          | Some n =>
              let '(found, next) :=
                if y <=? n_center n then
                  (take_while (fun p => negb (y <? fst p)) (firstn (n_num n) (skipn (n_start n) (t_y0 t))),
                   if y <? n_center n then n_left n else None)
                else
                  (take_while (fun p => negb (y >=? fst p)) (firstn (n_num n) (skipn (n_start n) (t_y1 t))),
                   n_right n) in
              match walk fuel' t y next with
              | None => None
              | Some r => Some (map snd found ++ r)
              end
          end
      end
  end.

(** GetPatchesForRow, dec_patch_dictionary.cc:286-315 *)
Definition patches_for_row (t : tree) (y : Z) : option (list nat) :=
  if (y <? zlen (t_num t)) && (0 <? nth (Z.to_nat y) (t_num t) 0)%nat then
    match walk (length (t_nodes t) + 1) t y (Some 0%nat) with
    | None => None
    | Some r => Some (sortn r)
    end
  else Some [].

(** AddOneRow, dec_patch_dictionary.cc:319-357: for each patch, the reference frame and
    its row, the offset fg_ptrs points to in that row, the range of the segment that
    PerformBlending works on, and the blendings.  None: a JXL_ENSURE fails or memory
    outside of a vector is read. *)
Record draw := Draw { d_ref : Z; d_row : Z; d_base : Z; d_from : Z; d_count : Z; d_blends : list blend }.

Fixpoint draws (d : dict) (y x0 xs : Z) (ids : list nat) : option (list draw) :=
  match ids with
  | [] => Some []
  | i :: r =>
      match nth_error (positions d) i with
      | None => None
      | Some pos =>
          match nth_error (refs d) (p_idx pos) with
          | None => None
          | Some rp =>
              if negb ((p_y pos <=? y) && (y <? p_y pos + r_ys rp)) then None else
              if p_x pos >=? x0 + xs then draws d y x0 xs r else
              if p_x pos + r_xs rp <? x0 then draws d y x0 xs r else
              if (length (blends d) <? (i + 1) * stride d)%nat then None else
              let px0 := Z.max (p_x pos) x0 in
              let px1 := Z.min (p_x pos + r_xs rp) (x0 + xs) in
              match draws d y x0 xs r with
              | None => None
              | Some l =>
                  Some (Draw (r_ref rp) (r_y0 rp + (y - p_y pos)) (r_x0 rp + x0 - p_x pos) (px0 - x0) (px1 - px0)
                             (firstn (stride d) (skipn (i * stride d) (blends d))) :: l)
              end
          end
      end
  end.

(** dec_patch_dictionary.cc:325: the loop over GetPatchesForRow(y) *)
Definition add_one_row (d : dict) (y x0 xs : Z) : option (list draw) :=
  match compute_tree d with
  | None => None
  | Some t => match patches_for_row t y with None => None | Some ids => draws d y x0 xs ids end
  end.
End Tree.

(** ** PatchDictionaryEncoder::Encode, enc_patch_dictionary.cc:55-127: the tokens *)
Definition token : Type := (Z * Z)%type.

(** enc_patch_dictionary.cc:107-114; [nec] is the stride less one *)
Definition encode_blend (nec : nat) (b : blend) : list token :=
  [(ctx_mode, b_mode b)] ++
  (if uses_alpha (b_mode b) && (1 <? nec)%nat then [(ctx_alpha, b_alpha b)] else []) ++
  (if uses_clamp (b_mode b) then [(ctx_clamp, if b_clamp b then 1 else 0)] else []).

(** The first positions with the same ref_pos_idx, and the others: the loop of
    enc_patch_dictionary.cc:83-86 *)
Fixpoint same_ref (idx : nat) (ps : list ppos) : list ppos * list ppos :=
  match ps with
  | [] => ([], [])
  | p :: r => if Nat.eqb (p_idx p) idx then let '(a, b) := same_ref idx r in (p :: a, b) else ([], ps)
  end.

(** enc_patch_dictionary.cc:95-116; [prev] is positions_[j - 1] unless j is i_start *)
Fixpoint encode_positions (st : nat) (prev : option ppos) (ps : list ppos) (bs : list blend) : list token :=
  match ps with
  | [] => []
  | p :: r =>
      (match prev with
       | None => [(ctx_pos, p_x p); (ctx_pos, p_y p)]
       | Some q => [(ctx_offset, pack_signed (p_x p - p_x q)); (ctx_offset, pack_signed (p_y p - p_y q))]
       end) ++
      concat (map (encode_blend (st - 1)) (firstn st bs)) ++
      encode_positions st (Some p) r (skipn st bs)
  end.

(** enc_patch_dictionary.cc:79-118, and 65-73 for the number of rounds.  None: the
    index of a reference is outside of ref_positions_, or the fuel ran out. *)
Fixpoint encode_groups (fuel : nat) (d : dict) (ps : list ppos) (bs : list blend) : option (Z * list token) :=
  match fuel with
  | O => None
  | S fuel' =>
      match ps with
      | [] => Some (0, [])
      | p :: _ =>
          match nth_error (refs d) (p_idx p) with
          | None => None
          | Some rp =>
              let '(group, rest) := same_ref (p_idx p) ps in
              match encode_groups fuel' d rest (skipn (length group * stride d) bs) with
              | None => None
              | Some (n, ts) =>
                  Some (n + 1,
                    [(ctx_ref_frame, r_ref rp); (ctx_ref_pos, r_x0 rp); (ctx_ref_pos, r_y0 rp);
                     (ctx_size, r_xs rp - 1); (ctx_size, r_ys rp - 1); (ctx_count, zlen group - 1)] ++
                    encode_positions (stride d) None group bs ++ ts)
              end
          end
      end
  end.

(** add_num, enc_patch_dictionary.cc:62-64, converts to uint32_t.  JXL_ENSURE(HasAny()) is
    the caller's (enc_frame.cc). *)
Definition encode (d : dict) : option (list token) :=
  match encode_groups (length (positions d) + 1) d (positions d) (blends d) with
  | None => None
  | Some (n, ts) => Some (map (fun t => (fst t, w32 (snd t))) ((ctx_num_ref, n) :: ts))
  end.

(** Reading the tokens back: the value of the next token if it was written with the
    context it is read with (C12, C46); 0 otherwise. *)
Definition read_token (ts : list token) (ctx : Z) : Z * list token :=
  match ts with
  | [] => (0, [])
  | (c, v) :: r => (if c =? ctx then v else 0, r)
  end.
