(* The palette transform of modular images: lib/jxl/modular/transform/palette.{h,cc} and the lossless part of
   enc_palette.cc. *)
From Verif Require Import Base Arr.

(* Channel, lib/jxl/modular/modular_image.h:37-75: size, shifts and the rows of pixels (component, which
   no transform looks at, is left out) *)
Record channel := Chan { cw : Z; ch : Z; chs : Z; cvs : Z; crows : list (list Z) }.
(* Image, modular_image.h:79-121: the channels, of which the first nb_meta are meta channels; bitdepth *)
Record image := Img { chans : list channel; nb_meta : Z; depth : Z }.
(* Refuse: an error status.  Bad: undefined behaviour, as an access out of bounds or a signed overflow *)
Inductive outcome (A : Type) := Ret (a : A) | Refuse | Bad.
Arguments Ret {A} _. Arguments Refuse {A}. Arguments Bad {A}.

Definition i32 (v : Z) : option Z := if (- 2 ^ 31 <=? v) && (v <? 2 ^ 31) then Some v else None.
Fixpoint omap {A B} (f : A -> option B) (l : list A) : option (list B) :=
  match l with
  | [] => Some []
  | a :: l => do b <- f a; do bs <- omap f l; Some (b :: bs)
  end.

(* palette.h:54-79 *)
Definition kDeltaPalette : list (list Z) :=
  [[0; 0; 0]; [4; 4; 4]; [11; 0; 0]; [0; 0; -13]; [0; -12; 0]; [-10; -10; -10]; [-18; -18; -18];
   [-27; -27; -27]; [-18; -18; 0]; [0; 0; -32]; [-32; 0; 0]; [-37; -37; -37]; [0; -32; -32]; [24; 24; 45];
   [50; 50; 50]; [-45; -24; -24]; [-24; -45; -45]; [0; -24; -24]; [-34; -34; 0]; [-24; 0; -24];
   [-45; -45; -24]; [64; 64; 64]; [-32; 0; -32]; [0; -32; 0]; [-32; 0; 32]; [-24; -45; -24]; [45; 24; 45];
   [24; -24; -45]; [-45; -24; 24]; [80; 80; 80]; [64; 0; 0]; [0; 0; -64]; [0; -64; -64]; [-24; -24; 45];
   [96; 96; 96]; [64; 64; 0]; [45; -24; -24]; [34; -34; 0]; [112; 112; 112]; [24; -45; -45]; [45; 45; -24];
   [0; -32; 32]; [24; -24; 45]; [0; 96; 96]; [45; -24; 24]; [24; -45; -24]; [-24; -45; 24]; [0; -64; 0];
   [96; 0; 0]; [128; 128; 128]; [64; 0; 64]; [144; 144; 144]; [96; 96; 0]; [-36; -36; 36]; [45; -24; -45];
   [45; -45; -24]; [0; 0; -96]; [0; 128; 128]; [0; 96; 0]; [45; 24; -45]; [-128; 0; 0]; [24; -45; 24];
   [-45; 24; -45]; [64; 0; -64]; [64; -64; -64]; [96; 0; 96]; [45; -45; 24]; [24; 45; -45]; [64; 64; -64];
   [128; 128; 0]; [0; 0; -128]; [-24; 45; -45]].

(* Scale, palette.h:39-46 *)
Definition scale (value bit_depth : Z) : Z := s32 (Z.shiftr (w64 (value * w64 (2 ^ bit_depth - 1))) 2).

(* palette[c * onerow + index]: column index of row c of the palette channel *)
Definition palette_at (rows : list (list Z)) (c index : Z) : option Z := do row <- znth rows c; znth row index.

(* GetPaletteValue, palette.h:52-122 *)
Definition get_palette_value (rows : list (list Z)) (index c palette_size bit_depth : Z) : option Z :=
  if index <? 0 then
    if 3 <=? c then Some 0
    else
      let i := (- (index + 1)) mod (1 + 2 * (zlen kDeltaPalette - 1)) in
      do e <- znth kDeltaPalette ((i + 1) / 2);
      do v <- znth e c;
      let result := v * (if Z.odd i then 1 else -1) in
      if 8 <? bit_depth then i32 (result * 2 ^ (bit_depth - 8)) else Some result
  else if (palette_size <=? index) && (index <? palette_size + 64) then
    if 3 <=? c then Some 0
    else
      let i := Z.shiftr (index - palette_size) (c * 2) in
      i32 (scale (i mod 4) bit_depth + 2 ^ Z.max 0 (bit_depth - 3))
  else if palette_size + 64 <=? index then
    if 3 <=? c then Some 0
    else
      let i := index - (palette_size + 64) in
      let i := if c =? 1 then i / 5 else if c =? 2 then i / 25 else i in
      Some (scale (i mod 5) bit_depth)
  else palette_at rows c index.

(* Clamp1, lib/jxl/base/common.h *)
Definition clamp1 (v low hi : Z) : Z := if v <? low then low else if hi <? v then hi else v.

(* One channel of a delta palette, palette.cc:118-156.  The prediction is a function of the rows above
   (nearest first) and of the pixels to the left (nearest first), which covers all predictors, the
   weighted one with its state included. *)
Section Delta.
  Variable guess : Z -> list (list Z) -> list Z -> Z.
  Fixpoint delta_row (value : Z -> option Z) (w nb_deltas : Z) (above : list (list Z)) (left row : list Z) : option (list Z) :=
    match row with
    | [] => Some (rev left)
    | index :: row =>
        do entry <- value index;
        let v := if index <? nb_deltas then guess w above left + entry else entry in
        delta_row value w nb_deltas above (s32 v :: left) row
    end.
  Fixpoint delta_rows (value : Z -> option Z) (w nb_deltas : Z) (above rows : list (list Z)) : option (list (list Z)) :=
    match rows with
    | [] => Some (rev above)
    | row :: rows => do r <- delta_row value w nb_deltas above [] row; delta_rows value w nb_deltas (r :: above) rows
    end.

  (* the new rows of channel c0 + c, palette.cc:54-157; zero_predictor: predictor == Predictor::Zero *)
  Definition inv_rows (pal idx : channel) (nb_deltas : Z) (zero_predictor : bool) (bit_depth c : Z) : option (list (list Z)) :=
    let value index := get_palette_value (crows pal) index c (cw pal) bit_depth in
    if cw idx =? 0 then Some (if c =? 0 then crows idx else repeat [] (Z.to_nat (ch idx)))
    else if (nb_deltas =? 0) && zero_predictor then
      if ch pal =? 1 then omap (omap (fun p => value (clamp1 p 0 (s32 (cw pal) - 1)))) (crows idx)
      else omap (omap value) (crows idx)
    else delta_rows value (cw idx) nb_deltas [] (crows idx).

  (* InvPalette, palette.cc:28-170 *)
  Definition inv_palette (img : image) (begin_c nb_deltas : Z) (zero_predictor : bool) : outcome image :=
    if nb_meta img <? 1 then Refuse
    else
      match znth (chans img) 0, znth (chans img) (begin_c + 1) with
      | Some pal, Some idx =>
          let nb := ch pal in
          if nb <? 1 then Refuse
          else
            match omap (inv_rows pal idx nb_deltas zero_predictor (Z.min (depth img) 24)) (zseq 0 (Z.to_nat nb)) with
            | Some rows =>
                let c0 := Z.to_nat (begin_c + 1) in
                let out := firstn c0 (chans img) ++ map (Chan (cw idx) (ch idx) (chs idx) (cvs idx)) rows ++ skipn (S c0) (chans img) in
                if nb_meta img <=? begin_c + 1 then Ret (Img (tl out) (nb_meta img - 1) (depth img))
                else if 2 - nb <=? nb_meta img then
                  let m := nb_meta img - (2 - nb) in
                  if begin_c + nb - 1 <? m then Ret (Img (tl out) m (depth img)) else Refuse
                else Refuse
            | None => Bad
            end
      | None, _ => Bad
      | _, None => Refuse
      end.
End Delta.

(* CheckEqualChannels, transform.cc:146-165 *)
Definition same_size (a b : channel) : bool := (cw a =? cw b) && (ch a =? ch b) && (chs a =? chs b) && (cvs a =? cvs b).
Definition check_equal_channels (img : image) (c1 c2 : Z) : bool :=
  if (zlen (chans img) <? c1) || (zlen (chans img) <=? c2) || (c2 <? c1) then false
  else if (c1 <? nb_meta img) && (nb_meta img <=? c2) then false
  else
    match znth (chans img) c1 with
    | Some ch1 => forallb (same_size ch1) (firstn (Z.to_nat (c2 - c1)) (skipn (Z.to_nat (c1 + 1)) (chans img)))
    | None => false
    end.

(* the channels before begin_c, one for those from begin_c to end_c, and those after end_c, with the
   palette channel put in front; palette.cc:188-196, enc_palette.cc:637-642 *)
Definition put_palette (pal idx : channel) (begin_c end_c : Z) (l : list channel) : list channel :=
  pal :: firstn (Z.to_nat begin_c) l ++ idx :: skipn (Z.to_nat (end_c + 1)) l.

(* MetaPalette, palette.cc:172-198 *)
Definition meta_palette (img : image) (begin_c end_c nb_colors nb_deltas : Z) : outcome image :=
  if check_equal_channels img begin_c end_c then
    let nb := end_c - begin_c + 1 in
    let w := nb_colors + nb_deltas in
    match znth (chans img) begin_c with
    | Some idx =>
        let l := put_palette (Chan w nb (-1) (-1) (repeat (repeat 0 (Z.to_nat w)) (Z.to_nat nb))) idx begin_c end_c (chans img) in
        if nb_meta img <=? begin_c then Ret (Img l (nb_meta img + 1) (depth img))
        else if end_c <? nb_meta img then Ret (Img l (nb_meta img + (2 - nb)) (depth img)) else Refuse
    | None => Bad
    end
  else Refuse.

(* ---- the encoder ---- *)
(* compute_minmax, enc_transform.cc:40-53 *)
Definition minmax (l : list Z) : Z * Z := (fold_left Z.min l (2 ^ 31 - 1), fold_left Z.max l (- 2 ^ 31)).

(* insertion into a std::set<pixel_type>: the elements in increasing order, and whether it was new *)
Fixpoint insert (v : Z) (l : list Z) : list Z * bool :=
  match l with
  | [] => ([v], true)
  | a :: m => if v <? a then (v :: l, true) else if v =? a then (l, false) else let '(m', b) := insert v m in (a :: m', b)
  end.
(* enc_palette.cc:206-215 *)
Fixpoint collect (nb_colors : Z) (set_ : list Z) (idx : Z) (px : list Z) : option (list Z * Z) :=
  match px with
  | [] => Some (set_, idx)
  | v :: px =>
      let '(set_, new_color) := insert v set_ in
      if new_color then if nb_colors <? idx + 1 then None else collect nb_colors set_ (idx + 1) px
      else collect nb_colors set_ idx px
  end.
(* enc_palette.cc:230-236 *)
Fixpoint position (v : Z) (l : list Z) (i : Z) : option Z := match l with [] => None | a :: l => if v =? a then Some i else position v l (i + 1) end.

(* enc_palette.cc:246-256; lookup of size entries; the inner None: too many colours *)
Fixpoint mark (nb_colors minval size : Z) (lookup : Z -> Z) (idx : Z) (px : list Z) : option (option ((Z -> Z) * Z)) :=
  match px with
  | [] => Some (Some (lookup, idx))
  | v :: px =>
      do m <- get size lookup (v - minval);
      if m =? 0 then
        do lookup <- set size lookup (v - minval) 1;
        if nb_colors <? idx + 1 then Some None else mark nb_colors minval size lookup (idx + 1) px
      else mark nb_colors minval size lookup idx px
  end.
(* enc_palette.cc:264-270, the palette, which has room for cap entries, in reverse *)
Fixpoint number (cap minval size : Z) (lookup : Z -> Z) (idx : Z) (pal : list Z) (is_ : list Z) : option ((Z -> Z) * list Z) :=
  match is_ with
  | [] => Some (lookup, pal)
  | i :: is_ =>
      do m <- get size lookup i;
      if m =? 0 then number cap minval size lookup idx pal is_
      else if cap <=? idx then None
      else do lookup <- set size lookup i idx; number cap minval size lookup (idx + 1) (i + minval :: pal) is_
  end.
(* enc_palette.cc:192-279: the palette and the indices of one channel *)
Definition channel_palette (nb_colors : Z) (rows : list (list Z)) : outcome (list Z * list (list Z)) :=
  let px := concat rows in
  let '(minval, maxval) := minmax px in
  let size := w64 (maxval - minval + 1) in
  if 65536 <? size then
    match collect nb_colors [] 0 px with
    | Some (pal, _) => match omap (omap (fun v => position v pal 0)) rows with Some r => Ret (pal, r) | None => Bad end
    | None => Refuse
    end
  else
    match mark nb_colors minval size (fun _ => 0) 0 px with
    | Some (Some (lookup, n)) =>
        match number n minval size lookup 0 [] (zseq 0 (Z.to_nat size)) with
        | Some (lookup, pal) => match omap (omap (fun v => get size lookup (v - minval))) rows with Some r => Ret (rev pal, r) | None => Bad end
        | None => Bad
        end
    | Some None => Refuse
    | None => Bad
    end.

(* Several channels.  Colours are lists of one value per channel. *)
Definition color_eqb (a b : list Z) : bool := if list_eq_dec Z.eq_dec a b then true else false.
(* enc_palette.cc:345-352 *)
Definition implicit_color (nb bitdepth k : Z) : option (list Z) := omap (fun i => get_palette_value [] k i 0 bitdepth) (zseq 0 (Z.to_nat nb)).
Definition implicit_colors (nb bitdepth : Z) : option (list (list Z)) := omap (implicit_color nb bitdepth) (zseq 0 189).

(* enc_palette.cc:356-378: candidate_palette, candidate_palette_imageorder, implicit_colors_used *)
Fixpoint scan (nb_colors : Z) (implicit cand order : list (list Z)) (used : Z) (px : list (list Z)) : option (list (list Z) * Z) :=
  match px with
  | [] => Some (order, used)
  | color :: px =>
      if existsb (color_eqb color) cand then scan nb_colors implicit cand order used px
      else if existsb (color_eqb color) implicit then scan nb_colors implicit (color :: cand) order (used + 1) px
      else if nb_colors <? zlen order + 1 then None
      else scan nb_colors implicit (color :: cand) (order ++ [color]) used px
  end.
(* a std::map filled by assignments in the order of the list, and operator[]: 0 where nothing was assigned *)
Definition lookup_color (m : list (list Z * Z)) (color : list Z) : Z :=
  match find (fun e => color_eqb color (fst e)) (rev m) with Some (_, v) => v | None => 0 end.
(* color at (x, y) *)
Definition color_at (l : list channel) (x y : Z) : option (list Z) := omap (fun c => do row <- znth (crows c) y; znth row x) l.
Definition color_rows (l : list channel) (w h : Z) : option (list (list (list Z))) :=
  omap (fun y => omap (fun x => color_at l x y) (zseq 0 (Z.to_nat w))) (zseq 0 (Z.to_nat h)).

(* enc_palette.cc:281-645 without the lossy parts; [sort] stands for the std::sort on luma, of which only
   is used that it permutes *)
Definition colors_palette (sort : list (list Z) -> list (list Z)) (nb_colors nb bitdepth : Z) (px : list (list (list Z))) : outcome (list (list Z) * list (list Z)) :=
  match implicit_colors nb bitdepth with
  | Some implicit =>
      match scan nb_colors implicit [] [] 0 (concat px) with
      | Some (order, used) =>
          if zlen order + used =? 1 then Refuse
          else
            let frequent := filter (fun color => 10 <? zlen (filter (color_eqb color) (concat px))) implicit in
            let order := order ++ frequent in
            let nb_colors := zlen order in
            let pal := sort order in
            let inv := combine implicit (zseq nb_colors (length implicit)) ++ combine pal (zseq 0 (length pal)) in
            Ret (pal, map (map (lookup_color inv)) px)
      | None => Refuse
      end
  | None => Bad
  end.

(* FwdPalette with lossy = false, enc_palette.cc:177-279, 647-664.  Returns the image and nb_colors; the
   predictor becomes Zero, and there are no deltas. *)
Definition fwd_palette (sort : list (list Z) -> list (list Z)) (img : image) (begin_c end_c nb_colors : Z) : outcome (image * Z) :=
  if negb (check_equal_channels img begin_c end_c) then Refuse
  else if begin_c <? nb_meta img then Refuse
  else
    match znth (chans img) begin_c with
    | Some c =>
        let nb := end_c - begin_c + 1 in
        if 32 <=? depth img then Refuse
        else if nb_colors <? 2 then Refuse
        else if nb =? 1 then
          match channel_palette nb_colors (crows c) with
          | Ret (pal, rows) =>
              Ret (Img (put_palette (Chan (zlen pal) 1 (-1) (-1) [pal]) (Chan (cw c) (ch c) (chs c) (cvs c) rows) begin_c end_c (chans img)) (nb_meta img + 1) (depth img), zlen pal)
          | Refuse => Refuse
          | Bad => Bad
          end
        else
          let l := firstn (Z.to_nat nb) (skipn (Z.to_nat begin_c) (chans img)) in
          match color_rows l (cw c) (ch c) with
          | Some px =>
              match colors_palette sort nb_colors nb (depth img) px with
              | Ret (pal, rows) =>
                  let prows := map (fun i => map (fun color => nth i color 0) pal) (seq 0 (Z.to_nat nb)) in
                  Ret (Img (put_palette (Chan (zlen pal) nb (-1) (-1) prows) (Chan (cw c) (ch c) (chs c) (cvs c) rows) begin_c end_c (chans img)) (nb_meta img + 1) (depth img), zlen pal)
              | Refuse => Refuse
              | Bad => Bad
              end
          | None => Bad
          end
    | None => Refuse
    end.
