(** * Which transform each block uses, as read from the file (dec_modular.cc, ac_strategy.h)

    The four channels are what the modular decoder returned: any integers, functions here.  Images
    are functions from coordinates, in 8x8 blocks of the frame, to samples; size_t does not wrap:
    the coordinates are below 2^32.  used_acs and ComputeSigma are not modelled here. *)
From Coq Require Import ZArith List Bool.
Import ListNotations.
Local Open Scope Z_scope.

Definition grid := Z -> Z -> Z.
(** A store to one sample of an image *)
Definition put (g : grid) (x y v : Z) : grid :=
  fun a b => if (a =? x) && (b =? y) then v else g a b.

(** kGroupDimInBlocks, frame_dimensions.h:25-28 *)
Definition group_dim_in_blocks : Z := 32.
(** INVALID, ac_strategy.h:270 *)
Definition invalid : Z := 255.
(** IsRawStrategyValid, ac_strategy.h:92-93, 127-129 *)
Definition raw_valid (s : Z) : bool := (s <? 27) && (0 <=? s).
(** covered_blocks_x, covered_blocks_y, ac_strategy.h:148-164 *)
Definition cov_x (t : Z) : Z :=
  nth (Z.to_nat t) [1;1;1;1;2;4;1;2;1;4;2;4;1;1;1;1;1;1;8;4;8;16;8;16;32;16;32] 0.
Definition cov_y (t : Z) : Z :=
  nth (Z.to_nat t) [1;1;1;1;2;4;2;1;4;1;4;2;1;1;1;1;1;1;8;8;4;16;16;8;32;32;16] 0.

Definition zrange (n : Z) : list Z := map Z.of_nat (seq 0 (Z.to_nat n)).
(** The order of two nested loops over rows, then over columns *)
Definition raster (w h : Z) : list (Z * Z) :=
  flat_map (fun iy => map (fun ix => (ix, iy)) (zrange w)) (zrange h).

(** The body of the loops of SetNoBoundsCheck, ac_strategy.h:232-237 *)
Fixpoint set_cells (g : grid) (x y t : Z) (l : list (Z * Z)) : option grid :=
  match l with
  | [] => Some g
  | (ix, iy) :: l' =>
      if g (x + ix) (y + iy) =? invalid
      then set_cells (put g (x + ix) (y + iy)
                          (Z.lor (Z.shiftl t 1) (if Z.lor iy ix =? 0 then 1 else 0))) x y t l'
      else None
  end.
(** SetNoBoundsCheck with check, ac_strategy.h:227-241 *)
Definition set_strategy (g : grid) (x y t : Z) : option grid :=
  set_cells g x y t (raster (cov_x t) (cov_y t)).

(** The rectangle of the group, the size of the image of strategies, whether there is no chroma
    subsampling, the number of transforms, and channels 2 (two rows) and 3 *)
Record meta := mkMeta {
  m_x0 : Z; m_y0 : Z; m_xs : Z; m_ys : Z;
  m_xsize : Z; m_ysize : Z; m_444 : bool; m_count : Z;
  m_row1 : Z -> Z; m_row2 : Z -> Z; m_sharp : grid }.
(** The images of strategies, quantization and sharpness, and num *)
Record mst := mkMst { s_acs : grid; s_qf : grid; s_epf : grid; s_num : Z }.

(** The body of the loops, dec_modular.cc:517-554 *)
Definition block_step (m : meta) (s : mst) (c : Z * Z) : option mst :=
  let (ix, iy) := c in
  let x := m_x0 m + ix in
  let y := m_y0 m + iy in
  let xlim := Z.min (m_xsize m) (m_x0 m + m_xs m) in
  let ylim := Z.min (m_ysize m) (m_y0 m + m_ys m) in
  let sharp := m_sharp m ix iy in
  if (sharp <? 0) || (8 <=? sharp) then None else
  let epf := put (s_epf s) x y sharp in
  if negb (s_acs s x y =? invalid) then Some (mkMst (s_acs s) (s_qf s) epf (s_num s)) else
  if m_count m <=? s_num s then None else
  let t := m_row1 m (s_num s) in
  if negb (raw_valid t) then None else
  if ((1 <? cov_x t) || (1 <? cov_y t)) && negb (m_444 m) then None else
  let nx_ac := (x / group_dim_in_blocks + 1) * group_dim_in_blocks in
  let ny_ac := (y / group_dim_in_blocks + 1) * group_dim_in_blocks in
  if (nx_ac <? x + cov_x t) || (xlim <? x + cov_x t) then None else
  if (ny_ac <? y + cov_y t) || (ylim <? y + cov_y t) then None else
  match set_strategy (s_acs s) x y t with
  | None => None
  | Some g =>
      Some (mkMst g (put (s_qf s) x y (1 + Z.max 0 (Z.min (256 - 1) (m_row2 m (s_num s)))))
                  epf (s_num s + 1))
  end.
Fixpoint block_steps (m : meta) (s : mst) (l : list (Z * Z)) : option mst :=
  match l with
  | [] => Some s
  | c :: l' => match block_step m s c with None => None | Some s' => block_steps m s' l' end
  end.
(** The loops of DecodeAcMetadata, dec_modular.cc:503-556 *)
Definition decode_blocks (m : meta) (acs qf epf : grid) : option mst :=
  block_steps m (mkMst acs qf epf 0) (raster (m_xs m) (m_ys m)).
