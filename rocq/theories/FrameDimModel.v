(* Model of lib/jxl/frame_dimensions.h (FrameDimensions), lib/jxl/base/rect.h (the clamping
   constructor of Rect) and FrameHeader::ToFrameDimensions, lib/jxl/frame_header.h:466-484.
   All arithmetic is on size_t and wraps at 2^64. *)
From Verif Require Import Base ContainerModel.

(* FrameDimensions, lib/jxl/frame_dimensions.h:95-120 *)
Record frame_dim := FD {
  fd_xsize : Z; fd_ysize : Z;
  fd_xsize_upsampled : Z; fd_ysize_upsampled : Z;
  fd_xsize_upsampled_padded : Z; fd_ysize_upsampled_padded : Z;
  fd_xsize_padded : Z; fd_ysize_padded : Z;
  fd_xsize_blocks : Z; fd_ysize_blocks : Z;
  fd_xsize_groups : Z; fd_ysize_groups : Z;
  fd_xsize_dc_groups : Z; fd_ysize_dc_groups : Z;
  fd_num_groups : Z; fd_num_dc_groups : Z;
  fd_group_dim : Z; fd_dc_group_dim : Z }.

(* shift left of a size_t *)
Definition shl64 (a n : Z) : Z := w64 (Z.shiftl a n).

(* FrameDimensions::Set, lib/jxl/frame_dimensions.h:38-65; kGroupDim 256, kBlockDim 8 *)
Definition fd_set (xsize_px ysize_px group_size_shift max_hshift max_vshift : Z) (modular_mode : bool)
  (upsampling : Z) : frame_dim :=
  let group_dim := shl64 (Z.shiftr 256 1) group_size_shift in
  let dc_group_dim := w64 (group_dim * 8) in
  let xsize := div_ceil xsize_px upsampling in
  let ysize := div_ceil ysize_px upsampling in
  let xsize_blocks := shl64 (div_ceil xsize (shl64 8 max_hshift)) max_hshift in
  let ysize_blocks := shl64 (div_ceil ysize (shl64 8 max_vshift)) max_vshift in
  let xsize_padded := if modular_mode then xsize else w64 (xsize_blocks * 8) in
  let ysize_padded := if modular_mode then ysize else w64 (ysize_blocks * 8) in
  let xsize_groups := div_ceil xsize group_dim in
  let ysize_groups := div_ceil ysize group_dim in
  let xsize_dc_groups := div_ceil xsize_blocks group_dim in
  let ysize_dc_groups := div_ceil ysize_blocks group_dim in
  {| fd_xsize := xsize; fd_ysize := ysize;
     fd_xsize_upsampled := xsize_px; fd_ysize_upsampled := ysize_px;
     fd_xsize_upsampled_padded := w64 (xsize_padded * upsampling);
     fd_ysize_upsampled_padded := w64 (ysize_padded * upsampling);
     fd_xsize_padded := xsize_padded; fd_ysize_padded := ysize_padded;
     fd_xsize_blocks := xsize_blocks; fd_ysize_blocks := ysize_blocks;
     fd_xsize_groups := xsize_groups; fd_ysize_groups := ysize_groups;
     fd_xsize_dc_groups := xsize_dc_groups; fd_ysize_dc_groups := ysize_dc_groups;
     fd_num_groups := w64 (xsize_groups * ysize_groups);
     fd_num_dc_groups := w64 (xsize_dc_groups * ysize_dc_groups);
     fd_group_dim := group_dim; fd_dc_group_dim := dc_group_dim |}.

(* Rect, lib/jxl/base/rect.h *)
Record rect := Rect { rx0 : Z; ry0 : Z; rxsize : Z; rysize : Z }.

(* RectT::ClampedSize, lib/jxl/base/rect.h:151-155 *)
Definition clamped_size (begin_ size_max end_ : Z) : Z :=
  if w64 (begin_ + size_max) <=? end_ then size_max else if end_ >? begin_ then end_ - begin_ else 0.

(* RectT(xbegin, ybegin, xsize_max, ysize_max, xend, yend), lib/jxl/base/rect.h:31-36 *)
Definition rect_clamped (xbegin ybegin xsize_max ysize_max xend yend : Z) : rect :=
  Rect xbegin ybegin (clamped_size xbegin xsize_max xend) (clamped_size ybegin ysize_max yend).

(* GroupRect, BlockGroupRect, DCGroupRect, lib/jxl/frame_dimensions.h:67-89 *)
Definition group_rect (f : frame_dim) (g : Z) : rect :=
  let gx := g mod fd_xsize_groups f in
  let gy := g / fd_xsize_groups f in
  rect_clamped (w64 (gx * fd_group_dim f)) (w64 (gy * fd_group_dim f)) (fd_group_dim f) (fd_group_dim f)
    (fd_xsize f) (fd_ysize f).
Definition block_group_rect (f : frame_dim) (g : Z) : rect :=
  let gx := g mod fd_xsize_groups f in
  let gy := g / fd_xsize_groups f in
  let d := Z.shiftr (fd_group_dim f) 3 in
  rect_clamped (w64 (gx * d)) (w64 (gy * d)) d d (fd_xsize_blocks f) (fd_ysize_blocks f).
Definition dc_group_rect (f : frame_dim) (g : Z) : rect :=
  let gx := g mod fd_xsize_dc_groups f in
  let gy := g / fd_xsize_dc_groups f in
  rect_clamped (w64 (gx * fd_group_dim f)) (w64 (gy * fd_group_dim f)) (fd_group_dim f) (fd_group_dim f)
    (fd_xsize_blocks f) (fd_ysize_blocks f).

(* FrameHeader::ToFrameDimensions, lib/jxl/frame_header.h:466-484; default_xsize/ysize are the
   image (or preview) size, fs_x/fs_y the frame_size fields (0: not given). *)
Definition to_frame_dimensions (default_xsize default_ysize fs_x fs_y dc_level group_size_shift
  max_hshift max_vshift : Z) (modular : bool) (upsampling : Z) : frame_dim :=
  let xsize := if fs_x =? 0 then default_xsize else fs_x in
  let ysize := if fs_y =? 0 then default_ysize else fs_y in
  let xsize := if dc_level =? 0 then xsize else div_ceil xsize (Z.shiftl 1 (3 * dc_level)) in
  let ysize := if dc_level =? 0 then ysize else div_ceil ysize (Z.shiftl 1 (3 * dc_level)) in
  fd_set xsize ysize group_size_shift max_hshift max_vshift modular upsampling.
