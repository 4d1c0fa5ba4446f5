(* Property C40: groups tile the frame. *)
From Verif Require Import Base ContainerModel FrameDimModel FrameDimSpec FrameDimProofs.

(* C40: the pixel rectangles of the groups partition the (downsampled) frame. *)
Theorem C40_groups_tile_frame : forall xpx ypx gs hs vs ups modular, params_ok xpx ypx gs hs vs ups ->
  let f := fd_set xpx ypx gs hs vs modular ups in
  tiles (fd_num_groups f) (group_rect f) (fd_xsize f) (fd_ysize f) /\
  fd_num_groups f = fd_xsize_groups f * fd_ysize_groups f.
Proof. exact groups_tile. Qed.
Print Assumptions C40_groups_tile_frame.

(* C40: the block rectangles of the groups partition the block grid. *)
Theorem C40_block_groups_tile_blocks : forall xpx ypx gs hs vs ups modular, params_ok xpx ypx gs hs vs ups ->
  let f := fd_set xpx ypx gs hs vs modular ups in
  tiles (fd_num_groups f) (block_group_rect f) (fd_xsize_blocks f) (fd_ysize_blocks f).
Proof. exact block_groups_tile. Qed.
Print Assumptions C40_block_groups_tile_blocks.

(* C40: the DC groups partition the block grid. *)
Theorem C40_dc_groups_tile_blocks : forall xpx ypx gs hs vs ups modular, params_ok xpx ypx gs hs vs ups ->
  let f := fd_set xpx ypx gs hs vs modular ups in
  tiles (fd_num_dc_groups f) (dc_group_rect f) (fd_xsize_blocks f) (fd_ysize_blocks f) /\
  fd_num_dc_groups f = fd_xsize_dc_groups f * fd_ysize_dc_groups f.
Proof. exact dc_groups_tile. Qed.
Print Assumptions C40_dc_groups_tile_blocks.

(* C40: the derived sizes are the least ones that hold the image: the downsampled size, the
   number of blocks (a multiple of the chroma block size) and the padded sizes. *)
Theorem C40_derived_sizes : forall xpx ypx gs hs vs ups modular, params_ok xpx ypx gs hs vs ups ->
  let f := fd_set xpx ypx gs hs vs modular ups in
  (xpx <= fd_xsize f * ups < xpx + ups /\ ypx <= fd_ysize f * ups < ypx + ups) /\
  rounded_up (8 * 2 ^ hs) (fd_xsize f) (8 * fd_xsize_blocks f) /\
  rounded_up (8 * 2 ^ vs) (fd_ysize f) (8 * fd_ysize_blocks f) /\
  (modular = true -> fd_xsize_padded f = fd_xsize f /\ fd_ysize_padded f = fd_ysize f) /\
  (modular = false -> fd_xsize_padded f = 8 * fd_xsize_blocks f /\ fd_ysize_padded f = 8 * fd_ysize_blocks f) /\
  fd_xsize_upsampled_padded f = fd_xsize_padded f * ups /\
  fd_ysize_upsampled_padded f = fd_ysize_padded f * ups.
Proof. exact derived_sizes. Qed.
Print Assumptions C40_derived_sizes.

Example C40_case : params_ok 1000 517 1 1 0 2 /\
  let f := fd_set 1000 517 1 1 0 false 2 in
  fd_xsize f = 500 /\ fd_ysize f = 259 /\ fd_xsize_blocks f = 64 /\ fd_ysize_blocks f = 33 /\
  fd_num_groups f = 4 /\ group_rect f 3 = Rect 256 256 244 3 /\ block_group_rect f 3 = Rect 32 32 32 1.
Proof. split; [unfold params_ok; lia|]. vm_compute. repeat split; reflexivity. Qed.

(* C40: the parameters a frame header supplies are in the range assumed above, for every
   image size, crop size and DC level. *)
Theorem C40_frame_header_dimensions : forall dx dy fx fy dc gs hs vs modular ups,
  1 <= dx < 2 ^ 32 -> 1 <= dy < 2 ^ 32 -> 0 <= fx < 2 ^ 32 -> 0 <= fy < 2 ^ 32 -> 0 <= dc <= 4 ->
  0 <= gs <= 3 -> 0 <= hs <= 3 -> 0 <= vs <= 3 -> ups = 1 \/ ups = 2 \/ ups = 4 \/ ups = 8 ->
  exists x y, params_ok x y gs hs vs ups /\
    to_frame_dimensions dx dy fx fy dc gs hs vs modular ups = fd_set x y gs hs vs modular ups /\
    rounded_up (2 ^ (3 * dc)) (if fx =? 0 then dx else fx) (2 ^ (3 * dc) * x) /\
    rounded_up (2 ^ (3 * dc)) (if fy =? 0 then dy else fy) (2 ^ (3 * dc) * y).
Proof. exact to_frame_dimensions_params. Qed.
Print Assumptions C40_frame_header_dimensions.

Example C40_header_case : to_frame_dimensions 1000 500 0 0 1 1 0 0 false 1 = fd_set 125 63 1 0 0 false 1.
Proof. reflexivity. Qed.
