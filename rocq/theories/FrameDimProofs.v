From Verif Require Import Base ListAux ContainerModel FrameDimModel FrameDimSpec.

Lemma w64_id x : 0 <= x < 2 ^ 64 -> w64 x = x.
Proof. intros. unfold w64. now apply Z.mod_small. Qed.

Lemma div_ceil_bounds a b : 0 < b -> 0 <= a -> a + b <= 2 ^ 64 ->
  a <= div_ceil a b * b < a + b /\ 0 <= div_ceil a b <= a.
Proof.
  intros Hb Ha Hs. unfold div_ceil. rewrite w64_id by lia.
  pose proof (Z.div_mod (a + b - 1) b ltac:(lia)) as E.
  pose proof (Z.mod_pos_bound (a + b - 1) b ltac:(lia)) as M.
  set (q := (a + b - 1) / b) in *. set (m := (a + b - 1) mod b) in *.
  rewrite (Z.mul_comm b q) in E. split; [lia|]. split.
  - apply Z.div_pos; lia.
  - destruct (Z.eq_dec a 0) as [->|Hne]; [unfold q; rewrite Z.div_small; lia|].
    apply Z.div_le_upper_bound; [lia|].
    assert (1 * (b - 1) <= a * (b - 1)) by (apply Z.mul_le_mono_nonneg_r; lia). lia.
Qed.

(* one axis: cells 0..n-1, segments of length d starting at multiples of d, k of them *)
Definition seg_size (i d n : Z) : Z := clamped_size (w64 (i * d)) d n.

Lemma seg_props i d n k : 0 < d -> d <= 2 ^ 32 -> 0 <= n < 2 ^ 62 -> (k - 1) * d < n -> 0 <= i < k ->
  w64 (i * d) = i * d /\ 0 <= i * d /\ seg_size i d n = Z.min d (n - i * d) /\ 0 < seg_size i d n /\ i * d + seg_size i d n <= n.
Proof.
  intros Hd Hd1 Hn Hk Hi.
  assert (0 <= i * d) by (apply Z.mul_nonneg_nonneg; lia).
  assert (i * d <= (k - 1) * d) by (apply Z.mul_le_mono_nonneg_r; lia).
  assert (w64 (i * d) = i * d) as E by (apply w64_id; lia).
  unfold seg_size, clamped_size. rewrite E, w64_id by lia.
  destruct (Z.leb_spec (i * d + d) n); [|destruct (Z.gtb_spec n (i * d))]; lia.
Qed.

Lemma seg_find d n k x : 0 < d -> n <= k * d -> 0 <= x < n -> 0 <= x / d < k /\ (x / d) * d <= x < (x / d) * d + d.
Proof.
  intros Hd Hk Hx. pose proof (Z.div_mod x d ltac:(lia)). pose proof (Z.mod_pos_bound x d ltac:(lia)).
  rewrite (Z.mul_comm d) in H. split; [|lia]. split; [apply Z.div_pos; lia|].
  apply Z.div_lt_upper_bound; [lia|]. rewrite Z.mul_comm. lia.
Qed.

Lemma div_unique_seg d i x : 0 < d -> i * d <= x < i * d + d -> i = x / d.
Proof. intros Hd H. apply Z.div_unique with (x - i * d); [lia|]. ring. Qed.

Lemma tiles_grid (r : Z -> rect) d w h kx ky :
  0 < d -> d <= 2 ^ 32 -> 0 <= w < 2 ^ 62 -> 0 <= h < 2 ^ 62 ->
  0 < kx -> 0 < ky ->
  (kx - 1) * d < w <= kx * d -> (ky - 1) * d < h <= ky * d ->
  (forall g, r g = rect_clamped (w64 ((g mod kx) * d)) (w64 ((g / kx) * d)) d d w h) ->
  tiles (kx * ky) r w h.
Proof.
  intros Hd Hd1 Hw Hh Hkx Hky Hx Hy Hr.
  assert (forall g, 0 <= g < kx * ky -> 0 <= g mod kx < kx /\ 0 <= g / kx < ky) as Hg.
  { intros g G. split; [apply Z.mod_pos_bound; lia|]. split; [apply Z.div_pos; lia|].
    apply Z.div_lt_upper_bound; lia. }
  split.
  - intros g G. destruct (Hg g G) as [G1 G2]. rewrite Hr. unfold rect_clamped. cbn [rx0 ry0 rxsize rysize].
    destruct (seg_props (g mod kx) d w kx Hd Hd1 Hw ltac:(lia) G1) as (E1 & P1 & S1 & Q1 & R1).
    destruct (seg_props (g / kx) d h ky Hd Hd1 Hh ltac:(lia) G2) as (E2 & P2 & S2 & Q2 & R2).
    unfold seg_size in *. rewrite E1, E2 in *. lia.
  - intros x y Hx' Hy'.
    destruct (seg_find d w kx x Hd ltac:(lia) Hx') as [X1 X2].
    destruct (seg_find d h ky y Hd ltac:(lia) Hy') as [Y1 Y2].
    set (i := x / d) in *. set (j := y / d) in *.
    assert ((j * kx + i) mod kx = i) as Em by (rewrite Z.add_comm, Z.mod_add by lia; apply Z.mod_small; lia).
    assert ((j * kx + i) / kx = j) as Ed by (rewrite Z.add_comm, Z.div_add by lia; rewrite Z.div_small by lia; lia).
    assert (0 <= j * kx + i < kx * ky) as Hgr.
    { assert (0 <= j * kx) by (apply Z.mul_nonneg_nonneg; lia).
      assert (j * kx <= (ky - 1) * kx) by (apply Z.mul_le_mono_nonneg_r; lia). lia. }
    exists (j * kx + i). split; [exact Hgr|]. split.
    + rewrite Hr, Em, Ed. unfold covers, rect_clamped. cbn [rx0 ry0 rxsize rysize].
      destruct (seg_props i d w kx Hd Hd1 Hw ltac:(lia) X1) as (E1 & P1 & S1 & Q1 & R1).
      destruct (seg_props j d h ky Hd Hd1 Hh ltac:(lia) Y1) as (E2 & P2 & S2 & Q2 & R2).
      unfold seg_size in *. rewrite E1, E2 in *. lia.
    + intros g G C. destruct (Hg g G) as [G1 G2]. rewrite Hr in C. unfold covers, rect_clamped in C. cbn [rx0 ry0 rxsize rysize] in C.
      destruct (seg_props (g mod kx) d w kx Hd Hd1 Hw ltac:(lia) G1) as (E1 & P1 & S1 & Q1 & R1).
      destruct (seg_props (g / kx) d h ky Hd Hd1 Hh ltac:(lia) G2) as (E2 & P2 & S2 & Q2 & R2).
      unfold seg_size in *. rewrite E1, E2 in *.
      assert (g mod kx = i) as A by (apply div_unique_seg; lia).
      assert (g / kx = j) as B by (apply div_unique_seg; lia).
      rewrite (Z.div_mod g kx) by lia. rewrite A, B. ring.
Qed.

Section Set_.
  Variables (xpx ypx gs hs vs ups : Z) (modular : bool).
  Hypothesis OK : params_ok xpx ypx gs hs vs ups.
  Let f := fd_set xpx ypx gs hs vs modular ups.

  Lemma group_dim_val : fd_group_dim f = 128 * 2 ^ gs /\ (2 ^ gs = 1 \/ 2 ^ gs = 2 \/ 2 ^ gs = 4 \/ 2 ^ gs = 8).
  Proof.
    destruct OK as (_ & _ & G & _). unfold f, fd_set, shl64. cbn [fd_group_dim].
    assert (gs = 0 \/ gs = 1 \/ gs = 2 \/ gs = 3) as [->|[->|[->| ->]]] by lia; split; try reflexivity; auto.
  Qed.

  Lemma pow_shift s : 0 <= s <= 3 -> 2 ^ s = 1 \/ 2 ^ s = 2 \/ 2 ^ s = 4 \/ 2 ^ s = 8.
  Proof. intros. assert (s = 0 \/ s = 1 \/ s = 2 \/ s = 3) as [->|[->|[->| ->]]] by lia; auto. Qed.

  Lemma size_bounds px s b : 1 <= px < 2 ^ 34 -> ups = 1 \/ ups = 2 \/ ups = 4 \/ ups = 8 -> 0 <= s <= 3 ->
    b = shl64 (div_ceil (div_ceil px ups) (shl64 8 s)) s ->
    let sz := div_ceil px ups in
    1 <= sz < 2 ^ 34 /\ px <= sz * ups < px + ups /\
    1 <= b < 2 ^ 35 /\ rounded_up (8 * 2 ^ s) sz (8 * b).
  Proof.
    intros Hp Hu Hs -> sz.
    destruct (div_ceil_bounds px ups ltac:(lia) ltac:(lia) ltac:(lia)) as [B1 B2]. fold sz in B1, B2.
    assert (1 <= sz) by (destruct (Z.le_gt_cases 1 sz); [assumption|]; assert (sz = 0) by lia; lia).
    pose proof (pow_shift s Hs) as Hpw.
    assert (shl64 8 s = 8 * 2 ^ s) as E8.
    { unfold shl64. rewrite Z.shiftl_mul_pow2 by lia. apply w64_id. lia. }
    rewrite E8. destruct (div_ceil_bounds sz (8 * 2 ^ s) ltac:(lia) ltac:(lia) ltac:(lia)) as [B3 B4].
    set (q := div_ceil sz (8 * 2 ^ s)) in *.
    assert (q * (8 * 2 ^ s) = 8 * (q * 2 ^ s)) as Eq by ring. rewrite Eq in B3.
    assert (shl64 q s = q * 2 ^ s) as E9.
    { unfold shl64. rewrite Z.shiftl_mul_pow2 by lia. apply w64_id. lia. }
    fold sz. fold q. rewrite E9. split; [lia|split; [lia|split; [lia|]]]. split; [lia|]. exists q. ring.
  Qed.

  (* number of groups of d cells along an axis of n cells *)
  Lemma groups_bounds n d : 1 <= n < 2 ^ 40 -> 0 < d < 2 ^ 32 ->
    (div_ceil n d - 1) * d < n <= div_ceil n d * d /\ 0 < div_ceil n d <= n.
  Proof.
    intros Hn Hd. destruct (div_ceil_bounds n d ltac:(lia) ltac:(lia) ltac:(lia)) as [B1 B2].
    rewrite Z.mul_sub_distr_r. split; [lia|].
    split; [|lia]. destruct (Z.le_gt_cases (div_ceil n d) 0); [|lia].
    assert (div_ceil n d = 0) by lia. rewrite H0 in B1. lia.
  Qed.

  (* Facts about both axes at once *)
  Lemma set_facts :
    params_ok xpx ypx gs hs vs ups /\
    (fd_xsize f = div_ceil xpx ups /\ fd_ysize f = div_ceil ypx ups) /\
    1 <= fd_xsize f < 2 ^ 34 /\ 1 <= fd_ysize f < 2 ^ 34 /\
    xpx <= fd_xsize f * ups < xpx + ups /\ ypx <= fd_ysize f * ups < ypx + ups /\
    1 <= fd_xsize_blocks f < 2 ^ 35 /\ 1 <= fd_ysize_blocks f < 2 ^ 35 /\
    rounded_up (8 * 2 ^ hs) (fd_xsize f) (8 * fd_xsize_blocks f) /\
    rounded_up (8 * 2 ^ vs) (fd_ysize f) (8 * fd_ysize_blocks f).
  Proof.
    split; [exact OK|]. destruct OK as (P1 & P2 & P3 & P4 & P5 & P6).
    split; [split; reflexivity|].
    destruct (size_bounds xpx hs (fd_xsize_blocks f) P1 P6 P4 eq_refl) as (A1 & A2 & A3 & A4).
    destruct (size_bounds ypx vs (fd_ysize_blocks f) P2 P6 P5 eq_refl) as (B1 & B2 & B3 & B4).
    cbv zeta in *. change (fd_xsize f) with (div_ceil xpx ups). change (fd_ysize f) with (div_ceil ypx ups).
    split; [exact A1|split; [exact B1|split; [exact A2|split; [exact B2|split; [exact A3|split; [exact B3|split; [exact A4|exact B4]]]]]]].
  Qed.

  Lemma padded_sizes :
    (modular = true -> fd_xsize_padded f = fd_xsize f /\ fd_ysize_padded f = fd_ysize f) /\
    (modular = false -> fd_xsize_padded f = 8 * fd_xsize_blocks f /\ fd_ysize_padded f = 8 * fd_ysize_blocks f) /\
    fd_xsize_upsampled_padded f = fd_xsize_padded f * ups /\
    fd_ysize_upsampled_padded f = fd_ysize_padded f * ups /\
    fd_xsize_upsampled f = xpx /\ fd_ysize_upsampled f = ypx.
  Proof.
    destruct set_facts as (P & _ & S1 & S2 & _ & _ & B1 & B2 & _).
    destruct P as (_ & _ & _ & _ & _ & P6).
    assert (fd_xsize_padded f = if modular then fd_xsize f else 8 * fd_xsize_blocks f) as E1.
    { unfold f at 1. unfold fd_set. cbn [fd_xsize_padded]. destruct modular; [reflexivity|].
      change (shl64 (div_ceil (div_ceil xpx ups) (shl64 8 hs)) hs) with (fd_xsize_blocks f). rewrite w64_id; lia. }
    assert (fd_ysize_padded f = if modular then fd_ysize f else 8 * fd_ysize_blocks f) as E2.
    { unfold f at 1. unfold fd_set. cbn [fd_ysize_padded]. destruct modular; [reflexivity|].
      change (shl64 (div_ceil (div_ceil ypx ups) (shl64 8 vs)) vs) with (fd_ysize_blocks f). rewrite w64_id; lia. }
    split; [intros E; rewrite E1, E2; rewrite E; auto|].
    split; [intros E; rewrite E1, E2; rewrite E; auto|].
    change (fd_xsize_upsampled_padded f) with (w64 (fd_xsize_padded f * ups)).
    change (fd_ysize_upsampled_padded f) with (w64 (fd_ysize_padded f * ups)).
    assert (0 <= fd_xsize_padded f < 2 ^ 38) by (rewrite E1; destruct modular; lia).
    assert (0 <= fd_ysize_padded f < 2 ^ 38) by (rewrite E2; destruct modular; lia).
    split; [apply w64_id; lia|]. split; [apply w64_id; lia|]. split; reflexivity.
  Qed.

  Lemma mul_fits a b : 0 <= a < 2 ^ 30 -> 0 <= b < 2 ^ 30 -> w64 (a * b) = a * b.
  Proof.
    intros Ha Hb. apply w64_id. split; [apply Z.mul_nonneg_nonneg; lia|].
    apply Z.le_lt_trans with (2 ^ 30 * b); [apply Z.mul_le_mono_nonneg_r; lia|lia].
  Qed.

  Lemma small_groups n d k : 1 <= n < 2 ^ 36 -> 128 <= d < 2 ^ 32 -> 0 < k -> (k - 1) * d < n -> k < 2 ^ 30.
  Proof.
    intros Hn Hd Hk H.
    assert ((k - 1) * 128 <= (k - 1) * d) by (apply Z.mul_le_mono_nonneg_l; lia). lia.
  Qed.

  Lemma groups_tile : tiles (fd_num_groups f) (group_rect f) (fd_xsize f) (fd_ysize f) /\
    fd_num_groups f = fd_xsize_groups f * fd_ysize_groups f.
  Proof.
    destruct set_facts as (P & _ & S1 & S2 & _).
    destruct group_dim_val as [GD GP].
    destruct (groups_bounds (fd_xsize f) (fd_group_dim f) ltac:(lia) ltac:(lia)) as [A1 A2].
    destruct (groups_bounds (fd_ysize f) (fd_group_dim f) ltac:(lia) ltac:(lia)) as [B1 B2].
    change (div_ceil (fd_xsize f) (fd_group_dim f)) with (fd_xsize_groups f) in *.
    change (div_ceil (fd_ysize f) (fd_group_dim f)) with (fd_ysize_groups f) in *.
    assert (fd_num_groups f = fd_xsize_groups f * fd_ysize_groups f) as EN.
    { change (fd_num_groups f) with (w64 (fd_xsize_groups f * fd_ysize_groups f)).
      apply mul_fits.
      - split; [lia|]. apply small_groups with (fd_xsize f) (fd_group_dim f); lia.
      - split; [lia|]. apply small_groups with (fd_ysize f) (fd_group_dim f); lia. }
    split; [|exact EN]. rewrite EN.
    apply tiles_grid with (d := fd_group_dim f); try lia. intros g. reflexivity.
  Qed.

  Lemma dc_groups_tile : tiles (fd_num_dc_groups f) (dc_group_rect f) (fd_xsize_blocks f) (fd_ysize_blocks f) /\
    fd_num_dc_groups f = fd_xsize_dc_groups f * fd_ysize_dc_groups f.
  Proof.
    destruct set_facts as (P & _ & S1 & S2 & _ & _ & C1 & C2 & _).
    destruct group_dim_val as [GD GP].
    destruct (groups_bounds (fd_xsize_blocks f) (fd_group_dim f) ltac:(lia) ltac:(lia)) as [A1 A2].
    destruct (groups_bounds (fd_ysize_blocks f) (fd_group_dim f) ltac:(lia) ltac:(lia)) as [B1 B2].
    change (div_ceil (fd_xsize_blocks f) (fd_group_dim f)) with (fd_xsize_dc_groups f) in *.
    change (div_ceil (fd_ysize_blocks f) (fd_group_dim f)) with (fd_ysize_dc_groups f) in *.
    assert (fd_num_dc_groups f = fd_xsize_dc_groups f * fd_ysize_dc_groups f) as EN.
    { change (fd_num_dc_groups f) with (w64 (fd_xsize_dc_groups f * fd_ysize_dc_groups f)).
      apply mul_fits.
      - split; [lia|]. apply small_groups with (fd_xsize_blocks f) (fd_group_dim f); lia.
      - split; [lia|]. apply small_groups with (fd_ysize_blocks f) (fd_group_dim f); lia. }
    split; [|exact EN]. rewrite EN.
    apply tiles_grid with (d := fd_group_dim f); try lia. intros g. reflexivity.
  Qed.

  (* blocks along one axis, groups of 16 * 2^gs blocks *)
  Lemma block_axis n b s k : 0 <= s <= 3 -> rounded_up (8 * 2 ^ s) n (8 * b) ->
    (k - 1) * (128 * 2 ^ gs) < n <= k * (128 * 2 ^ gs) ->
    (k - 1) * (16 * 2 ^ gs) < b <= k * (16 * 2 ^ gs).
  Proof.
    intros Hs [R1 [c Hc]] K. pose proof (pow_shift s Hs) as Hpw.
    destruct group_dim_val as [_ Hg].
    assert ((k - 1) * (128 * 2 ^ gs) = 8 * ((k - 1) * (16 * 2 ^ gs))) as E1 by ring.
    assert (k * (128 * 2 ^ gs) = 8 * (k * (16 * 2 ^ gs))) as E2 by ring.
    split; [lia|].
    assert (exists m, k * (128 * 2 ^ gs) = m * (8 * 2 ^ s)) as [m Hm].
    { destruct Hpw as [->|[->|[->| ->]]].
      - exists (k * (16 * 2 ^ gs)); ring.
      - exists (k * (8 * 2 ^ gs)); ring.
      - exists (k * (4 * 2 ^ gs)); ring.
      - exists (k * (2 * 2 ^ gs)); ring. }
    assert (c <= m); [|assert (c * (8 * 2 ^ s) <= m * (8 * 2 ^ s)) by (apply Z.mul_le_mono_nonneg_r; lia); lia].
    destruct (Z.le_gt_cases c m); [assumption|].
    assert ((m + 1) * (8 * 2 ^ s) <= c * (8 * 2 ^ s)) by (apply Z.mul_le_mono_nonneg_r; lia). lia.
  Qed.

  Lemma block_groups_tile : tiles (fd_num_groups f) (block_group_rect f) (fd_xsize_blocks f) (fd_ysize_blocks f).
  Proof.
    destruct set_facts as (P & _ & S1 & S2 & _ & _ & C1 & C2 & R1 & R2).
    destruct P as (_ & _ & P3 & P4 & P5 & _).
    destruct group_dim_val as [GD GP]. destruct groups_tile as [_ EN]. rewrite EN.
    destruct (groups_bounds (fd_xsize f) (fd_group_dim f) ltac:(lia) ltac:(lia)) as [A1 A2].
    destruct (groups_bounds (fd_ysize f) (fd_group_dim f) ltac:(lia) ltac:(lia)) as [B1 B2].
    change (div_ceil (fd_xsize f) (fd_group_dim f)) with (fd_xsize_groups f) in *.
    change (div_ceil (fd_ysize f) (fd_group_dim f)) with (fd_ysize_groups f) in *.
    rewrite GD in A1, B1.
    assert (Z.shiftr (fd_group_dim f) 3 = 16 * 2 ^ gs) as E3.
    { rewrite Z.shiftr_div_pow2 by lia. change (2 ^ 3) with 8. lia. }
    apply tiles_grid with (d := 16 * 2 ^ gs); try lia.
    - apply block_axis with (n := fd_xsize f) (s := hs); assumption.
    - apply block_axis with (n := fd_ysize f) (s := vs); assumption.
    - intros g. unfold block_group_rect. now rewrite E3.
  Qed.
End Set_.

Lemma to_frame_dimensions_params dx dy fx fy dc gs hs vs modular ups :
  1 <= dx < 2 ^ 32 -> 1 <= dy < 2 ^ 32 -> 0 <= fx < 2 ^ 32 -> 0 <= fy < 2 ^ 32 -> 0 <= dc <= 4 ->
  0 <= gs <= 3 -> 0 <= hs <= 3 -> 0 <= vs <= 3 -> ups = 1 \/ ups = 2 \/ ups = 4 \/ ups = 8 ->
  exists x y, params_ok x y gs hs vs ups /\
    to_frame_dimensions dx dy fx fy dc gs hs vs modular ups = fd_set x y gs hs vs modular ups /\
    rounded_up (2 ^ (3 * dc)) (if fx =? 0 then dx else fx) (2 ^ (3 * dc) * x) /\
    rounded_up (2 ^ (3 * dc)) (if fy =? 0 then dy else fy) (2 ^ (3 * dc) * y).
Proof.
  intros Hdx Hdy Hfx Hfy Hdc Hg Hh Hv Hu. unfold to_frame_dimensions.
  set (x := if fx =? 0 then dx else fx). set (y := if fy =? 0 then dy else fy).
  assert (1 <= x < 2 ^ 32) as Hx by (unfold x; destruct (Z.eqb_spec fx 0); lia).
  assert (1 <= y < 2 ^ 32) as Hy by (unfold y; destruct (Z.eqb_spec fy 0); lia).
  assert (forall z, 1 <= z < 2 ^ 32 ->
    exists q, (if dc =? 0 then z else div_ceil z (Z.shiftl 1 (3 * dc))) = q /\ 1 <= q < 2 ^ 34 /\
    rounded_up (2 ^ (3 * dc)) z (2 ^ (3 * dc) * q)) as Q.
  { intros z Hz. assert (0 < 2 ^ (3 * dc) <= 4096) as Hp.
    { assert (dc = 0 \/ dc = 1 \/ dc = 2 \/ dc = 3 \/ dc = 4) as [->|[->|[->|[->| ->]]]] by lia; cbn; lia. }
    destruct (Z.eqb_spec dc 0) as [->|].
    - exists z. split; [reflexivity|]. split; [lia|]. change (2 ^ (3 * 0)) with 1. split; [lia|apply Z.divide_1_l].
    - rewrite Z.shiftl_mul_pow2, Z.mul_1_l by lia. set (k := 2 ^ (3 * dc)) in *.
      destruct (div_ceil_bounds z k ltac:(lia) ltac:(lia) ltac:(lia)) as [B1 B2].
      exists (div_ceil z k). split; [reflexivity|]. rewrite (Z.mul_comm k).
      split; [|split; [lia|now exists (div_ceil z k)]]. split; [|lia].
      destruct (Z.le_gt_cases 1 (div_ceil z k)); [assumption|]. assert (div_ceil z k = 0) as E by lia. rewrite E in B1. lia. }
  destruct (Q x Hx) as (qx & -> & Qx & Rx). destruct (Q y Hy) as (qy & -> & Qy & Ry).
  exists qx, qy. split; [|split; [reflexivity|split; assumption]].
  unfold params_ok. lia.
Qed.

Lemma derived_sizes xpx ypx gs hs vs ups modular : params_ok xpx ypx gs hs vs ups ->
  let f := fd_set xpx ypx gs hs vs modular ups in
  (xpx <= fd_xsize f * ups < xpx + ups /\ ypx <= fd_ysize f * ups < ypx + ups) /\
  rounded_up (8 * 2 ^ hs) (fd_xsize f) (8 * fd_xsize_blocks f) /\
  rounded_up (8 * 2 ^ vs) (fd_ysize f) (8 * fd_ysize_blocks f) /\
  (modular = true -> fd_xsize_padded f = fd_xsize f /\ fd_ysize_padded f = fd_ysize f) /\
  (modular = false -> fd_xsize_padded f = 8 * fd_xsize_blocks f /\ fd_ysize_padded f = 8 * fd_ysize_blocks f) /\
  fd_xsize_upsampled_padded f = fd_xsize_padded f * ups /\
  fd_ysize_upsampled_padded f = fd_ysize_padded f * ups.
Proof.
  intros OK f.
  destruct (set_facts xpx ypx gs hs vs ups modular OK) as (_ & _ & _ & _ & A & B & _ & _ & C & D).
  destruct (padded_sizes xpx ypx gs hs vs ups modular OK) as (E & F & G & H & _).
  fold f in A, B, C, D, E, F, G, H. auto 10.
Qed.
