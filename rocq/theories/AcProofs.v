(** * AC coefficients: contexts stay in their maps, blocks come back *)
From Coq Require Import ZArith List Bool Lia Permutation.
From Verif Require Import Base FieldsModel FieldsProofs AcModel AcSpec.
Import ListNotations.
Local Open Scope Z_scope.
Ltac Zify.zify_post_hook ::= idtac.

Lemma in_range n : forall k x, In x (range k n) <-> k <= x < k + Z.of_nat n.
Proof.
  induction n as [|n IH]; intros k x; cbn [range In]; [lia|].
  rewrite IH. lia.
Qed.

Lemma range_app a : forall k b, range k (a + b) = range k a ++ range (k + Z.of_nat a) b.
Proof.
  induction a as [|a IH]; intros k b; cbn [range app Nat.add].
  - f_equal; lia.
  - f_equal. rewrite IH. f_equal. f_equal. lia.
Qed.

Lemma range_nodup n : forall k, NoDup (range k n).
Proof.
  induction n as [|n IH]; intros k; cbn [range]; constructor; auto.
  rewrite in_range; lia.
Qed.

(** ** The block context *)

Definition inv (m : bctx) : Prop :=
  ndc m = (zlen (dct0 m) + 1) * (zlen (dct1 m) + 1) * (zlen (dct2 m) + 1) /\
  ndc m * (zlen (qft m) + 1) <= 64 /\
  zlen (cmap m) = 39 * ndc m * (zlen (qft m) + 1) /\
  Forall (fun x => 0 <= x < nctx m) (cmap m) /\ nctx m <= 16.

Lemma usable_inv m : usable m -> inv m.
Proof.
  intros [-> | (d0 & d1 & d2 & q & rm & Hg & H)].
  - unfold inv. repeat split; try reflexivity; try (cbn; lia).
    cbn [cmap default_bctx nctx]. unfold default_map. repeat constructor; lia.
  - unfold decode_bctx in H. rewrite Z.mul_1_l in H. cbv zeta in H.
    remember ((zlen d0 + 1) * (zlen d1 + 1) * (zlen d2 + 1)) as n eqn:En.
    destruct (_ >? 64) eqn:E1; [discriminate|].
    destruct (rm _) as [[l k]|] eqn:E2; [|discriminate].
    destruct (k >? 16) eqn:E3; [discriminate|].
    injection H as <-. apply Hg in E2. destruct E2 as [El Ef].
    unfold inv. cbn [ndc dct0 dct1 dct2 qft cmap nctx].
    unfold num_orders in El. split; [exact En|]. split; [lia|]. split; [rewrite El; ring|]. split; [assumption | lia].
Qed.

Lemma zlen_nonneg {A} (l : list A) : 0 <= zlen l.
Proof. unfold zlen; lia. Qed.

Lemma above_range v l : 0 <= above v l <= zlen l.
Proof.
  unfold above, zlen. induction l as [|a l IH]; cbn [filter length]; [lia|].
  destruct (v >? a); cbn [length]; lia.
Qed.

Lemma ndc_pos m : inv m -> 1 <= ndc m.
Proof.
  intros (-> & _). pose proof (zlen_nonneg (dct0 m)). pose proof (zlen_nonneg (dct1 m)).
  pose proof (zlen_nonneg (dct2 m)). nia.
Qed.

Lemma mix a n b : 0 <= a < n -> forall k, 0 <= b < k -> 0 <= a * k + b < n * k.
Proof. intros; nia. Qed.

Lemma dc_bucket_range m x y b : inv m -> 0 <= dc_bucket m x y b < ndc m.
Proof.
  intros Hi. pose proof (ndc_pos m Hi) as Hp. unfold dc_bucket.
  destruct (ndc m <=? 1) eqn:E; [lia|].
  destruct Hi as (Hn & Hq & _).
  pose proof (zlen_nonneg (qft m)).
  assert (ndc m <= 64) by nia.
  pose proof (above_range x (dct0 m)). pose proof (above_range y (dct1 m)). pose proof (above_range b (dct2 m)).
  assert (H4 := mix (above x (dct0 m)) (zlen (dct0 m) + 1) (above b (dct2 m)) ltac:(lia) (zlen (dct2 m) + 1) ltac:(lia)).
  assert (H5 := mix _ _ (above y (dct1 m)) H4 (zlen (dct1 m) + 1) ltac:(lia)).
  replace ((zlen (dct0 m) + 1) * (zlen (dct2 m) + 1) * (zlen (dct1 m) + 1)) with (ndc m) in H5 by (rewrite Hn; ring).
  rewrite Z.mod_small by lia. lia.
Qed.

Lemma context_some m v : inv m -> well_formed m v ->
  exists bc, context m (v_dc v) (v_qf v) (v_ord v) (v_c v) = Some bc /\ 0 <= bc < nctx m /\ nctx m <= 16.
Proof.
  intros Hi (_ & _ & _ & Hc & Ho & (x & y & b & Hd) & _).
  pose proof (dc_bucket_range m x y b Hi) as Hb. rewrite <- Hd in Hb.
  destruct Hi as (Hn & Hq & Hl & Hf & H16).
  unfold context. cbv zeta.
  set (i0 := if v_c v <? 2 then Z.lxor (v_c v) 1 else 2).
  assert (H0 : 0 <= i0 < 3).
  { unfold i0. assert (v_c v = 0 \/ v_c v = 1 \/ v_c v = 2) as [-> | [-> | ->]] by lia; cbn; lia. }
  pose proof (above_range (w32 (v_qf v)) (qft m)) as Ha.
  assert (H1 := mix i0 3 (v_ord v) H0 num_orders Ho).
  assert (H2 := mix _ _ (above (w32 (v_qf v)) (qft m)) H1 (zlen (qft m) + 1) ltac:(lia)).
  assert (H3 := mix _ _ (v_dc v) H2 (ndc m) Hb).
  replace (3 * num_orders * (zlen (qft m) + 1) * ndc m) with (zlen (cmap m)) in H3 by (rewrite Hl; unfold num_orders; ring).
  set (idx := (_ + v_dc v)) in *. clearbody idx.
  destruct (idx <? 0) eqn:E; [lia|].
  destruct (nth_error (cmap m) (Z.to_nat idx)) as [bc|] eqn:En.
  - exists bc. split; [reflexivity|]. apply nth_error_In in En. rewrite Forall_forall in Hf. split; [auto | lia].
  - apply nth_error_None in En. unfold zlen in H3. lia.
Qed.

(** ** Contexts of numbers *)

Definition zd_ok (nz k : Z) : bool :=
  match nth_error coeff_nonzero (Z.to_nat nz), nth_error coeff_freq (Z.to_nat k) with
  | Some a, Some b => (0 <=? a + b) && ((a + b) * 2 + 1 <? zd_limit) && ((64 <? nz + k) || ((a + b) * 2 + 1 <? zd_count))
  | _, _ => false
  end.

Lemma zd_table : forallb (fun nz => forallb (zd_ok nz) (range 1 63)) (range 1 63) = true.
Proof. vm_compute. reflexivity. Qed.

Lemma zd_range cov nz k prev : 0 < cov -> 0 < nz <= 63 * cov -> cov <= k < 64 * cov -> (prev = 0 \/ prev = 1) ->
  exists z, zd_context nz k cov prev = Some z /\ 0 <= z < zd_limit /\ (nz + k <= 64 * cov -> z < zd_count).
Proof.
  intros Hc Hn Hk Hp. unfold zd_context. cbv zeta.
  assert (H1 : 1 <= (nz + cov - 1) / cov < 64).
  { split; [apply Z.div_le_lower_bound; lia | apply Z.div_lt_upper_bound; lia]. }
  assert (H2 : 1 <= k / cov < 64).
  { split; [apply Z.div_le_lower_bound; lia | apply Z.div_lt_upper_bound; lia]. }
  assert (H3 : nz + k <= 64 * cov -> (nz + cov - 1) / cov + k / cov <= 64).
  { intros H. pose proof (Z.mul_div_le k cov Hc).
    assert ((nz + cov - 1) / cov < 64 - k / cov + 1) by (apply Z.div_lt_upper_bound; nia). lia. }
  set (a := (nz + cov - 1) / cov) in *. set (q := k / cov) in *. clearbody a q.
  pose proof zd_table as Ht. rewrite forallb_forall in Ht.
  specialize (Ht a ltac:(apply in_range; lia)). rewrite forallb_forall in Ht.
  specialize (Ht q ltac:(apply in_range; lia)). unfold zd_ok in Ht.
  destruct (a <? 0) eqn:E1; [lia|]. destruct (q <? 0) eqn:E2; [lia|]. cbn [orb].
  destruct (nth_error coeff_nonzero _) as [x|]; [|discriminate].
  destruct (nth_error coeff_freq _) as [y|]; [|discriminate].
  apply andb_prop in Ht. destruct Ht as [Ht H5]. apply andb_prop in Ht. destruct Ht as [H6 H7].
  apply Z.leb_le in H6. apply Z.ltb_lt in H7. apply orb_prop in H5.
  eexists. split; [reflexivity|]. split; [lia|].
  intros H. specialize (H3 H). destruct H5 as [H5|H5]; apply Z.ltb_lt in H5; lia.
Qed.

Lemma nonzero_range m p bc : 0 <= bc < nctx m -> nctx m <= 16 ->
  0 <= nonzero_context m p bc /\ nonzero_context m p bc < 37 * nctx m.
Proof.
  intros Hb Hn. unfold nonzero_context. cbv zeta.
  assert (H0 : 0 <= w32 p) by (unfold w32; apply Z.mod_pos_bound; lia).
  set (q := if w32 p >=? 64 then 64 else w32 p).
  assert (Hq : 0 <= q <= 64) by (unfold q; destruct (w32 p >=? 64) eqn:E; lia).
  clearbody q.
  assert (Hx : 0 <= (if q <? 8 then q else 4 + q / 2) <= 36).
  { destruct (q <? 8) eqn:E; [lia|].
    assert (0 <= q / 2) by (apply Z.div_pos; lia).
    assert (q / 2 < 33) by (apply Z.div_lt_upper_bound; lia). lia. }
  set (x := if q <? 8 then _ else _) in *. clearbody x.
  unfold w32. rewrite Z.mod_small by nia. nia.
Qed.

Lemma zd_offset_eq m bc : 0 <= bc < nctx m -> nctx m <= 16 -> zd_offset m bc = 37 * nctx m + 458 * bc.
Proof. intros. unfold zd_offset, w32, buckets, zd_count. rewrite Z.mod_small by nia. lia. Qed.

Lemma num_ac_eq m : 0 <= nctx m <= 16 -> num_ac m = 495 * nctx m.
Proof. intros. unfold num_ac, w32, buckets, zd_count. rewrite Z.mod_small by nia. lia. Qed.

Lemma covered_pos m v : well_formed m v -> 0 < v_cx v /\ 0 < v_cy v /\ 0 < covered v /\ covered v <= 1024 /\ v_cx v <= 32 /\ v_cy v <= 32.
Proof.
  intros ((a & b & Ha & Hb & Hx & Hy) & _). unfold covered.
  assert (0 < v_cx v <= 32).
  { rewrite Hx. split; [apply Z.pow_pos_nonneg; lia | apply (Z.pow_le_mono_r 2 a 5); lia]. }
  assert (0 < v_cy v <= 32).
  { rewrite Hy. split; [apply Z.pow_pos_nonneg; lia | apply (Z.pow_le_mono_r 2 b 5); lia]. }
  nia.
Qed.

Lemma order_range m v k : well_formed m v -> 0 <= k < bsize v -> 0 <= v_order v k < bsize v.
Proof.
  intros (_ & _ & _ & _ & _ & _ & H) Hk. rewrite Forall_forall in H. apply H. apply in_range. lia.
Qed.

Lemma s32_small x : 0 <= x < 2 ^ 31 -> s32 x = x.
Proof. intros. unfold s32. rewrite Z.mod_small by lia. lia. Qed.

(** ** Decoding anything *)

Section Any.
Variable S : Type.
Variable read : S -> Z -> Z * S.
Hypothesis Hread : forall st c, is_u32 (fst (read st c)).
Variables mapsize offset bits shift : Z.

Lemma dec_loop_safe n : forall k nz prev histo cov order b st,
  0 < cov -> cov <= k -> k + Z.of_nat n = 64 * cov -> 0 <= nz <= 63 * cov -> (prev = 0 \/ prev = 1) ->
  0 <= histo -> histo + zd_limit <= mapsize ->
  (forall j, 0 <= j < 64 * cov -> 0 <= order j < 64 * cov) ->
  dec_loop S read mapsize bits shift n k nz prev histo cov (64 * cov) order b st <> Stray.
Proof.
  induction n as [|n IH]; intros k nz prev histo cov order b st Hc Hk Hn Hz Hp Hh Hm Ho; cbn [dec_loop]; [discriminate|].
  destruct (nz =? 0) eqn:E0; [discriminate|].
  destruct (zd_range cov nz k prev Hc ltac:(lia) ltac:(lia) Hp) as (z & -> & Hz1 & _).
  destruct (mapsize <=? histo + z) eqn:E1; [lia|].
  pose proof (Hread st (histo + z)) as Hr.
  destruct (read st (histo + z)) as [u st']. cbn [fst] in Hr. cbv zeta.
  pose proof (Ho k ltac:(lia)) as Hok.
  destruct (order k <? 0) eqn:E2; [lia|]. destruct (64 * cov <=? order k) eqn:E3; [lia|]. cbn [orb].
  apply IH; try assumption; destruct (u =? 0); lia.
Qed.

Lemma dec_block_safe m v f b st num_hist cur :
  inv m -> well_formed m v -> 0 <= cur < num_hist -> num_hist * num_ac m <= 2 ^ 31 ->
  mapsize = num_hist * num_ac m + (zd_limit - zd_count) -> offset = cur * num_ac m ->
  dec_block S read mapsize offset bits shift m v f b st <> Stray.
Proof.
  intros Hi Hw Hcur Hn Hm Ho.
  destruct (context_some m v Hi Hw) as (bc & Hbc & Hb & H16).
  unfold dec_block. cbv zeta. rewrite Hbc.
  pose proof (num_ac_eq m ltac:(lia)) as Hna.
  pose proof (nonzero_range m (predict f (v_x v) (v_y v)) bc Hb H16) as Hz.
  set (nc := nonzero_context _ _ _) in *. clearbody nc.
  assert (Hs : offset + num_ac m <= num_hist * num_ac m) by nia.
  assert (0 <= offset) by nia.
  assert (0 <= nc + offset < 2 ^ 31) by lia.
  rewrite s32_small by assumption. change (zd_limit - zd_count) with 16 in Hm.
  destruct (nc + offset <? 0) eqn:E1; [lia|]. destruct (mapsize <=? nc + offset) eqn:E2; [lia|]. cbn [orb].
  pose proof (Hread st (nc + offset)) as Hr.
  destruct (read st (nc + offset)) as [nz st']. cbn [fst] in Hr.
  destruct (nz >? bsize v - covered v) eqn:E3; [discriminate|].
  destruct (covered_pos m v Hw) as (_ & _ & Hcp & Hcl & _).
  assert (Hl : dec_loop S read mapsize bits shift (Z.to_nat (bsize v - covered v)) (covered v) nz
    (if nz >? bsize v / 16 then 0 else 1) (offset + zd_offset m bc) (covered v) (bsize v) (v_order v) b st' <> Stray).
  { replace (bsize v) with (64 * covered v) at 3 by (unfold bsize; lia).
    apply dec_loop_safe; auto; try (unfold bsize in *; unfold is_u32 in Hr; lia).
    - destruct (nz >? bsize v / 16); lia.
    - rewrite zd_offset_eq by assumption. lia.
    - rewrite zd_offset_eq by assumption. change zd_limit with 474. lia.
    - intros j Hj. replace (64 * covered v) with (bsize v) by (unfold bsize; lia).
      apply (order_range m); auto. unfold bsize; lia. }
  destruct (dec_loop _ _ _ _ _ _ _ _ _ _ _ _ _ _ _) as [[[l2 b2] st2]| |]; try discriminate; [|congruence].
  destruct (l2 =? 0); discriminate.
Qed.

Lemma dec_blocks_safe m num_hist cur :
  inv m -> 0 <= cur < num_hist -> num_hist * num_ac m <= 2 ^ 31 ->
  mapsize = num_hist * num_ac m + (zd_limit - zd_count) -> offset = cur * num_ac m ->
  forall l f st, Forall (well_formed m) l -> dec_blocks S read mapsize offset bits shift m l f st <> Stray.
Proof.
  intros Hi Hcur Hn Hm Ho. induction l as [|v l IH]; intros f st Hl; cbn [dec_blocks]; [discriminate|].
  inversion_clear Hl as [|? ? Hv Hl'].
  pose proof (dec_block_safe m v (f (v_c v)) zeros st num_hist cur Hi Hv Hcur Hn Hm Ho) as H1.
  destruct (dec_block _ _ _ _ _ _ _ _ _ _ _) as [[[g b] st']| |]; try discriminate; [|congruence].
  specialize (IH (fun c => if c =? v_c v then g else f c) st' Hl').
  destruct (dec_blocks _ _ _ _ _ _ _ _ _ _) as [[bs st2]| |]; try discriminate. congruence.
Qed.
End Any.

(** ** The round trip *)

Definition cnt (order b : Z -> Z) (k : Z) (n : nat) : Z :=
  zlen (filter (fun j => negb (b (order j) =? 0)) (range k n)).

Lemma cnt_S order b k n : cnt order b k (Datatypes.S n) = (if b (order k) =? 0 then 0 else 1) + cnt order b (k + 1) n.
Proof.
  unfold cnt, zlen. cbn [range filter]. destruct (b (order k) =? 0); cbn [negb length]; lia.
Qed.

Lemma cnt_range order b n : forall k, 0 <= cnt order b k n <= Z.of_nat n.
Proof.
  induction n as [|n IH]; intros k; [cbn; lia|]. rewrite cnt_S. specialize (IH (k + 1)).
  destruct (b (order k) =? 0); lia.
Qed.

Lemma cnt_zero order b n : forall k, cnt order b k n = 0 -> forall j, k <= j < k + Z.of_nat n -> b (order j) = 0.
Proof.
  induction n as [|n IH]; intros k H j Hj; [lia|].
  rewrite cnt_S in H. pose proof (cnt_range order b n (k + 1)).
  destruct (b (order k) =? 0) eqn:E; [|lia].
  destruct (Z.eq_dec j k) as [->|]; [lia|]. apply (IH (k + 1)); lia.
Qed.

Lemma wrap_id bits v : 1 <= bits -> - 2 ^ (bits - 1) <= v < 2 ^ (bits - 1) -> wrap bits v = v.
Proof.
  intros Hb Hv. unfold wrap.
  replace (2 ^ bits) with (2 * 2 ^ (bits - 1)) by (rewrite <- Z.pow_succ_r by lia; f_equal; lia).
  rewrite Z.mod_small by lia. lia.
Qed.

Definition fits (bits : Z) (b : Z -> Z) : Prop := forall i, - 2 ^ (bits - 1) <= b i < 2 ^ (bits - 1).

Lemma fits_i32 bits b i : 1 <= bits <= 32 -> fits bits b -> is_i32 (b i).
Proof.
  intros Hb H. specialize (H i). unfold is_i32.
  assert (2 ^ (bits - 1) <= 2 ^ 31) by (apply Z.pow_le_mono_r; lia). lia.
Qed.

Lemma pack_zero v : is_i32 v -> (pack_signed v =? 0) = (v =? 0).
Proof.
  intros H. rewrite pack_signed_spec by assumption.
  destruct (v =? 0) eqn:E; destruct (0 <=? v) eqn:E2; lia.
Qed.

Definition tok_ok (lim : Z) (t : token) : Prop := 0 <= fst t < lim /\ is_u32 (snd t).

Lemma loop_trip bits mapsize off lim order b cov histo : 1 <= bits <= 32 -> fits bits b -> 0 < cov ->
  0 <= histo -> histo + zd_count <= lim -> lim <= 2 ^ 31 -> 0 <= off -> off + lim <= mapsize ->
  (forall j, 0 <= j < 64 * cov -> 0 <= order j < 64 * cov) ->
  (forall i j, 0 <= i < 64 * cov -> 0 <= j < 64 * cov -> order i = order j -> i = j) ->
  forall n k nz prev, cov <= k -> k + Z.of_nat n = 64 * cov -> nz = cnt order b k n -> (prev = 0 \/ prev = 1) ->
  exists ts, enc_loop n k nz prev histo cov order b = Some (0, ts) /\ Forall (tok_ok lim) ts /\
  forall d rest, (forall j, k <= j < 64 * cov -> d (order j) = 0) ->
  exists d', dec_loop _ (read_token off) mapsize bits 0 n k nz prev (off + histo) cov (64 * cov) order d (ts ++ rest) = Fine (0, d', rest) /\
    (forall j, k <= j < 64 * cov -> d' (order j) = b (order j)) /\
    (forall i, (forall j, k <= j < 64 * cov -> order j <> i) -> d' i = d i).
Proof.
  intros Hbits Hfit Hc Hh Hhl Hl Ho Hm Hor Hinj.
  induction n as [|n IH]; intros k nz prev Hk Hn Hz Hp.
  - cbn in Hz. subst nz. exists []. cbn [enc_loop]. split; [reflexivity|]. split; [constructor|].
    intros d rest Hd. exists d. cbn [dec_loop app]. split; [reflexivity|]. split; [intros; lia | auto].
  - cbn [enc_loop].
    pose proof (cnt_range order b (Datatypes.S n) k) as Hr. rewrite <- Hz in Hr.
    destruct (nz =? 0) eqn:E0.
    { exists []. split; [reflexivity|]. split; [constructor|].
      intros d rest Hd. exists d. cbn [dec_loop app]. rewrite E0. split; [reflexivity|].
      split; [|auto]. intros j Hj. rewrite Hd by assumption. symmetry. apply (cnt_zero order b (Datatypes.S n) k); lia. }
    destruct (zd_range cov nz k prev Hc ltac:(lia) ltac:(lia) Hp) as (z & Hzd & Hz1 & Hz2).
    specialize (Hz2 ltac:(lia)). rewrite Hzd. cbv zeta.
    set (pv := if b (order k) =? 0 then 0 else 1).
    rewrite cnt_S in Hz. fold pv in Hz.
    destruct (IH (k + 1) (nz - pv) pv ltac:(lia) ltac:(lia) ltac:(lia)) as (ts & He & Hf & Hd).
    { unfold pv. destruct (b (order k) =? 0); lia. }
    rewrite He. eexists. split; [reflexivity|]. split.
    { constructor; [|assumption]. unfold tok_ok. cbn [fst snd]. split.
      - unfold w32. rewrite Z.mod_small by lia. lia.
      - apply pack_signed_range. eapply fits_i32; eauto. }
    intros d rest Hd0.
    pose proof (fits_i32 bits b (order k) Hbits Hfit) as Hi32.
    specialize (Hd (upd d (order k) (b (order k))) rest).
    destruct Hd as (d' & Hd1 & Hd2 & Hd3).
    { intros j Hj. unfold upd. destruct (order j =? order k) eqn:E; [|apply Hd0; lia].
      apply Z.eqb_eq in E. apply Hinj in E; lia. }
    exists d'. split; [|split].
    + cbn [dec_loop app]. rewrite E0, Hzd.
      destruct (mapsize <=? off + histo + z) eqn:E1; [lia|].
      cbn [read_token]. unfold w32. rewrite Z.mod_small by lia.
      replace (histo + z + off =? off + histo + z) with true by lia.
      cbv zeta. pose proof (Hor k ltac:(lia)) as Hok.
      destruct (order k <? 0) eqn:E2; [lia|]. destruct (64 * cov <=? order k) eqn:E3; [lia|]. cbn [orb].
      rewrite unpack_pack by assumption. rewrite pack_zero by assumption. fold pv.
      rewrite (Hd0 k) by lia. replace (0 + b (order k) * 2 ^ 0) with (b (order k)) by (change (2 ^ 0) with 1; lia).
      rewrite wrap_id by (try lia; apply Hfit). exact Hd1.
    + intros j Hj. destruct (Z.eq_dec j k) as [->|].
      * rewrite Hd3.
        { unfold upd. rewrite Z.eqb_refl. reflexivity. }
        intros j Hj2 E. apply Hinj in E; lia.
      * apply Hd2; lia.
    + intros i Hi. rewrite Hd3 by (intros j Hj; apply Hi; lia).
      unfold upd. destruct (i =? order k) eqn:E; [|reflexivity].
      exfalso. apply (Hi k); lia.
Qed.

(** The number of nonzero coefficients *)

Lemma zlen_filter_perm {A} (P : A -> bool) l l' : Permutation l l' -> zlen (filter P l) = zlen (filter P l').
Proof.
  intros H. unfold zlen. f_equal. induction H; cbn [filter]; auto.
  - destruct (P x); cbn [length]; lia.
  - destruct (P x), (P y); cbn [length]; lia.
  - lia.
Qed.

Lemma filter_map_len {A B} (P : B -> bool) (g : A -> B) l : zlen (filter P (map g l)) = zlen (filter (fun x => P (g x)) l).
Proof.
  unfold zlen. f_equal. induction l as [|a l IH]; cbn [map filter]; [reflexivity|].
  destruct (P (g a)); cbn [length]; lia.
Qed.

Lemma filter_none {A} (P : A -> bool) l : (forall x, In x l -> P x = false) -> filter P l = [].
Proof.
  induction l as [|a l IH]; intros H; cbn [filter]; [reflexivity|].
  rewrite H by (left; reflexivity). apply IH. intros x Hx. apply H. right; assumption.
Qed.

Lemma filter_ext_in_ {A} (P Q : A -> bool) l : (forall x, In x l -> P x = Q x) -> filter P l = filter Q l.
Proof.
  induction l as [|a l IH]; intros H; cbn [filter]; [reflexivity|].
  rewrite H by (left; reflexivity). rewrite IH by (intros x Hx; apply H; right; assumption). reflexivity.
Qed.

Lemma num_nonzero_cnt m bits v b : well_formed m v -> full_order v -> codable bits v b ->
  num_nonzero (Z.max (v_cx v) (v_cy v)) (Z.min (v_cx v) (v_cy v)) b =
  cnt (v_order v) b (covered v) (Z.to_nat (bsize v - covered v)).
Proof.
  intros Hw (Hperm & Hlow) (_ & Hzero).
  destruct (covered_pos m v Hw) as (Hx & Hy & Hcp & _ & Hx32 & Hy32).
  set (X := Z.max (v_cx v) (v_cy v)). set (Y := Z.min (v_cx v) (v_cy v)).
  assert (HXY : X * Y = covered v) by (unfold X, Y, covered; destruct (Z.max_spec (v_cx v) (v_cy v)) as [[? ->]|[? ->]]; destruct (Z.min_spec (v_cx v) (v_cy v)) as [[? ->]|[? ->]]; lia).
  assert (HX : 1 <= X <= 32) by lia. assert (HY : 1 <= Y <= X) by lia.
  unfold num_nonzero. replace (X * Y * 64) with (bsize v) by (unfold bsize; lia).
  rewrite <- (zlen_filter_perm _ _ _ Hperm), filter_map_len.
  replace (Z.to_nat (bsize v)) with (Z.to_nat (covered v) + Z.to_nat (bsize v - covered v))%nat by (unfold bsize; lia).
  rewrite range_app, filter_app.
  rewrite (filter_none _ (range 0 (Z.to_nat (covered v)))).
  - cbn [app]. unfold cnt. replace (0 + Z.of_nat (Z.to_nat (covered v))) with (covered v) by lia.
    f_equal. apply filter_ext_in_. intros k Hk. apply in_range in Hk.
    assert (Hkb : covered v <= k < bsize v) by (unfold bsize in *; lia).
    assert (Hn : ~ low v (v_order v k)) by (rewrite Hlow by lia; lia).
    replace (masked X Y (v_order v k)) with false; [reflexivity|].
    symmetry. apply not_true_iff_false. intros Hm. apply Hn. unfold low. fold X Y.
    pose proof (order_range m v k Hw ltac:(lia)) as Hr.
    unfold masked in Hm. destruct (X * Y =? 1) eqn:E1.
    + apply Z.eqb_eq in Hm. rewrite Hm. rewrite Z.div_0_l, Z.mod_0_l by lia. lia.
    + apply andb_prop in Hm. destruct Hm as [Hm1 Hm2]. apply Z.ltb_lt in Hm1, Hm2. lia.
  - intros k Hk. apply in_range in Hk.
    assert (Hkb : 0 <= k < covered v) by lia.
    assert (Hkb2 : 0 <= k < bsize v) by (unfold bsize; lia).
    assert (Hn : low v (v_order v k)) by (apply Hlow; lia).
    pose proof (order_range m v k Hw Hkb2) as Hr.
    destruct (Z.eq_dec (covered v) 1) as [E|E].
    + unfold low in Hn. fold X Y in Hn. assert (X = 1) by nia. assert (Y = 1) by nia.
      unfold masked. replace (X * Y =? 1) with true by lia.
      replace (v_order v k =? 0) with true; [reflexivity|].
      rewrite H, H0 in Hn. destruct Hn as [Hn1 Hn2]. change (1 * 8) with 8 in *.
      pose proof (Z.div_mod (v_order v k) 8 ltac:(lia)) as Hdm.
      pose proof (Z.mod_pos_bound (v_order v k) 8 ltac:(lia)).
      pose proof (Z.div_pos (v_order v k) 8 ltac:(lia) ltac:(lia)). lia.
    + rewrite (Hzero E _ Hr Hn). rewrite andb_comm. reflexivity.
Qed.

Lemma order_inj v : full_order v -> forall i j, 0 <= i < bsize v -> 0 <= j < bsize v -> v_order v i = v_order v j -> i = j.
Proof.
  intros (Hp & _) i j Hi Hj E.
  assert (Hnd : NoDup (map (v_order v) (range 0 (Z.to_nat (bsize v))))).
  { eapply Permutation_NoDup; [apply Permutation_sym; exact Hp | apply range_nodup]. }
  assert (H : forall l, NoDup (map (v_order v) l) -> In i l -> In j l -> i = j).
  { induction l as [|a l IH]; cbn [map In]; intros Hd H1 H2; [contradiction|].
    inversion_clear Hd as [|? ? Ha Hd'].
    destruct H1 as [->|H1], H2 as [->|H2]; auto.
    - exfalso. apply Ha. rewrite E. apply in_map. assumption.
    - exfalso. apply Ha. rewrite <- E. apply in_map. assumption. }
  apply (H _ Hnd); apply in_range; lia.
Qed.

Lemma order_surj v : full_order v -> forall i, 0 <= i < bsize v -> exists k, 0 <= k < bsize v /\ v_order v k = i.
Proof.
  intros (Hp & _) i Hi.
  assert (H : In i (map (v_order v) (range 0 (Z.to_nat (bsize v))))).
  { eapply Permutation_in; [apply Permutation_sym; exact Hp | apply in_range; lia]. }
  apply in_map_iff in H. destruct H as (k & E & Hk). apply in_range in Hk. exists k. split; [lia | assumption].
Qed.

Lemma predict_fill f x y cx cy v : predict (fill f x y cx cy v) x y = predict f x y.
Proof.
  unfold predict, fill.
  replace (x <=? x - 1) with false by lia. replace (y <=? y - 1) with false by lia.
  rewrite !andb_false_r. cbn [andb]. reflexivity.
Qed.

Definition same (v : vblock) (b d : Z -> Z) : Prop :=
  forall i, 0 <= i < bsize v -> d i = if (covered v =? 1) && (i =? 0) then 0 else b i.

Lemma block_trip m bits v f b num_hist cur :
  inv m -> 1 <= bits <= 32 -> 0 <= cur < num_hist -> num_hist * num_ac m <= 2 ^ 31 ->
  well_formed m v -> full_order v -> codable bits v b ->
  exists g ts, enc_block m v f b = Some (g, ts) /\ Forall (tok_ok (num_ac m)) ts /\
  forall rest, exists d,
    dec_block _ (read_token (cur * num_ac m)) (num_hist * num_ac m + (zd_limit - zd_count)) (cur * num_ac m) bits 0
      m v f zeros (ts ++ rest) = Fine (g, d, rest) /\ same v b d.
Proof.
  intros Hi Hbits Hcur Hn Hw Hfo Hco.
  destruct (context_some m v Hi Hw) as (bc & Hbc & Hb & H16).
  pose proof (num_ac_eq m ltac:(lia)) as Hna.
  destruct (covered_pos m v Hw) as (Hx & Hy & Hcp & Hcl & _).
  unfold enc_block. cbv zeta. rewrite predict_fill, Hbc.
  rewrite (num_nonzero_cnt m bits v b Hw Hfo Hco).
  set (nz := cnt (v_order v) b (covered v) (Z.to_nat (bsize v - covered v))).
  pose proof (cnt_range (v_order v) b (Z.to_nat (bsize v - covered v)) (covered v)) as Hr. fold nz in Hr.
  assert (Hs : bsize v = 64 * covered v) by (unfold bsize; lia).
  destruct (loop_trip bits (num_hist * num_ac m + (zd_limit - zd_count)) (cur * num_ac m) (num_ac m) (v_order v) b
    (covered v) (zd_offset m bc) Hbits (proj1 Hco) Hcp) with (n := Z.to_nat (bsize v - covered v)) (k := covered v) (nz := nz)
    (prev := if nz >? bsize v / 16 then 0 else 1) as (ts & He & Hf & Hd).
  { rewrite zd_offset_eq by assumption. lia. }
  { rewrite zd_offset_eq by assumption. change zd_count with 458. lia. }
  { nia. }
  { nia. }
  { change (zd_limit - zd_count) with 16. nia. }
  { intros j Hj. rewrite <- Hs in *. apply (order_range m); auto. }
  { rewrite <- Hs. apply order_inj; assumption. }
  { lia. }
  { lia. }
  { reflexivity. }
  { destruct (nz >? bsize v / 16); lia. }
  rewrite He. cbn [Z.eqb]. do 2 eexists. split; [reflexivity|].
  pose proof (nonzero_range m (predict f (v_x v) (v_y v)) bc Hb H16) as Hnz.
  split.
  { constructor; [|assumption]. unfold tok_ok. cbn [fst snd]. split; [lia|].
    unfold is_u32, w32. apply Z.mod_pos_bound. lia. }
  intros rest. destruct (Hd zeros rest) as (d & Hd1 & Hd2 & Hd3); [reflexivity|].
  exists d. split.
  - unfold dec_block. cbv zeta. rewrite Hbc.
    set (nc := nonzero_context _ _ _) in *. clearbody nc.
    rewrite s32_small by nia.
    destruct (nc + cur * num_ac m <? 0) eqn:E1; [nia|].
    destruct (num_hist * num_ac m + (zd_limit - zd_count) <=? nc + cur * num_ac m) eqn:E2.
    { change (zd_limit - zd_count) with 16 in E2. nia. }
    cbn [orb app read_token]. rewrite Z.eqb_refl.
    unfold w32. rewrite (Z.mod_small nz) by lia.
    destruct (nz >? bsize v - covered v) eqn:E3; [lia|].
    rewrite <- Hs in Hd1. rewrite Hd1. reflexivity.
  - intros i Hib. destruct (order_surj v Hfo i Hib) as (k & Hk & <-).
    destruct Hfo as (Hp & Hlow).
    destruct (Z_lt_le_dec k (covered v)) as [Hlt|Hge].
    + rewrite Hd3.
      2:{ intros j Hj E. apply (order_inj v (conj Hp Hlow)) in E; lia. }
      pose proof (proj2 (Hlow k Hk) Hlt) as Hl. unfold zeros.
      destruct (Z.eq_dec (covered v) 1) as [E|E].
      * replace (covered v =? 1) with true by lia. cbn [andb].
        replace (v_order v k =? 0) with true; [reflexivity|].
        unfold low in Hl. unfold covered in E. assert (v_cx v = 1) by nia. assert (v_cy v = 1) by nia.
        rewrite H, H0 in Hl. change (Z.max 1 1 * 8) with 8 in Hl. change (Z.min 1 1) with 1 in Hl. change (Z.max 1 1) with 1 in Hl.
        destruct Hl as [Hl1 Hl2].
        pose proof (Z.div_mod (v_order v k) 8 ltac:(lia)) as Hdm.
        pose proof (Z.mod_pos_bound (v_order v k) 8 ltac:(lia)).
        pose proof (Z.div_pos (v_order v k) 8 ltac:(lia) ltac:(lia)). lia.
      * replace (covered v =? 1) with false by lia. cbn [andb].
        symmetry. apply (proj2 Hco); auto.
    + rewrite Hd2 by lia.
      destruct ((covered v =? 1) && (v_order v k =? 0)) eqn:E; [|reflexivity].
      exfalso. apply andb_prop in E. destruct E as [_ E]. apply Z.eqb_eq in E.
      assert (low v (v_order v k)); [|apply Hlow in H; lia].
      unfold low. rewrite E, Z.div_0_l, Z.mod_0_l by lia. lia.
Qed.

Lemma blocks_trip m bits num_hist cur :
  inv m -> 1 <= bits <= 32 -> 0 <= cur < num_hist -> num_hist * num_ac m <= 2 ^ 31 ->
  forall l f, Forall (fun p => well_formed m (fst p) /\ full_order (fst p) /\ codable bits (fst p) (snd p)) l ->
  exists ts, enc_blocks m l f = Some ts /\ Forall (tok_ok (num_ac m)) ts /\
  forall rest, exists ds,
    dec_blocks _ (read_token (cur * num_ac m)) (num_hist * num_ac m + (zd_limit - zd_count)) (cur * num_ac m) bits 0
      m (map fst l) f (ts ++ rest) = Fine (ds, rest) /\
    Forall2 (fun p d => same (fst p) (snd p) d) l ds.
Proof.
  intros Hi Hbits Hcur Hn. induction l as [|[v b] l IH]; intros f Hl.
  - exists []. cbn. split; [reflexivity|]. split; [constructor|]. intros rest. exists []. split; [reflexivity | constructor].
  - inversion_clear Hl as [|? ? Hv Hl']. cbn [fst snd] in Hv. destruct Hv as (Hw & Hfo & Hco).
    destruct (block_trip m bits v (f (v_c v)) b num_hist cur Hi Hbits Hcur Hn Hw Hfo Hco) as (g & ts & He & Hf & Hd).
    destruct (IH (fun c => if c =? v_c v then g else f c) Hl') as (ts' & He' & Hf' & Hd').
    cbn [enc_blocks map fst]. rewrite He, He'. eexists. split; [reflexivity|].
    split; [apply Forall_app; split; assumption|].
    intros rest. destruct (Hd' rest) as (ds & Hds & H2). destruct (Hd (ts' ++ rest)) as (d & Hd1 & Hsame).
    exists (d :: ds). cbn [dec_blocks]. rewrite <- app_assoc, Hd1, Hds. split; [reflexivity|]. constructor; assumption.
Qed.

(** ** The map of counts before the first block does not matter *)

Definition agree (prev : list vblock) (f f' : Z -> nzmap) : Prop := forall c x y, seen prev c x y -> f c x y = f' c x y.

Lemma predict_agree prev f f' v : agree prev f f' ->
  (v_x v <> 0 -> seen prev (v_c v) (v_x v - 1) (v_y v)) -> (v_y v <> 0 -> seen prev (v_c v) (v_x v) (v_y v - 1)) ->
  predict (f (v_c v)) (v_x v) (v_y v) = predict (f' (v_c v)) (v_x v) (v_y v).
Proof.
  intros Ha Hx Hy. unfold predict.
  destruct (v_x v =? 0) eqn:Ex; destruct (v_y v =? 0) eqn:Ey; [reflexivity| | |];
    rewrite ?(Ha _ _ _ (Hx ltac:(lia))), ?(Ha _ _ _ (Hy ltac:(lia))); reflexivity.
Qed.

Lemma fill_agree prev f f' v w : agree prev f f' ->
  agree (v :: prev) (fun c => if c =? v_c v then fill (f (v_c v)) (v_x v) (v_y v) (v_cx v) (v_cy v) w else f c)
    (fun c => if c =? v_c v then fill (f' (v_c v)) (v_x v) (v_y v) (v_cx v) (v_cy v) w else f' c).
Proof.
  intros Ha c x y Hs. cbv beta.
  assert (Hc : seen prev c x y \/ (v_c v = c /\ v_x v <= x < v_x v + v_cx v /\ v_y v <= y < v_y v + v_cy v)).
  { inversion_clear Hs; auto. }
  destruct (c =? v_c v) eqn:E.
  - apply Z.eqb_eq in E. subst c. unfold fill.
    destruct ((v_x v <=? x) && (x <? v_x v + v_cx v) && (v_y v <=? y) && (y <? v_y v + v_cy v)) eqn:Eb; [reflexivity|].
    destruct Hc as [Hc | (_ & H1 & H2)]; [apply Ha; assumption|].
    exfalso. apply not_true_iff_false in Eb. apply Eb.
    rewrite !andb_true_iff, !Z.leb_le, !Z.ltb_lt. lia.
  - destruct Hc as [Hc | (Hc & _)]; [apply Ha; assumption | lia].
Qed.

Lemma enc_indep m : forall l prev f f', in_order prev (map fst l) -> agree prev f f' -> enc_blocks m l f = enc_blocks m l f'.
Proof.
  induction l as [|[v b] l IH]; intros prev f f' Ho Ha; [reflexivity|].
  cbn [map fst in_order] in Ho. destruct Ho as (Hx & Hy & Ho).
  cbn [enc_blocks]. unfold enc_block. cbv zeta. rewrite !predict_fill, (predict_agree prev f f' v Ha Hx Hy).
  destruct (context _ _ _ _ _) as [bc|]; [|reflexivity].
  destruct (enc_loop _ _ _ _ _ _ _ _) as [[r ts]|]; [|reflexivity].
  destruct (r =? 0); [|reflexivity].
  erewrite IH; [reflexivity | exact Ho |]. apply fill_agree. exact Ha.
Qed.

Lemma agree_nil f f' : agree [] f f'.
Proof. intros c x y H. inversion H. Qed.

(** ** Contexts of different kinds *)

Lemma nonzero_eq m p bc : 0 <= bc < nctx m -> nctx m <= 16 -> 0 <= p < 2 ^ 31 -> nonzero_context m p bc = count_bucket p * nctx m + bc.
Proof.
  intros Hb Hn Hp. pose proof (nonzero_range m p bc Hb Hn) as Hr. revert Hr.
  unfold nonzero_context, count_bucket. cbv zeta. unfold w32. rewrite (Z.mod_small p) by lia.
  destruct (p <? 8) eqn:E8.
  - replace (p >=? 64) with false by lia. rewrite E8. intros _. rewrite Z.mod_small by nia. reflexivity.
  - destruct (p <? 64) eqn:E64.
    + replace (p >=? 64) with false by lia. rewrite E8. intros _.
      assert (0 <= p / 2) by (apply Z.div_pos; lia). assert (p / 2 < 32) by (apply Z.div_lt_upper_bound; lia).
      rewrite Z.mod_small by nia. reflexivity.
    + replace (p >=? 64) with true by lia. change (64 <? 8) with false. change (64 / 2) with 32. intros _.
      cbv iota. rewrite Z.mod_small by nia. reflexivity.
Qed.

Lemma pair_unique n a b a' b' : 0 <= b < n -> 0 <= b' < n -> a * n + b = a' * n + b' -> a = a' /\ b = b'.
Proof. intros H1 H2 H3. assert (a = a') by nia. subst. lia. Qed.
