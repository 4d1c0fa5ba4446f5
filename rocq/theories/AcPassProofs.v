(** * Several passes: every pass adds its part *)
From Coq Require Import ZArith List Bool Lia Permutation.
From Verif Require Import Base FieldsModel FieldsProofs AcModel AcSpec AcProofs SplitModel SplitSpec SplitProps AcPassModel.
Import ListNotations.
Local Open Scope Z_scope.
Ltac Zify.zify_post_hook ::= idtac.

Definition fit (bits v : Z) : Prop := - 2 ^ (bits - 1) <= v < 2 ^ (bits - 1).

Lemma loop_more bits shift mapsize off lim order b cov histo : 1 <= bits <= 32 -> 0 <= shift -> fits bits b -> 0 < cov ->
  0 <= histo -> histo + zd_count <= lim -> lim <= 2 ^ 31 -> 0 <= off -> off + lim <= mapsize ->
  (forall j, 0 <= j < 64 * cov -> 0 <= order j < 64 * cov) ->
  (forall i j, 0 <= i < 64 * cov -> 0 <= j < 64 * cov -> order i = order j -> i = j) ->
  forall n k nz prev, cov <= k -> k + Z.of_nat n = 64 * cov -> nz = cnt order b k n -> (prev = 0 \/ prev = 1) ->
  exists ts, enc_loop n k nz prev histo cov order b = Some (0, ts) /\ Forall (tok_ok lim) ts /\
  forall d rest, (forall j, k <= j < 64 * cov -> fit bits (d (order j) + b (order j) * 2 ^ shift)) ->
  exists d', dec_loop _ (read_token off) mapsize bits shift n k nz prev (off + histo) cov (64 * cov) order d (ts ++ rest) = Fine (0, d', rest) /\
    (forall j, k <= j < 64 * cov -> d' (order j) = d (order j) + b (order j) * 2 ^ shift) /\
    (forall i, (forall j, k <= j < 64 * cov -> order j <> i) -> d' i = d i).
Proof.
  intros Hbits Hsh Hfit Hc Hh Hhl Hl Ho Hm Hor Hinj.
  induction n as [|n IH]; intros k nz prev Hk Hn Hz Hp.
  - cbn in Hz. subst nz. exists []. cbn [enc_loop]. split; [reflexivity|]. split; [constructor|].
    intros d rest Hd. exists d. cbn [dec_loop app]. split; [reflexivity|]. split; [intros; lia | auto].
  - cbn [enc_loop].
    pose proof (cnt_range order b (Datatypes.S n) k) as Hr. rewrite <- Hz in Hr.
    destruct (nz =? 0) eqn:E0.
    { exists []. split; [reflexivity|]. split; [constructor|].
      intros d rest Hd. exists d. cbn [dec_loop app]. rewrite E0. split; [reflexivity|].
      split; [|auto]. intros j Hj. rewrite (cnt_zero order b (Datatypes.S n) k) by lia. lia. }
    destruct (zd_range cov nz k prev Hc ltac:(lia) ltac:(lia) Hp) as (z & Hzd & Hz1 & Hz2).
    specialize (Hz2 ltac:(lia)). rewrite Hzd. cbv zeta.
    set (pv := if b (order k) =? 0 then 0 else 1).
    rewrite cnt_S in Hz. fold pv in Hz.
    destruct (IH (k + 1) (nz - pv) pv ltac:(lia) ltac:(lia) ltac:(lia)) as (ts & He & Hf & Hd).
    { unfold pv. destruct (b (order k) =? 0); lia. }
    rewrite He. eexists. split; [reflexivity|]. split.
    { constructor; [|assumption]. unfold tok_ok. cbn [fst snd]. split.
      - unfold w32. rewrite Z.mod_small by lia. lia.
      - apply pack_signed_range. eapply fits_i32; eauto. }
    intros d rest Hd0.
    pose proof (fits_i32 bits b (order k) Hbits Hfit) as Hi32.
    specialize (Hd (upd d (order k) (d (order k) + b (order k) * 2 ^ shift)) rest).
    assert (Hother : forall j, k + 1 <= j < 64 * cov -> (order j =? order k) = false).
    { intros j Hj. apply Z.eqb_neq. intros E. apply Hinj in E; lia. }
    destruct Hd as (d' & Hd1 & Hd2 & Hd3).
    { intros j Hj. unfold upd. rewrite Hother by assumption. apply Hd0; lia. }
    exists d'. split; [|split].
    + cbn [dec_loop app]. rewrite E0, Hzd.
      destruct (mapsize <=? off + histo + z) eqn:E1; [lia|].
      cbn [read_token]. unfold w32. rewrite Z.mod_small by lia.
      replace (histo + z + off =? off + histo + z) with true by lia.
      cbv zeta. pose proof (Hor k ltac:(lia)) as Hok.
      destruct (order k <? 0) eqn:E2; [lia|]. destruct (64 * cov <=? order k) eqn:E3; [lia|]. cbn [orb].
      rewrite unpack_pack by assumption. rewrite pack_zero by assumption. fold pv.
      rewrite wrap_id by (try lia; apply Hd0; lia). exact Hd1.
    + intros j Hj. destruct (Z.eq_dec j k) as [->|].
      * rewrite Hd3.
        { unfold upd. rewrite Z.eqb_refl. reflexivity. }
        intros j Hj2 E. apply Hinj in E; lia.
      * rewrite Hd2 by lia. unfold upd. rewrite Hother by lia. reflexivity.
    + intros i Hi. rewrite Hd3 by (intros j Hj; apply Hi; lia).
      unfold upd. destruct (i =? order k) eqn:E; [|reflexivity].
      exfalso. apply (Hi k); lia.
Qed.

(** A part of a block: nothing in the lowest frequencies, and what it adds fits *)
Definition addable (bits shift : Z) (v : vblock) (b d : Z -> Z) : Prop :=
  fits bits b /\ (forall i, 0 <= i < bsize v -> low v i -> b i = 0) /\
  (forall i, 0 <= i < bsize v -> fit bits (d i + b i * 2 ^ shift)).

Lemma block_more m bits shift v f b d num_hist cur :
  inv m -> 1 <= bits <= 32 -> 0 <= shift -> 0 <= cur < num_hist -> num_hist * num_ac m <= 2 ^ 31 ->
  well_formed m v -> full_order v -> addable bits shift v b d ->
  exists g ts, enc_block m v f b = Some (g, ts) /\
  forall rest, exists d',
    dec_block _ (read_token (cur * num_ac m)) (num_hist * num_ac m + (zd_limit - zd_count)) (cur * num_ac m) bits shift
      m v f d (ts ++ rest) = Fine (g, d', rest) /\
    forall i, 0 <= i < bsize v -> d' i = d i + b i * 2 ^ shift.
Proof.
  intros Hi Hbits Hsh Hcur Hn Hw Hfo (Hfit & Hlz & Hadd).
  assert (Hco : codable bits v b) by (split; [exact Hfit | intros _; exact Hlz]).
  destruct (context_some m v Hi Hw) as (bc & Hbc & Hb & H16).
  pose proof (num_ac_eq m ltac:(lia)) as Hna.
  destruct (covered_pos m v Hw) as (Hx & Hy & Hcp & Hcl & _).
  unfold enc_block. cbv zeta. rewrite predict_fill, Hbc.
  rewrite (num_nonzero_cnt m bits v b Hw Hfo Hco).
  set (nz := cnt (v_order v) b (covered v) (Z.to_nat (bsize v - covered v))).
  pose proof (cnt_range (v_order v) b (Z.to_nat (bsize v - covered v)) (covered v)) as Hr. fold nz in Hr.
  assert (Hs : bsize v = 64 * covered v) by (unfold bsize; lia).
  destruct (loop_more bits shift (num_hist * num_ac m + (zd_limit - zd_count)) (cur * num_ac m) (num_ac m) (v_order v) b
    (covered v) (zd_offset m bc) Hbits Hsh Hfit Hcp) with (n := Z.to_nat (bsize v - covered v)) (k := covered v) (nz := nz)
    (prev := if nz >? bsize v / 16 then 0 else 1) as (ts & He & _ & Hd).
  { rewrite zd_offset_eq by assumption. lia. }
  { rewrite zd_offset_eq by assumption. change zd_count with 458. lia. }
  { nia. }
  { nia. }
  { change (zd_limit - zd_count) with 16. nia. }
  { intros j Hj. rewrite <- Hs in *. apply (order_range m); auto. }
  { rewrite <- Hs. apply order_inj; assumption. }
  { lia. }
  { lia. }
  { reflexivity. }
  { destruct (nz >? bsize v / 16); lia. }
  rewrite He. cbn [Z.eqb]. do 2 eexists. split; [reflexivity|].
  pose proof (nonzero_range m (predict f (v_x v) (v_y v)) bc Hb H16) as Hnz.
  intros rest. destruct (Hd d rest) as (d' & Hd1 & Hd2 & Hd3).
  { intros j Hj. apply Hadd. apply (order_range m); auto. lia. }
  exists d'. split.
  - unfold dec_block. cbv zeta. rewrite Hbc.
    set (nc := nonzero_context _ _ _) in *. clearbody nc.
    rewrite s32_small by nia.
    destruct (nc + cur * num_ac m <? 0) eqn:E1; [nia|].
    destruct (num_hist * num_ac m + (zd_limit - zd_count) <=? nc + cur * num_ac m) eqn:E2.
    { change (zd_limit - zd_count) with 16 in E2. nia. }
    cbn [orb app read_token]. rewrite Z.eqb_refl.
    unfold w32. rewrite (Z.mod_small nz) by lia.
    destruct (nz >? bsize v - covered v) eqn:E3; [lia|].
    rewrite <- Hs in Hd1. rewrite Hd1. reflexivity.
  - intros i Hib. destruct (order_surj v Hfo i Hib) as (k & Hk & <-).
    destruct Hfo as (Hp & Hlow).
    destruct (Z_lt_le_dec k (covered v)) as [Hlt|Hge]; [|apply Hd2; lia].
    rewrite Hd3.
    2:{ intros j Hj E. apply (order_inj v (conj Hp Hlow)) in E; lia. }
    rewrite (Hlz (v_order v k)); [lia | assumption | apply Hlow; assumption].
Qed.

(** Blocks of a pass: place, part, and what is there *)
Lemma blocks_more m bits shift num_hist cur :
  inv m -> 1 <= bits <= 32 -> 0 <= shift -> 0 <= cur < num_hist -> num_hist * num_ac m <= 2 ^ 31 ->
  forall (l : list (vblock * ((Z -> Z) * (Z -> Z)))) f,
  Forall (fun t => well_formed m (fst t) /\ full_order (fst t) /\ addable bits shift (fst t) (fst (snd t)) (snd (snd t))) l ->
  exists ts, enc_blocks m (map (fun t => (fst t, fst (snd t))) l) f = Some ts /\
  forall rest, exists ds,
    dec_more _ (read_token (cur * num_ac m)) (num_hist * num_ac m + (zd_limit - zd_count)) (cur * num_ac m) bits shift
      m (map (fun t => (fst t, snd (snd t))) l) f (ts ++ rest) = Fine (ds, rest) /\
    Forall2 (fun t d => forall i, 0 <= i < bsize (fst t) -> d i = snd (snd t) i + fst (snd t) i * 2 ^ shift) l ds.
Proof.
  intros Hi Hbits Hsh Hcur Hn. induction l as [|[v [b d]] l IH]; intros f Hl.
  - exists []. cbn. split; [reflexivity|]. intros rest. exists []. split; [reflexivity | constructor].
  - inversion_clear Hl as [|? ? Hv Hl']. cbn [fst snd] in Hv. destruct Hv as (Hw & Hfo & Had).
    destruct (block_more m bits shift v (f (v_c v)) b d num_hist cur Hi Hbits Hsh Hcur Hn Hw Hfo Had) as (g & ts & He & Hd).
    destruct (IH (fun c => if c =? v_c v then g else f c) Hl') as (ts' & He' & Hd').
    cbn [enc_blocks map fst snd]. rewrite He, He'. eexists. split; [reflexivity|].
    intros rest. destruct (Hd' rest) as (ds & Hds & H2). destruct (Hd (ts' ++ rest)) as (d' & Hd1 & Hsame).
    exists (d' :: ds). cbn [dec_more]. rewrite <- app_assoc, Hd1, Hds. split; [reflexivity|]. constructor; assumption.
Qed.

(** ** The parts *)

Definition between (v w : Z) : Prop := 0 <= w <= v \/ v <= w <= 0.

Lemma between_fit bits v w : 1 <= bits -> fit bits v -> between v w -> fit bits w.
Proof.
  intros Hb Hv H. unfold fit, between in *. assert (0 < 2 ^ (bits - 1)) by (apply Z.pow_pos_nonneg; lia). lia.
Qed.

Lemma known_between X Y done n s block pos : 0 <= s -> between (block pos) (known X Y done n s block pos).
Proof.
  intros Hs. unfold known, between. destruct (quot_between (block pos) s Hs) as (H & _).
  destruct (inside X Y 1 pos); [lia|]. destruct (inside X Y done pos); [lia|]. destruct (inside X Y n pos); [exact H | lia].
Qed.

Lemma quot_small v s : 0 <= s -> between v (Z.quot v (2 ^ s)).
Proof.
  intros Hs. destruct (quot_between v s Hs) as (H & _). unfold between.
  assert (1 <= 2 ^ s) by (pose proof (Z.pow_pos_nonneg 2 s); lia). nia.
Qed.

Lemma part_between X Y block p done prev pos : is_i32 (block pos) -> 0 <= prev -> 0 <= pshift p ->
  between (block pos) (split_pass X Y block p done prev pos).
Proof.
  intros Hv Hp Hs. unfold split_pass.
  destruct (negb _); [unfold between; lia|]. destruct (inside X Y done pos); [unfold between; lia|].
  destruct (prev =? 0).
  - rewrite round0_quot by assumption. apply quot_small; assumption.
  - rewrite (round0_quot _ prev) by assumption. rewrite round0_quot by (try apply quot_i32; assumption).
    pose proof (quot_small (block pos - Z.quot (block pos) (2 ^ prev) * 2 ^ prev) (pshift p) Hs) as H1.
    destruct (quot_between (block pos) prev Hp) as (H2 & _). unfold between in *. lia.
Qed.

(** A block: its sides and its coefficients *)
Definition shaped : Type := ((Z * Z) * (Z -> Z))%type.

Definition fits_shape (m : bctx) (v : vblock) (s : shaped) : Prop :=
  well_formed m v /\ full_order v /\
  Z.max (v_cx v) (v_cy v) = fst (fst s) /\ Z.min (v_cx v) (v_cy v) = snd (fst s).

Lemma shape_size m v s : fits_shape m v s -> bsize v = fst (fst s) * snd (fst s) * 64 /\ 0 < fst (fst s) /\ 0 < snd (fst s).
Proof.
  intros (Hw & _ & HX & HY). destruct (covered_pos m v Hw) as (Hx & Hy & _).
  rewrite <- HX, <- HY. unfold bsize, covered. split; [|lia].
  f_equal. destruct (Z.max_spec (v_cx v) (v_cy v)) as [[? ->]|[? ->]]; destruct (Z.min_spec (v_cx v) (v_cy v)) as [[? ->]|[? ->]]; lia.
Qed.

Lemma low_inside m v s i : fits_shape m v s -> low v i -> inside (fst (fst s)) (snd (fst s)) 1 i = true.
Proof.
  intros (_ & _ & HX & HY) (H1 & H2). rewrite HX, HY in *. unfold inside.
  apply andb_true_intro. split; apply Z.ltb_lt; lia.
Qed.

Definition holds (done n s : Z) (sh : shaped) (d : Z -> Z) : Prop :=
  forall i, 0 <= i < fst (fst sh) * snd (fst sh) * 64 -> d i = known (fst (fst sh)) (snd (fst sh)) done n s (snd sh) i.

Lemma one_pass m bits num_hist cur p done n s :
  inv m -> 1 <= bits <= 32 -> 0 <= cur < num_hist -> num_hist * num_ac m <= 2 ^ 31 ->
  1 <= done <= n -> 0 <= s -> (s = 0 -> done = n) -> 1 <= ncoef p <= 8 -> 0 <= pshift p ->
  ((s = 0 /\ n <= ncoef p) \/ (0 < s /\ ncoef p = n /\ pshift p < s)) ->
  forall bl vs ds f, Forall2 (fits_shape m) vs bl -> Forall2 (holds done n s) bl ds ->
  Forall (fun sh => forall i, fit bits (snd sh i)) bl ->
  exists ts, enc_blocks m (combine vs (map (fun sh : shaped => split_pass (fst (fst sh)) (snd (fst sh)) (snd sh) p done s) bl)) f = Some ts /\
  exists ds', dec_more _ (read_token (cur * num_ac m)) (num_hist * num_ac m + (zd_limit - zd_count)) (cur * num_ac m) bits (pshift p)
      m (combine vs ds) f ts = Fine (ds', []) /\
    Forall2 (holds (if pshift p =? 0 then ncoef p else done) (ncoef p) (pshift p)) bl ds'.
Proof.
  intros Hi Hbits Hcur Hn Hd Hs Hsd Hp Hps Hcase bl vs ds f Hvs Hds Hfit.
  set (part := fun sh : shaped => split_pass (fst (fst sh)) (snd (fst sh)) (snd sh) p done s).
  set (L := combine vs (combine (map part bl) ds)).
  assert (HL : Forall (fun t => well_formed m (fst t) /\ full_order (fst t) /\ addable bits (pshift p) (fst t) (fst (snd t)) (snd (snd t))) L
    /\ map (fun t => (fst t, fst (snd t))) L = combine vs (map part bl)
    /\ map (fun t => (fst t, snd (snd t))) L = combine vs ds
    /\ forall ds', Forall2 (fun t d => forall i, 0 <= i < bsize (fst t) -> d i = snd (snd t) i + fst (snd t) i * 2 ^ pshift p) L ds' ->
       Forall2 (holds (if pshift p =? 0 then ncoef p else done) (ncoef p) (pshift p)) bl ds').
  { subst L. revert ds Hds Hfit. induction Hvs as [|v sh vs bl Hv Hvs IH]; intros ds Hds Hfit.
    - inversion_clear Hds. cbn. split; [constructor|]. split; [reflexivity|]. split; [reflexivity|].
      intros ds' H. inversion_clear H. constructor.
    - inversion Hds as [|? d ? ds1 Hd1 Hds1 E1 E2]; subst. inversion_clear Hfit as [|? ? Hf1 Hf2].
      destruct (IH ds1 Hds1 Hf2) as (H1 & H2 & H3 & H4).
      destruct (shape_size m v sh Hv) as (Hsz & HX & HY).
      assert (Hi32 : forall i, is_i32 (snd sh i)) by (intros i; apply (fits_i32 bits); assumption).
      assert (Hstep : forall i, 0 <= i < bsize v -> d i + part sh i * 2 ^ pshift p =
        known (fst (fst sh)) (snd (fst sh)) (if pshift p =? 0 then ncoef p else done) (ncoef p) (pshift p) (snd sh) i).
      { intros i Hib. rewrite (Hd1 i) by lia. unfold part. apply step; auto. }
      cbn [map combine fst snd]. split; [|split; [|split]].
      + constructor; [|assumption]. cbn [fst snd]. split; [apply Hv|]. split; [apply Hv|].
        split; [|split].
        * intros i. apply (between_fit bits (snd sh i)); [lia | apply Hf1 | apply part_between; auto].
        * intros i Hib Hlow. pose proof (low_inside m v sh i Hv Hlow) as H5.
          unfold part, split_pass. rewrite (inside_mono _ _ 1 done) by (assumption || lia).
          destruct (negb _); reflexivity.
        * intros i Hib. rewrite Hstep by assumption.
          apply (between_fit bits (snd sh i)); [lia | apply Hf1 | apply known_between; assumption].
      + f_equal; assumption.
      + f_equal; assumption.
      + intros ds' H. inversion_clear H as [|? d' ? ds2 Hd' Hds']. cbn [fst snd] in Hd'.
        constructor; [|apply H4; assumption].
        intros i Hib. rewrite Hd' by lia. apply Hstep. lia. }
  destruct HL as (H1 & H2 & H3 & H4).
  destruct (blocks_more m bits (pshift p) num_hist cur Hi Hbits Hps Hcur Hn L f H1) as (ts & He & Hdec).
  rewrite H2 in He. exists ts. split; [exact He|].
  destruct (Hdec []) as (ds' & Hds' & Hsame). rewrite H3, app_nil_r in Hds'.
  exists ds'. split; [exact Hds' | apply H4; exact Hsame].
Qed.

Lemma combine_fst {A B} (l : list A) : forall l' : list B, length l = length l' -> map fst (combine l l') = l.
Proof.
  induction l as [|a l IH]; intros [|b l'] H; cbn in *; try lia; [reflexivity|]. f_equal. apply IH. lia.
Qed.

Lemma all_passes m bits num_hist : inv m -> 1 <= bits <= 32 -> num_hist * num_ac m <= 2 ^ 31 ->
  forall (bl : list shaped) f, Forall (fun sh => forall i, fit bits (snd sh i)) bl ->
  forall ps hists geo done n s ds fs, Forall (in_order []) geo -> length hists = length ps -> length geo = length ps ->
  Forall (fun h => 0 <= h < num_hist) hists -> Forall (fun vs => Forall2 (fits_shape m) vs bl) geo ->
  1 <= done <= n -> 0 <= s -> (s = 0 -> done = n) -> refining n s ps -> Forall2 (holds done n s) bl ds ->
  exists tss, enc_passes m geo (map (fun sh : shaped => split_passes (fst (fst sh)) (snd (fst sh)) (snd sh) ps done s) bl) fs = Some tss /\
  exists ds', dec_passes m bits num_hist (map pshift ps) hists geo tss f ds = Fine ds' /\ Forall2 (holds 8 8 0) bl ds'.
Proof.
  intros Hi Hbits Hn bl f Hfit. induction ps as [|p ps IH]; intros hists geo done n s ds fs Hord Hlh Hlg Hh Hg Hd Hs Hsd Hr Hds.
  - destruct hists, geo; try discriminate. cbn in Hr. destruct Hr as (-> & ->). rewrite (Hsd eq_refl) in Hds.
    exists []. split; [reflexivity|]. exists ds. split; [reflexivity | exact Hds].
  - destruct hists as [|h hists]; [discriminate|]. destruct geo as [|vs geo]; [discriminate|].
    inversion_clear Hh as [|? ? Hh1 Hh2]. inversion_clear Hg as [|? ? Hg1 Hg2].
    inversion_clear Hord as [|? ? Ho1 Ho2].
    cbn [refining] in Hr. destruct Hr as (Hp & Hps & Hcase & Hr).
    destruct (one_pass m bits num_hist h p done n s Hi Hbits Hh1 Hn Hd Hs Hsd Hp Hps Hcase bl vs ds f Hg1 Hds Hfit)
      as (ts & He & ds1 & Hd1 & Hds1).
    destruct (IH hists geo (if pshift p =? 0 then ncoef p else done) (ncoef p) (pshift p) ds1 (fun i => fs (Datatypes.S i))) as (tss & Het & ds2 & Hd2 & Hds2);
      try assumption; try (cbn in *; lia).
    { destruct (pshift p =? 0); lia. }
    { intros ->. reflexivity. }
    cbn [enc_passes]. rewrite !map_map. cbn [split_passes hd tl].
    rewrite (enc_indep m _ [] (fs O) f).
    2:{ rewrite combine_fst; [exact Ho1|]. rewrite map_length. clear - Hg1. induction Hg1; cbn [length]; congruence. }
    2:{ apply agree_nil. }
    rewrite He, Het. eexists. split; [reflexivity|].
    exists ds2. cbn [map dec_passes]. rewrite Hd1. split; assumption.
Qed.
