From Verif Require Import Base Arr ListAux Wrap PaletteModel PaletteSpec.
From Coq Require Import Permutation.
Ltac Zify.zify_post_hook ::= idtac.

Lemma omap_ok {A B} (f : A -> option B) (Q : A -> B -> Prop) l : (forall a, In a l -> exists b, f a = Some b /\ Q a b) -> exists bs, omap f l = Some bs /\ Forall2 Q l bs.
Proof.
  induction l as [|a l IH]; intros H; [exists []; split; [reflexivity|constructor]|].
  destruct (H a (or_introl eq_refl)) as (b & E & K). destruct IH as (bs & E2 & K2); [intros; apply H; right; assumption|].
  exists (b :: bs). cbn [omap]. rewrite E, E2. split; [reflexivity|constructor; assumption].
Qed.

Lemma omap_inv {A B} (f : A -> option B) l bs : omap f l = Some bs -> Forall2 (fun a b => f a = Some b) l bs.
Proof.
  revert bs. induction l as [|a l IH]; intros bs H; cbn [omap] in H; [injection H as <-; constructor|].
  destruct (f a) as [b|] eqn:E; [|discriminate]. destruct (omap f l) as [r|]; [|discriminate]. injection H as <-. constructor; [assumption|]. apply IH. reflexivity.
Qed.

Lemma omap_intro {A B} (f : A -> option B) l bs : Forall2 (fun a b => f a = Some b) l bs -> omap f l = Some bs.
Proof. induction 1 as [|a b l bs H _ IH]; [reflexivity|]. cbn [omap]. rewrite H, IH. reflexivity. Qed.

(* going back through f *)
Lemma omap_back {A B} (f : A -> option B) (g : B -> option A) l r : omap f l = Some r -> (forall a b, In a l -> f a = Some b -> g b = Some a) -> omap g r = Some l.
Proof.
  intros H K. apply omap_inv in H. apply omap_intro. induction H as [|a b l r H _ IH]; [constructor|].
  constructor; [apply K; [left; reflexivity|exact H]|]. apply IH. intros; apply K; [right|]; assumption.
Qed.

Lemma omap_back2 {A B} (f : A -> option B) (g : B -> option A) l r : omap (omap f) l = Some r -> (forall a b, In a (concat l) -> f a = Some b -> g b = Some a) -> omap (omap g) r = Some l.
Proof.
  intros H K. apply (omap_back (omap f)); [exact H|]. intros a b Ha Hf. apply (omap_back f); [exact Hf|].
  intros x y Hx. apply K. apply in_concat. exists a. split; assumption.
Qed.

Lemma omap2_total {A B} (f : A -> option B) l : (forall a, In a (concat l) -> exists b, f a = Some b) -> exists r, omap (omap f) l = Some r.
Proof.
  intros H. destruct (omap_ok (omap f) (fun _ _ => True) l) as (r & E & _); [|exists r; exact E].
  intros a Ha. destruct (omap_ok f (fun _ _ => True) a) as (b & E & _); [|exists b; split; [exact E|exact I]].
  intros x Hx. destruct (H x) as (y & E); [apply in_concat; exists a; split; assumption|]. exists y. split; [exact E|exact I].
Qed.

Lemma Forall2_zlen {A B} (Q : A -> B -> Prop) l r : Forall2 Q l r -> zlen r = zlen l.
Proof. induction 1 as [|a b l r _ _ IH]; [reflexivity|]. rewrite !zlen_cons, IH. reflexivity. Qed.

(* ---- GetPaletteValue ---- *)
Lemma delta_table : forallb (fun e => (zlen e =? 3) && forallb (fun v => (- 255 <=? v) && (v <=? 255)) e) kDeltaPalette && (zlen kDeltaPalette =? 72) = true.
Proof. vm_compute. reflexivity. Qed.

Lemma scale_range v d : 0 <= v <= 4 -> 0 <= d <= 24 -> 0 <= scale v d < 2 ^ 24.
Proof.
  intros Hv Hd. unfold scale. assert (1 <= 2 ^ d <= 2 ^ 24) by (split; [apply (Z.pow_le_mono_r 2 0); lia|apply Z.pow_le_mono_r; lia]).
  assert (E : w64 (2 ^ d - 1) = 2 ^ d - 1) by (unfold w64; apply Z.mod_small; lia). rewrite E.
  assert (E2 : w64 (v * (2 ^ d - 1)) = v * (2 ^ d - 1)) by (unfold w64; apply Z.mod_small; nia). rewrite E2.
  rewrite Z.shiftr_div_pow2 by lia. change (2 ^ 2) with 4.
  assert (0 <= v * (2 ^ d - 1) / 4 < 2 ^ 24) by (split; [apply Z.div_pos; nia|apply Z.div_lt_upper_bound; nia]).
  rewrite s32_id; [lia|]. unfold is_i32. lia.
Qed.

Lemma i32_some v : is_i32 v -> i32 v = Some v.
Proof. unfold is_i32, i32. intros H. replace ((- 2 ^ 31 <=? v) && (v <? 2 ^ 31)) with true by lia. reflexivity. Qed.

Lemma palette_at_some rows w c index : 0 <= c < zlen rows -> Forall (fun row => zlen row = w /\ Forall is_i32 row) rows -> 0 <= index < w -> exists v, palette_at rows c index = Some v /\ is_i32 v.
Proof.
  intros Hc F Hi. unfold palette_at. rewrite (znth_some rows c [] Hc).
  rewrite Forall_forall in F. destruct (F (nth (Z.to_nat c) rows [])) as (L & R); [apply nth_In; unfold zlen in Hc; lia|].
  rewrite (znth_some _ index 0) by lia. eexists. split; [reflexivity|]. rewrite Forall_forall in R. apply R. apply nth_In. unfold zlen in L. lia.
Qed.

Lemma value_total rows w index c d : 0 <= w -> 0 <= c < zlen rows -> Forall (fun row => zlen row = w /\ Forall is_i32 row) rows -> 0 <= d <= 24 -> exists v, get_palette_value rows index c w d = Some v /\ is_i32 v.
Proof.
  intros Hw Hc F Hd. unfold get_palette_value. assert (Z0 : is_i32 0) by (unfold is_i32; lia).
  destruct (Z.ltb_spec index 0) as [Hi|Hi].
  - destruct (Z.leb_spec 3 c); [eauto|]. pose proof delta_table as T. apply andb_true_iff in T. destruct T as (T & L). apply Z.eqb_eq in L.
    rewrite L. change (1 + 2 * (72 - 1)) with 143. cbv zeta. set (i := _ mod 143). assert (0 <= i < 143) by (apply Z.mod_pos_bound; lia).
    assert (B : 0 <= (i + 1) / 2 < 72) by (split; [apply Z.div_pos; lia|apply Z.div_lt_upper_bound; lia]).
    rewrite (znth_some kDeltaPalette _ []) by lia. set (e := nth _ _ _). rewrite forallb_forall in T. specialize (T e). assert (IN : In e kDeltaPalette) by (apply nth_In; unfold zlen in L; lia).
    specialize (T IN). apply andb_true_iff in T. destruct T as (T1 & T2). apply Z.eqb_eq in T1. rewrite (znth_some e c 0) by lia.
    rewrite forallb_forall in T2. specialize (T2 (nth (Z.to_nat c) e 0)). set (v := nth _ e 0) in *.
    assert (V : - 255 <= v <= 255) by (assert (K : In v e) by (apply nth_In; unfold zlen in T1; lia); apply T2 in K; lia).
    assert (V2 : - 255 <= v * (if Z.odd i then 1 else -1) <= 255) by (destruct (Z.odd i); lia).
    destruct (Z.ltb_spec 8 d).
    + assert (P : 1 <= 2 ^ (d - 8) <= 2 ^ 16) by (split; [apply (Z.pow_le_mono_r 2 0); lia|apply Z.pow_le_mono_r; lia]).
      assert (R : is_i32 (v * (if Z.odd i then 1 else -1) * 2 ^ (d - 8))) by (unfold is_i32; change (2 ^ 31) with 2147483648; change (2 ^ 16) with 65536 in P; nia).
      rewrite i32_some by exact R. eauto.
    + eexists. split; [reflexivity|]. unfold is_i32. lia.
  - destruct (_ && _) eqn:E1.
    + destruct (Z.leb_spec 3 c); [eauto|]. cbv zeta. set (k := _ mod 4). assert (0 <= k < 4) by (apply Z.mod_pos_bound; lia).
      pose proof (scale_range k d ltac:(lia) Hd). assert (1 <= 2 ^ Z.max 0 (d - 3) <= 2 ^ 21) by (split; [apply (Z.pow_le_mono_r 2 0); lia|apply Z.pow_le_mono_r; lia]).
      assert (R : is_i32 (scale k d + 2 ^ Z.max 0 (d - 3))) by (unfold is_i32; lia). rewrite i32_some by exact R. eauto.
    + destruct (Z.leb_spec (w + 64) index).
      * destruct (Z.leb_spec 3 c); [eauto|]. cbv zeta. set (k := _ mod 5). assert (0 <= k < 5) by (apply Z.mod_pos_bound; lia).
        pose proof (scale_range k d ltac:(lia) Hd). eexists. split; [reflexivity|]. unfold is_i32. lia.
      * apply palette_at_some with (w := w); try assumption. lia.
Qed.

Lemma value_explicit rows w index c d : 0 <= index < w -> get_palette_value rows index c w d = palette_at rows c index.
Proof.
  intros H. unfold get_palette_value. replace (index <? 0) with false by lia. replace (w <=? index) with false by lia. cbn [andb]. replace (w + 64 <=? index) with false by lia. reflexivity.
Qed.

Lemma value_implicit rows w k c d : 0 <= k -> 0 <= w -> get_palette_value rows (w + k) c w d = get_palette_value [] k c 0 d.
Proof.
  intros Hk Hw. unfold get_palette_value. replace (w + k <? 0) with false by lia. replace (k <? 0) with false by lia.
  replace ((w <=? w + k) && (w + k <? w + 64)) with (k <? 64) by lia. replace ((0 <=? k) && (k <? 0 + 64)) with (k <? 64) by lia.
  destruct (Z.ltb_spec k 64).
  - replace (w + k - w) with (k - 0) by lia. reflexivity.
  - replace (w + 64 <=? w + k) with true by lia. replace (0 + 64 <=? k) with true by lia. replace (w + k - (w + 64)) with (k - (0 + 64)) by lia. reflexivity.
Qed.
