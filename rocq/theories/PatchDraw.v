(* Patches: drawing rows, and what the decoder accepts. *)
From Coq Require Import ZArith List Bool Permutation Sorted Lia Arith.
From Verif Require Import Base FieldsModel PatchModel PatchSpec PatchTree.
Import ListNotations.
Local Open Scope Z_scope.
Ltac Zify.zify_post_hook ::= idtac.

Definition rect_of (d : dict) (p : ppos) : refpos := nth (p_idx p) (refs d) (RefPos 0 0 0 0 0).
Definition iv_of (d : dict) (i : nat) (p : ppos) : interval := Iv i (p_y p) (p_y p + r_ys (rect_of d p)).
Definition known (d : dict) (p : ppos) : Prop :=
  (exists rp, nth_error (refs d) (p_idx p) = Some rp /\ 1 <= r_xs rp /\ 1 <= r_ys rp) /\ 0 <= p_x p /\ 0 <= p_y p.

Lemma known_rect d p : known d p -> nth_error (refs d) (p_idx p) = Some (rect_of d p) /\ 1 <= r_xs (rect_of d p) /\ 1 <= r_ys (rect_of d p).
Proof. intros [(rp & E & H1 & H2) _]. unfold rect_of. rewrite (nth_error_nth _ _ _ E). auto. Qed.

Lemma sound_known d : sound d -> Forall (known d) (positions d).
Proof. intros (A & B & _). rewrite Forall_forall in *. intros p Hp. split; [apply A, Hp|apply B, Hp]. Qed.

Lemma intervals_num d ps : Forall (known d) ps -> forall i, intervals_from d i ps = Some (number (iv_of d) i ps).
Proof.
  induction 1 as [|p ps K F IH]; intros i; [reflexivity|]. cbn [intervals_from number]. destruct (known_rect d p K) as [E _]. rewrite E, IH. reflexivity.
Qed.
Lemma number_proper d ps : Forall (known d) ps -> forall i, Forall proper (number (iv_of d) i ps).
Proof.
  induction 1 as [|p ps K F IH]; intros i; [constructor|]. cbn [number]. constructor; [|apply IH]. destruct (known_rect d p K) as (_ & _ & E). destruct K as (_ & _ & K). unfold proper. cbn. lia.
Qed.
Lemma number_ids d ps : forall i, map i_idx (number (iv_of d) i ps) = seq i (length ps).
Proof. induction ps as [|p ps IH]; intros i; [reflexivity|]. cbn [number map seq length iv_of i_idx]. f_equal. apply IH. Qed.
Lemma seq_sorted n : forall i, StronglySorted le (seq i n).
Proof. induction n as [|n IH]; intros i; [constructor|]. cbn [seq]. constructor; [apply IH|]. apply Forall_forall. intros j Hj. apply in_seq in Hj. lia. Qed.

Section R.
Variables sort0 sort1 : list interval -> list interval.
Variable sortn : list nat -> list nat.
Hypothesis H0 : sorts i_y0 sort0.
Hypothesis H1 : sorts i_y1 sort1.
Hypothesis Hn : sorts Z.of_nat sortn.

Lemma rows d y : sound d -> 0 <= y -> exists t, compute_tree sort0 sort1 d = Some t /\
  patches_for_row sortn t y = Some (map i_idx (filter (covers y) (number (iv_of d) 0 (positions d)))).
Proof.
  intros HS Hy. apply sound_known in HS. apply (row_ok sort0 sort1 H0 H1 sortn Hn d _ y); [apply intervals_num; exact HS|apply number_proper; exact HS| |exact Hy].
  rewrite number_ids. apply seq_sorted.
Qed.

Lemma draws_ok d y x0 xs : (length (positions d) * stride d <= length (blends d))%nat -> forall ps i, Forall (known d) ps -> (i + length ps = length (positions d))%nat ->
  (forall j, nth_error ps j = nth_error (positions d) (i + j)) ->
  exists ds, draws d y x0 xs (map i_idx (filter (covers y) (number (iv_of d) i ps))) = Some ds /\
  (forall x, x0 <= x < x0 + xs -> over_pixel ds x0 x = drawn_over (number (patch_of d) i ps) x y) /\
  (forall w, In w ds -> exists p, In p ps /\ let rp := rect_of d p in d_ref w = r_ref rp /\ length (d_blends w) = stride d /\ (0 <= xs -> 0 <= d_from w /\ 0 <= d_count w) /\ p_y p <= y < p_y p + r_ys rp /\ d_row w = r_y0 rp + (y - p_y p) /\
     forall k, d_from w <= k < d_from w + d_count w -> 0 <= k < xs /\ r_x0 rp <= d_base w + k < r_x0 rp + r_xs rp).
Proof.
  intros Hb. induction ps as [|p ps IH]; intros i HK Hl Hps.
  - exists []. cbn. split; [reflexivity|]. split; [reflexivity|]. intros w [].
  - inversion HK as [|? ? K HK']; subst. cbn [number].
    destruct (IH (S i) HK') as (ds & Ed & Ho & Hw); [cbn [length] in Hl; lia|intros j; change (nth_error (p :: ps) (S j) = nth_error (positions d) (S i + j)); rewrite (Hps (S j)); f_equal; lia|].
    destruct (known_rect d p K) as (En & Hx & Hy). set (rp := rect_of d p) in *.
    assert (Ep : nth_error (positions d) i = Some p) by (rewrite <- (Nat.add_0_r i), <- Hps; reflexivity).
    assert (Et : forall x, touches (patch_of d i p) x y = (p_x p <=? x) && (x <? p_x p + r_xs rp) && ((p_y p <=? y) && (y <? p_y p + r_ys rp))) by (intros x; unfold touches; cbn; rewrite !andb_assoc; reflexivity).
    cbn [filter]. unfold covers at 1. cbn [iv_of i_y0 i_y1]. fold rp.
    destruct ((p_y p <=? y) && (y <? p_y p + r_ys rp)) eqn:Ec.
    + cbn [map iv_of i_idx draws]. rewrite Ep, En. fold rp. rewrite Ec. cbn [negb]. apply andb_prop in Ec as [Ec1 Ec2]. apply Z.leb_le in Ec1. apply Z.ltb_lt in Ec2.
      rewrite Z.geb_leb. destruct (Z.leb_spec (x0 + xs) (p_x p)).
      { exists ds. split; [exact Ed|]. split.
        - intros x Hr. rewrite (Ho x Hr). unfold drawn_over. cbn [filter]. rewrite Et. replace (p_x p <=? x) with false by (symmetry; apply Z.leb_gt; lia). reflexivity.
        - intros w Hin. destruct (Hw w Hin) as (q & Hq & R). exists q. split; [right; exact Hq|exact R]. }
      destruct (Z.ltb_spec (p_x p + r_xs rp) x0).
      { exists ds. split; [exact Ed|]. split.
        - intros x Hr. rewrite (Ho x Hr). unfold drawn_over. cbn [filter]. rewrite Et. replace (x <? p_x p + r_xs rp) with false by (symmetry; apply Z.ltb_ge; lia). rewrite andb_false_r. reflexivity.
        - intros w Hin. destruct (Hw w Hin) as (q & Hq & R). exists q. split; [right; exact Hq|exact R]. }
      assert (Hlen : (length (blends d) <? (i + 1) * stride d)%nat = false) by (apply Nat.ltb_ge; cbn [length] in Hl; nia). rewrite Hlen, Ed. eexists. split; [reflexivity|]. split.
      * intros x Hr. specialize (Ho x Hr). unfold over_pixel, drawn_over in *. cbn [filter]. rewrite Et. cbn [d_from d_count].
        assert (Eq : (Z.max (p_x p) x0 - x0 <=? x - x0) && (x - x0 <? Z.max (p_x p) x0 - x0 + (Z.min (p_x p + r_xs rp) (x0 + xs) - Z.max (p_x p) x0)) = (p_x p <=? x) && (x <? p_x p + r_xs rp) && true).
        { rewrite andb_true_r.
          destruct (Z.leb_spec (p_x p) x), (Z.ltb_spec x (p_x p + r_xs rp)), (Z.leb_spec (Z.max (p_x p) x0 - x0) (x - x0)), (Z.ltb_spec (x - x0) (Z.max (p_x p) x0 - x0 + (Z.min (p_x p + r_xs rp) (x0 + xs) - Z.max (p_x p) x0))); cbn [andb]; try reflexivity; lia. }
        rewrite Eq. destruct ((p_x p <=? x) && (x <? p_x p + r_xs rp) && true); [|exact Ho]. cbn [map]. rewrite Ho. f_equal. cbn [d_ref d_base d_row d_blends patch_of k_rect k_x k_y k_blends].
        fold (rect_of d p). fold rp. f_equal. f_equal. f_equal. lia.
      * intros w [<-|Hin]; [|destruct (Hw w Hin) as (q & Hq & R); exists q; split; [right; exact Hq|exact R]]. exists p. split; [left; reflexivity|]. cbv zeta. fold rp. cbn [d_ref d_row d_base d_from d_count d_blends].
        split; [reflexivity|]. split; [rewrite firstn_length, skipn_length; apply Nat.ltb_ge in Hlen; lia|]. split; [lia|]. split; [lia|]. split; [reflexivity|]. intros k Hk. lia.
    + exists ds. split; [exact Ed|]. split.
      * intros x Hr. rewrite (Ho x Hr). unfold drawn_over. cbn [filter]. rewrite Et, andb_false_r. reflexivity.
      * intros w Hin. destruct (Hw w Hin) as (q & Hq & R). exists q. split; [right; exact Hq|exact R].
Qed.

Lemma row_drawn d y x0 xs : sound d -> 0 <= y ->
  exists ds, add_one_row sort0 sort1 sortn d y x0 xs = Some ds /\
  (forall x, x0 <= x < x0 + xs -> over_pixel ds x0 x = drawn_over (patches d) x y) /\
  (forall w, In w ds -> exists p, In p (positions d) /\ let rp := rect_of d p in d_ref w = r_ref rp /\ length (d_blends w) = stride d /\ (0 <= xs -> 0 <= d_from w /\ 0 <= d_count w) /\ p_y p <= y < p_y p + r_ys rp /\ d_row w = r_y0 rp + (y - p_y p) /\
     forall k, d_from w <= k < d_from w + d_count w -> 0 <= k < xs /\ r_x0 rp <= d_base w + k < r_x0 rp + r_xs rp).
Proof.
  intros HS Hy. destruct (rows d y HS Hy) as (t & Et & Er). unfold add_one_row. rewrite Et, Er. apply (draws_ok d y x0 xs); [apply HS|apply sound_known, HS|reflexivity|reflexivity].
Qed.
End R.

(* ---- the decoder ---- *)
Lemma blend_ok_is nec b : blend_ok nec b <-> 0 <= b_mode b < 8 /\
  (if uses_alpha (b_mode b) && (1 <? nec)%nat then 0 <= b_alpha b < Z.of_nat nec else b_alpha b = 0) /\
  (uses_clamp (b_mode b) = false -> b_clamp b = false).
Proof.
  unfold blend_ok. assert (A : 0 <= b_mode b < 8 -> uses_alpha (b_mode b) = (4 <=? b_mode b) /\ (uses_clamp (b_mode b) = false <-> b_mode b < 3)).
  { intros H. assert (E : b_mode b = 0 \/ b_mode b = 1 \/ b_mode b = 2 \/ b_mode b = 3 \/ b_mode b = 4 \/ b_mode b = 5 \/ b_mode b = 6 \/ b_mode b = 7) by lia.
    repeat destruct E as [E|E]; rewrite E; cbn; split; try reflexivity; split; intros; try reflexivity; try lia; discriminate. }
  split; intros (B1 & B2 & B3); destruct (A B1) as [A1 A2]; rewrite A1 in *; (split; [exact B1|split; [exact B2|tauto]]).
Qed.

Section D.
Variable St : Type.
Variable read : St -> Z -> Z * St.
Hypothesis Hread : forall st c, 0 <= fst (read st c) < 2 ^ 32.
Variable frames : list rframe.
Variables xsize ysize : Z.
Variable nec : nat.

Lemma read_ok st c v st' : read st c = (v, st') -> 0 <= v < 2 ^ 32.
Proof. intros E. specialize (Hread st c). rewrite E in Hread. exact Hread. Qed.

Lemma read_blends_ok n : forall st bs st', read_blends St read nec n st = Some (bs, st') -> length bs = n /\ Forall (blend_ok nec) bs.
Proof.
  induction n as [|n IH]; intros st bs st' E; cbn [read_blends] in E; [injection E as <- <-; split; [reflexivity|constructor]|].
  destruct (read st ctx_mode) as [mode st1] eqn:E1. apply read_ok in E1. destruct (Z.leb_spec 8 mode); [discriminate|]. cbv zeta in E.
  destruct (uses_alpha mode && (1 <? nec)%nat) eqn:Ea.
  - destruct (read st1 ctx_alpha) as [alpha st2] eqn:E2. apply read_ok in E2. cbn [andb] in E. destruct (Z.leb_spec (Z.of_nat nec) alpha); [discriminate|].
    destruct (uses_clamp mode) eqn:Ek.
    + destruct (read st2 ctx_clamp) as [v st3]. destruct (read_blends St read nec n st3) as [[l st4]|] eqn:El; [|discriminate]. injection E as <- <-. destruct (IH _ _ _ El) as [IL IF].
      split; [cbn [length]; congruence|]. constructor; [apply blend_ok_is|exact IF]. split; [cbn; lia|]. cbn [b_mode b_alpha b_clamp]. rewrite Ea. split; [lia|congruence].
    + exfalso. unfold uses_clamp in Ek. apply andb_prop in Ea as [Ea _]. rewrite Ea in Ek. discriminate.
  - cbn [andb] in E. destruct (uses_clamp mode) eqn:Ek.
    + destruct (read st1 ctx_clamp) as [v st3]. destruct (read_blends St read nec n st3) as [[l st4]|] eqn:El; [|discriminate]. injection E as <- <-. destruct (IH _ _ _ El) as [IL IF].
      split; [cbn [length]; congruence|]. constructor; [apply blend_ok_is|exact IF]. split; [cbn; lia|]. cbn [b_mode b_alpha b_clamp]. rewrite Ea. split; [reflexivity|congruence].
    + destruct (read_blends St read nec n st1) as [[l st4]|] eqn:El; [|discriminate]. injection E as <- <-. destruct (IH _ _ _ El) as [IL IF].
      split; [cbn [length]; congruence|]. constructor; [apply blend_ok_is|exact IF]. split; [cbn; lia|]. cbn [b_mode b_alpha b_clamp]. rewrite Ea. split; reflexivity.
Qed.

Lemma read_offset_ok prev st v st' : 0 <= prev -> read_offset St read prev st = Some (v, st') -> 0 <= v.
Proof.
  intros Hp. unfold read_offset. destruct (read st ctx_offset) as [u st1]. set (delta := unpack_signed u). clearbody delta. rewrite Z.gtb_ltb.
  destruct (Z.ltb_spec delta 0), (Z.ltb_spec prev (- delta)); cbn [andb]; intros E; try discriminate; injection E as <- <-; lia.
Qed.

Definition placed (rp : refpos) (idx : nat) (p : ppos) : Prop :=
  p_idx p = idx /\ 0 <= p_x p /\ p_x p + r_xs rp <= xsize /\ 0 <= p_y p /\ p_y p + r_ys rp <= ysize.

Lemma read_group_ok rp n : forall first d st d' st', read_group St read xsize ysize nec n first rp d st = Some (d', st') ->
  (first = false -> 0 <= p_x (last (positions d) (PPos 0 0 0)) /\ 0 <= p_y (last (positions d) (PPos 0 0 0))) ->
  exists ps bs, d' = Dict (positions d ++ ps) (refs d) (blends d ++ bs) (stride d) /\ length ps = n /\ length bs = (n * stride d)%nat /\
  Forall (placed rp (length (refs d))) ps /\ Forall (blend_ok nec) bs.
Proof.
  induction n as [|n IH]; intros first d st d' st' E Hb; cbn [read_group] in E.
  - injection E as <- <-. exists [], []. rewrite !app_nil_r. destruct d. repeat split; constructor.
  - destruct (read_position St read first (positions d) (length (refs d)) st) as [[pos st1]|] eqn:Ep; [|discriminate].
    assert (Hp : p_idx pos = length (refs d) /\ 0 <= p_x pos /\ 0 <= p_y pos).
    { unfold read_position in Ep. destruct first.
      - destruct (read st ctx_pos) as [x sx] eqn:Ex. destruct (read sx ctx_pos) as [y sy] eqn:Ey. apply read_ok in Ex, Ey. injection Ep as <- <-. cbn. split; [reflexivity|lia].
      - destruct (Hb eq_refl) as [B1 B2]. cbv zeta in Ep. destruct (read_offset St read (p_x (last (positions d) (PPos 0 0 0))) st) as [[x sx]|] eqn:Ex; [|discriminate].
        destruct (read_offset St read (p_y (last (positions d) (PPos 0 0 0))) sx) as [[y sy]|] eqn:Ey; [|discriminate]. apply read_offset_ok in Ex, Ey; try assumption. injection Ep as <- <-. cbn. split; [reflexivity|lia]. }
    rewrite !Z.gtb_ltb in E. destruct (Z.ltb_spec xsize (p_x pos + r_xs rp)); [discriminate|]. destruct (Z.ltb_spec ysize (p_y pos + r_ys rp)); [discriminate|].
    destruct (read_blends St read nec (stride d) st1) as [[bs st2]|] eqn:Eb; [|discriminate]. apply read_blends_ok in Eb as [Lb Fb].
    destruct (IH _ _ _ _ _ E) as (ps & bs' & -> & L1 & L2 & F1 & F2); [intros _; cbn [positions]; rewrite last_last; lia|]. cbn [positions refs blends stride] in *.
    exists (pos :: ps), (bs ++ bs'). rewrite <- !app_assoc. split; [reflexivity|]. split; [cbn [length]; congruence|]. split; [rewrite app_length; lia|]. split; [|apply Forall_app; auto].
    constructor; [|exact F1]. unfold placed. lia.
Qed.

Definition settled (d : dict) (p : ppos) : Prop := exists rp, nth_error (refs d) (p_idx p) = Some rp /\ inside frames rp /\ placed rp (p_idx p) p.

Lemma read_ref_ok st rp st' : read_ref St read frames st = Some (rp, st') -> inside frames rp.
Proof.
  unfold read_ref. destruct (read st ctx_ref_frame) as [ref s1] eqn:E1. apply read_ok in E1. destruct (Z.leb_spec 4 ref); [discriminate|].
  destruct (nth_error frames (Z.to_nat ref)) as [f|] eqn:Ef; [|discriminate]. destruct (f_xs f =? 0); [discriminate|]. destruct (f_xyb f) eqn:Ex; [|discriminate]. cbn [negb].
  destruct (read s1 ctx_ref_pos) as [x0 s2] eqn:E2. destruct (read s2 ctx_ref_pos) as [y0 s3] eqn:E3. destruct (read s3 ctx_size) as [xs s4] eqn:E4. destruct (read s4 ctx_size) as [ys s5] eqn:E5. apply read_ok in E2, E3, E4, E5.
  rewrite !Z.gtb_ltb. destruct (Z.ltb_spec (f_xs f) (x0 + (xs + 1))); [discriminate|]. destruct (Z.ltb_spec (f_ys f) (y0 + (ys + 1))); [discriminate|]. intros E. injection E as <- <-.
  exists f. cbn. split; [lia|]. split; [exact Ef|]. split; [exact Ex|]. lia.
Qed.

Lemma read_refs_ok n : forall total next d st d' st', read_refs St read frames xsize ysize nec n total next d st = Some (d', st') ->
  zlen (positions d) = total -> total <= max_patches xsize ysize -> Forall (settled d) (positions d) -> Forall (blend_ok nec) (blends d) ->
  Forall (settled d') (positions d') /\ zlen (positions d') <= max_patches xsize ysize /\ Forall (blend_ok nec) (blends d') /\ stride d' = stride d /\
  (exists rs, refs d' = refs d ++ rs /\ length rs = n) /\ exists bs, blends d' = blends d ++ bs /\ (length bs + length (positions d) * stride d = length (positions d') * stride d)%nat.
Proof.
  induction n as [|n IH]; intros total next d st d' st' E Ht Hm HF HB; cbn [read_refs] in E.
  - injection E as <- <-. split; [exact HF|]. split; [lia|]. split; [exact HB|]. split; [reflexivity|]. split; [exists []; split; [symmetry; apply app_nil_r|reflexivity]|exists []]. split; [symmetry; apply app_nil_r|reflexivity].
  - destruct (read_ref St read frames st) as [[rp st1]|] eqn:Er; [|discriminate]. apply read_ref_ok in Er. destruct (read st1 ctx_count) as [cnt st2] eqn:Ec. apply read_ok in Ec. cbv zeta in E.
    rewrite !Z.gtb_ltb in E. destruct (Z.ltb_spec (max_patches xsize ysize) cnt); [discriminate|]. destruct (Z.ltb_spec (max_patches xsize ysize) (total + (cnt + 1))); [discriminate|].
    match type of E with (if ?b then _ else _) = _ => destruct b; [discriminate|] end.
    match type of E with match ?g with _ => _ end = _ => destruct g as [[d1 st3]|] eqn:Eg; [|discriminate] end;
      apply read_group_ok in Eg; [|discriminate]; destruct Eg as (ps & bs & -> & L1 & L2 & F1 & F2); cbn [positions refs blends stride] in E;
      apply IH in E; cbn [positions refs blends stride] in *;
      [destruct E as (G1 & G2 & G3 & G4 & (rs & G5 & G5') & bs' & G6 & G7); split; [exact G1|]; split; [exact G2|]; split; [exact G3|]; split; [exact G4|];
        split; [exists (rp :: rs); split; [rewrite G5, <- app_assoc; reflexivity|cbn [length]; congruence]|exists (bs ++ bs')]; split; [rewrite G6, <- app_assoc; reflexivity|rewrite app_length in *; nia]
      |unfold zlen in *; rewrite app_length, L1; lia
      |lia
      |apply Forall_app; split; [revert HF; apply Forall_impl; intros p (rp' & A1 & A2 & A3); exists rp'; split; [cbn [refs]; rewrite nth_error_app1 by (apply nth_error_Some; congruence); exact A1|auto]
        |revert F1; apply Forall_impl; intros p A; exists rp; pose proof A as (A1 & _); split; [cbn [refs]; rewrite A1, nth_error_app2, Nat.sub_diag by lia; reflexivity|]; split; [exact Er|rewrite A1; exact A]]
      |apply Forall_app; auto].
Qed.

Lemma decode_ok d st d' st' : 0 <= xsize -> 0 <= ysize -> Forall (blend_ok nec) (blends d) -> decode St read frames xsize ysize nec d st = Some (d', st') ->
  Forall (settled d') (positions d') /\ zlen (positions d') <= max_patches xsize ysize /\ Forall (blend_ok nec) (blends d') /\ stride d' = (nec + 1)%nat /\
  zlen (refs d') <= zlen (refs d) + max_ref_patches xsize ysize /\ (length (positions d') * stride d' <= length (blends d'))%nat.
Proof.
  intros Hx Hy HB. unfold decode. destruct (read st ctx_num_ref) as [num st1] eqn:E1. apply read_ok in E1. rewrite Z.gtb_ltb. destruct (Z.ltb_spec (max_ref_patches xsize ysize) num); [discriminate|].
  intros E. apply read_refs_ok in E; cbn [positions refs blends stride] in *; [|reflexivity|unfold max_patches; lia|constructor|exact HB].
  destruct E as (G1 & G2 & G3 & G4 & (rs & G5 & G5') & bs & G6 & G7). split; [exact G1|]. split; [exact G2|]. split; [exact G3|]. split; [exact G4|]. split; [unfold zlen in *; rewrite G5, app_length; lia|].
  rewrite G6, G4, app_length. cbn [length] in G7. lia.
Qed.
End D.
