(* Proofs about squeeze. *)
From Verif Require Import Base ListAux Wrap SqueezeModel SqueezeSpec.

Lemma s32_id v : is_i32 v -> s32 v = v.
Proof. unfold is_i32, s32, w32. intros. lia. Qed.

Lemma int_some v r : int_ v = Some r -> r = v /\ is_i32 v.
Proof. unfold int_, is_i32. destruct (Z.leb_spec (- 2 ^ 31) v), (Z.ltb_spec v (2 ^ 31)); cbn [andb]; intros [= <-]. lia. Qed.
Lemma int_ok v : is_i32 v -> int_ v = Some v.
Proof. unfold int_, is_i32. intros. replace ((- 2 ^ 31 <=? v) && (v <? 2 ^ 31)) with true by lia. reflexivity. Qed.

Lemma land1 v : Z.land v 1 = v mod 2.
Proof. change 1 with (Z.ones 1). rewrite Z.land_ones by lia. reflexivity. Qed.

Lemma quot_pos a b : 0 <= a -> 0 < b -> Z.quot a b = a / b.
Proof. intros. apply Z.quot_div_nonneg; lia. Qed.
Lemma quot_neg a b : a <= 0 -> 0 < b -> Z.quot a b = - ((- a) / b).
Proof. intros. replace a with (- - a) at 1 by lia. rewrite Z.quot_opp_l by lia. f_equal. apply Z.quot_div_nonneg; lia. Qed.

(* SmoothTendency by magnitudes: x = |B - a|, y = |a - n| *)
Definition limited (d x y : Z) : Z :=
  let d := if 2 * x <? d - d mod 2 then 2 * x + 1 else d in
  if 2 * y <? d + d mod 2 then 2 * y else d.
Definition tend (x y : Z) : Z := limited ((3 * (x + y) + x + 6) / 12) x y.

Lemma limited_range d x y : 0 <= d -> 0 <= x -> 0 <= y -> 0 <= limited d x y <= d.
Proof.
  intros Hd Hx Hy. unfold limited. cbv zeta.
  destruct (Z.ltb_spec (2 * x) (d - d mod 2)).
  - destruct (Z.ltb_spec (2 * y) (2 * x + 1 + (2 * x + 1) mod 2)); lia.
  - destruct (Z.ltb_spec (2 * y) (d + d mod 2)); lia.
Qed.

Lemma tendency_down B a n : a <= B -> n <= a -> smooth_tendency B a n = tend (B - a) (a - n).
Proof.
  intros H1 H2. unfold smooth_tendency, tend, limited. replace ((a <=? B) && (n <=? a)) with true by lia.
  rewrite quot_pos by lia. cbv zeta. rewrite !land1.
  replace (3 * (B - a + (a - n)) + (B - a) + 6) with (4 * B - 3 * n - a + 6) by lia. reflexivity.
Qed.

Lemma mod2_opp d : (- d) mod 2 = d mod 2.
Proof. lia. Qed.

Lemma tendency_up B a n : B <= a -> a <= n -> smooth_tendency B a n = - tend (a - B) (n - a).
Proof.
  intros H1 H2. unfold smooth_tendency. destruct ((a <=? B) && (n <=? a)) eqn:E.
  - assert (B = a /\ a = n) as (-> & ->) by lia. rewrite quot_pos by lia. cbv zeta.
    replace (4 * n - 3 * n - n + 6) with 6 by lia. rewrite !Z.sub_diag. reflexivity.
  - replace ((B <=? a) && (a <=? n)) with true by lia. rewrite quot_neg by lia. unfold tend, limited. cbv zeta. rewrite !land1.
    replace (- (4 * B - 3 * n - a - 6)) with (3 * (a - B + (n - a)) + (a - B) + 6) by lia.
    set (d := (3 * (a - B + (n - a)) + (a - B) + 6) / 12).
    rewrite mod2_opp.
    destruct (Z.ltb_spec (- d + d mod 2) (2 * (B - a))), (Z.ltb_spec (2 * (a - B)) (d - d mod 2)); try lia.
    + replace (2 * (B - a) - 1) with (- (2 * (a - B) + 1)) by lia. set (d1 := 2 * (a - B) + 1). rewrite mod2_opp.
      destruct (Z.ltb_spec (- d1 - d1 mod 2) (2 * (a - n))), (Z.ltb_spec (2 * (n - a)) (d1 + d1 mod 2)); lia.
    + rewrite mod2_opp.
      destruct (Z.ltb_spec (- d - d mod 2) (2 * (a - n))), (Z.ltb_spec (2 * (n - a)) (d + d mod 2)); lia.
Qed.

Lemma tendency_other B a n : (a < B /\ a < n) \/ (B < a /\ n < a) -> smooth_tendency B a n = 0.
Proof.
  intros H. unfold smooth_tendency. replace ((a <=? B) && (n <=? a)) with false by lia.
  replace ((B <=? a) && (a <=? n)) with false by lia. reflexivity.
Qed.

Lemma tend_range x y M : 0 <= x -> 0 <= y -> x + y <= 2 * M -> 0 <= tend x y <= M.
Proof.
  intros Hx Hy HM. unfold tend. pose proof (limited_range ((3 * (x + y) + x + 6) / 12) x y). lia.
Qed.

Lemma tendency_bound B a n M : - M <= B <= M -> - M <= a <= M -> - M <= n <= M ->
  - M <= smooth_tendency B a n <= M.
Proof.
  intros HB Ha Hn.
  destruct (Z.le_gt_cases a B), (Z.le_gt_cases n a).
  - rewrite tendency_down by lia. pose proof (tend_range (B - a) (a - n) M). lia.
  - destruct (Z.eq_dec a B) as [<-|].
    + rewrite tendency_up by lia. pose proof (tend_range (a - a) (n - a) M). lia.
    + rewrite tendency_other by lia. lia.
  - destruct (Z.eq_dec a n) as [<-|].
    + rewrite tendency_up by lia. pose proof (tend_range (a - B) (a - a) M). lia.
    + rewrite tendency_other by lia. lia.
  - rewrite tendency_up by lia. pose proof (tend_range (a - B) (n - a) M). lia.
Qed.

Lemma tendency_i32 B a n : is_i32 B -> is_i32 a -> is_i32 n -> is_i32 (smooth_tendency B a n).
Proof.
  unfold is_i32. intros HB Ha Hn.
  assert (R : forall x y, 0 <= x < 2 ^ 32 -> 0 <= y < 2 ^ 32 -> x + y < 2 ^ 32 -> 0 <= tend x y < 2 ^ 31).
  { intros x y Hx Hy Hxy. unfold tend. pose proof (limited_range ((3 * (x + y) + x + 6) / 12) x y). lia. }
  destruct (Z.le_gt_cases a B), (Z.le_gt_cases n a).
  - rewrite tendency_down by lia. pose proof (R (B - a) (a - n)). lia.
  - destruct (Z.eq_dec a B) as [<-|].
    + rewrite tendency_up by lia. pose proof (R (a - a) (n - a)). lia.
    + rewrite tendency_other by lia. lia.
  - destruct (Z.eq_dec a n) as [<-|].
    + rewrite tendency_up by lia. pose proof (R (a - B) (a - a)). lia.
    + rewrite tendency_other by lia. lia.
  - rewrite tendency_up by lia. pose proof (R (a - B) (n - a)). lia.
Qed.

(* ---- one pair ---- *)
Lemma average_spec A B v : average A B = Some v -> v = (A + B + (if B <? A then 1 else 0)) / 2.
Proof.
  unfold average. destruct (int_ (A + B)) as [s|] eqn:E; [|discriminate]. apply int_some in E as (-> & _).
  destruct (int_ _) as [s|] eqn:E2; [|discriminate]. apply int_some in E2 as (-> & _). intros [= <-].
  rewrite Z.shiftr_div_pow2 by lia. reflexivity.
Qed.
Lemma average_ok A B M : - M <= A <= M -> - M <= B <= M -> M < 2 ^ 29 -> exists v, average A B = Some v.
Proof.
  intros HA HB HM. unfold average. rewrite int_ok by (unfold is_i32; lia).
  rewrite int_ok by (unfold is_i32; destruct (B <? A); lia). eauto.
Qed.
Lemma average_within A B v M : average A B = Some v -> - M <= A <= M -> - M <= B <= M -> - M <= v <= M.
Proof. intros H%average_spec. destruct (Z.ltb_spec B A); lia. Qed.
Lemma average_i32 A B v : average A B = Some v -> is_i32 A -> is_i32 B -> is_i32 v.
Proof. unfold is_i32. intros H%average_spec. destruct (Z.ltb_spec B A); lia. Qed.

Lemma quot2 d : Z.quot d 2 = if d <? 0 then (d + 1) / 2 else d / 2.
Proof. destruct (Z.ltb_spec d 0); [rewrite quot_neg by lia|rewrite quot_pos by lia]; lia. Qed.

Lemma pair_lossless left next A B av r :
  is_i32 left -> is_i32 next -> is_i32 A -> is_i32 B ->
  average A B = Some av -> residual left av next A B = Some r -> unsqueeze_scalar left av next r = (A, B).
Proof.
  intros Hl Hn HA HB Hav Hr. pose proof (average_i32 _ _ _ Hav HA HB) as Hai. apply average_spec in Hav.
  unfold residual in Hr. destruct (int_ (A - B)) as [d|] eqn:E; [|discriminate]. apply int_some in E as (-> & _).
  apply int_some in Hr as (-> & _). rewrite s32_id by now apply tendency_i32.
  unfold unsqueeze_scalar. cbv zeta.
  replace (A - B - smooth_tendency left av next + smooth_tendency left av next) with (A - B) by lia.
  rewrite quot2. assert (E : av + (if A - B <? 0 then (A - B + 1) / 2 else (A - B) / 2) = A).
  { subst av. destruct (Z.ltb_spec B A), (Z.ltb_spec (A - B) 0); lia. }
  rewrite E, !s32_id; [f_equal; lia| |exact HA]. replace (A - (A - B)) with B by lia. exact HB.
Qed.

Lemma residual_ok left av next A B M : - M <= left <= M -> - M <= av <= M -> - M <= next <= M ->
  - M <= A <= M -> - M <= B <= M -> M < 2 ^ 29 ->
  exists r, residual left av next A B = Some r /\ - (3 * M) <= r <= 3 * M.
Proof.
  intros Hl Hv Hn HA HB HM. unfold residual. rewrite int_ok by (unfold is_i32; lia).
  pose proof (tendency_bound left av next M Hl Hv Hn). rewrite s32_id by (unfold is_i32; lia).
  rewrite int_ok by (unfold is_i32; lia). eexists. split; [reflexivity|lia].
Qed.

(* ---- the vector step ---- *)
Lemma third x : 0 <= x < 2 ^ 31 -> Z.shiftr (x * 0x55555556) 32 = x / 3.
Proof. intros Hx. rewrite Z.shiftr_div_pow2 by lia. change 0x55555556 with 1431655766. lia. Qed.

Lemma xor_sign a b : (Z.lxor a b <? 0) = xorb (a <? 0) (b <? 0).
Proof.
  pose proof (Z.lxor_nonneg a b) as L.
  destruct (Z.ltb_spec (Z.lxor a b) 0), (Z.ltb_spec a 0), (Z.ltb_spec b 0); cbn; auto; exfalso; lia.
Qed.

Definition simd_absdiff (top avg next : Z) : Z :=
  let absBa := Z.abs (top - avg) in
  let absan := Z.abs (avg - next) in
  let absdiff := (absBa / 3 + (Z.abs (top - next) + 2)) / 4 in
  let absdiff := if 2 * absBa + absdiff mod 2 <? absdiff then 2 * absBa + 1 else absdiff in
  if 2 * absan <? absdiff + absdiff mod 2 then 2 * absan else absdiff.
Definition simd_tendency (top avg next : Z) : Z :=
  if negb (top - avg =? 0) && negb (avg - next =? 0) && (Z.lxor (top - avg) (avg - next) <? 0) then 0
  else if top <? next then - simd_absdiff top avg next else simd_absdiff top avg next.

Lemma simd_absdiff_tend top avg next : (next <= avg <= top \/ top <= avg <= next) ->
  simd_absdiff top avg next = tend (Z.abs (top - avg)) (Z.abs (avg - next)).
Proof.
  intros H. unfold simd_absdiff, tend, limited. cbv zeta.
  replace (Z.abs (top - next)) with (Z.abs (top - avg) + Z.abs (avg - next)) by lia.
  set (x := Z.abs (top - avg)). set (y := Z.abs (avg - next)).
  replace ((x / 3 + (x + y + 2)) / 4) with ((3 * (x + y) + x + 6) / 12) by lia.
  set (d := (3 * (x + y) + x + 6) / 12).
  replace (2 * x + d mod 2 <? d) with (2 * x <? d - d mod 2) by (destruct (Z.ltb_spec (2 * x) (d - d mod 2)), (Z.ltb_spec (2 * x + d mod 2) d); lia).
  reflexivity.
Qed.

Lemma simd_tendency_ok top avg next : simd_tendency top avg next = smooth_tendency top avg next.
Proof.
  unfold simd_tendency. rewrite xor_sign.
  destruct (Z.eqb_spec (top - avg) 0) as [E1|N1]; cbn [negb andb].
  - destruct (Z.ltb_spec top next).
    + rewrite tendency_up, simd_absdiff_tend by lia. f_equal. f_equal; lia.
    + rewrite tendency_down, simd_absdiff_tend by lia. f_equal; lia.
  - destruct (Z.eqb_spec (avg - next) 0) as [E2|N2]; cbn [negb andb].
    + destruct (Z.ltb_spec top next).
      * rewrite tendency_up, simd_absdiff_tend by lia. f_equal. f_equal; lia.
      * rewrite tendency_down, simd_absdiff_tend by lia. f_equal; lia.
    + destruct (Z.ltb_spec (top - avg) 0), (Z.ltb_spec (avg - next) 0); cbn [xorb].
      * replace (top <? next) with true by lia. rewrite tendency_up, simd_absdiff_tend by lia. f_equal. f_equal; lia.
      * rewrite tendency_other by lia. reflexivity.
      * rewrite tendency_other by lia. reflexivity.
      * replace (top <? next) with false by lia. rewrite tendency_down, simd_absdiff_tend by lia. f_equal; lia.
Qed.

Lemma simd_absdiff_range top avg next : - 2 ^ 29 < top < 2 ^ 29 -> - 2 ^ 29 < avg < 2 ^ 29 -> - 2 ^ 29 < next < 2 ^ 29 ->
  let d0 := (Z.abs (top - avg) / 3 + (Z.abs (top - next) + 2)) / 4 in
  0 <= d0 < 2 ^ 29.
Proof. intros Ht Ha Hn. cbv zeta. lia. Qed.

Lemma simd_scalar top avg next r : - 2 ^ 29 < top < 2 ^ 29 -> - 2 ^ 29 < avg < 2 ^ 29 -> - 2 ^ 29 < next < 2 ^ 29 ->
  - 3 * 2 ^ 29 <= r <= 3 * 2 ^ 29 -> unsqueeze_simd top avg next r = unsqueeze_scalar top avg next r.
Proof.
  intros Ht Ha Hn Hr. unfold unsqueeze_simd, unsqueeze_scalar. cbv zeta.
  rewrite !(s32_id (top - avg)), !(s32_id (avg - next)), !(s32_id (top - next)) by (unfold is_i32; lia).
  unfold vabs. rewrite !(s32_id (Z.abs _)) by (unfold is_i32; lia).
  rewrite third by lia. rewrite (s32_id (_ + 2)) by (unfold is_i32; lia).
  rewrite !land1.
  pose proof (simd_tendency_ok top avg next) as T. unfold simd_tendency, simd_absdiff in T. cbv zeta in T.
  pose proof (tendency_bound top avg next (2 ^ 29 - 1) ltac:(lia) ltac:(lia) ltac:(lia)) as TB.
  rewrite <- T in *. clear T.
  set (x := Z.abs (top - avg)) in *. set (y := Z.abs (avg - next)) in *.
  assert (Hx : 0 <= x <= 2 ^ 30 - 2) by lia. assert (Hy : 0 <= y <= 2 ^ 30 - 2) by lia.
  rewrite (s32_id (x / 3 + (Z.abs (top - next) + 2))) by (unfold is_i32; lia).
  rewrite (Z.shiftr_div_pow2 _ 2) by lia. change (2 ^ 2) with 4.
  pose proof (simd_absdiff_range top avg next Ht Ha Hn) as HD. cbv zeta in HD. fold x in HD.
  set (d := (x / 3 + (Z.abs (top - next) + 2)) / 4) in *.
  rewrite !(s32_id (2 * x)), !(s32_id (2 * y)) by (unfold is_i32; lia).
  rewrite (s32_id (2 * x + d mod 2)), (s32_id (2 * x + 1)) by (unfold is_i32; lia).
  set (d1 := if 2 * x + d mod 2 <? d then 2 * x + 1 else d) in *.
  assert (H1 : 0 <= d1 < 2 ^ 29) by (unfold d1; destruct (Z.ltb_spec (2 * x + d mod 2) d); lia).
  rewrite (s32_id (d1 + d1 mod 2)) by (unfold is_i32; lia).
  set (d2 := if 2 * y <? d1 + d1 mod 2 then 2 * y else d1) in *.
  assert (H2 : 0 <= d2 <= 2 ^ 29) by (unfold d2; destruct (Z.ltb_spec (2 * y) (d1 + d1 mod 2)); lia).
  rewrite (s32_id (- d2)) by (unfold is_i32; lia).
  set (t := if _ && _ then 0 else if top <? next then - d2 else d2) in *.
  rewrite (s32_id (r + t)) by (unfold is_i32; lia).
  rewrite quot2. rewrite Z.shiftr_div_pow2 by lia. change (2 ^ 1) with 2.
  set (e := r + t) in *. assert (He : - 2 ^ 31 < e < 2 ^ 31) by lia.
  assert (Q : s32 (e + (if e <? 0 then 1 else 0)) / 2 = (if e <? 0 then (e + 1) / 2 else e / 2)).
  { rewrite s32_id by (unfold is_i32; destruct (Z.ltb_spec e 0); lia). destruct (Z.ltb_spec e 0); f_equal; lia. }
  rewrite Q. set (h := if e <? 0 then (e + 1) / 2 else e / 2) in *.
  assert (Hh : - 2 ^ 30 <= h <= 2 ^ 30 /\ - 2 ^ 30 <= h - e <= 2 ^ 30) by (unfold h; destruct (Z.ltb_spec e 0); lia).
  rewrite (s32_id (avg + h)) by (unfold is_i32; lia). reflexivity.
Qed.

