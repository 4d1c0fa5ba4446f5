(* GroupBorderAssigner: the rectangles along one axis, and those of one group. *)
From Verif Require Import Base ListAux ContainerModel FrameDimModel FrameDimSpec FrameDimProofs BorderModel BorderSpec.
Ltac Zify.zify_post_hook ::= idtac.

(* ---- one axis ---- *)
Section Axis.
Variables (gd n b k pad : Z).
Hypothesis Hgd : 128 <= gd <= 1024 /\ (8 | gd).
Hypothesis Hk : (k - 1) * gd < n <= k * gd.
Hypothesis Hn : 1 <= n < 2 ^ 34.
Hypothesis Hb : n <= 8 * b.
Hypothesis Hb2 : b < 2 ^ 35.
Hypothesis Hp : 0 <= pad /\ 2 * pad <= gd.
Definition P (i a : Z) : Z := positions (w64 (i * gd) / 8) (clamped_size (w64 (i * gd) / 8) (gd / 8) b) n pad (k =? i + 1) a.
Definition begins (i : Z) : Z := if i =? 0 then 0 else i * gd - pad.
Definition inner (i : Z) : Z := if i =? 0 then 0 else Z.min n (i * gd + pad).

Lemma mul_step i : 0 <= i -> i + 1 < k -> (i + 1) * gd < n.
Proof. intros A B. assert ((i + 1) * gd <= (k - 1) * gd) by (apply Z.mul_le_mono_nonneg_r; lia). lia. Qed.
Lemma mul_in i : 0 <= i < k -> 0 <= i * gd < n.
Proof. intros A. assert (0 <= i * gd) by (apply Z.mul_nonneg_nonneg; lia). assert (i * gd <= (k - 1) * gd) by (apply Z.mul_le_mono_nonneg_r; lia). lia. Qed.
Lemma positions_of i : 0 <= i < k ->
  P i 0 = begins i /\ P i 1 = inner i /\ P i 2 = (if i + 1 =? k then n else begins (i + 1)) /\ P i 3 = (if i + 1 =? k then n else inner (i + 1)).
Proof.
  intros Hi. pose proof (mul_in i Hi) as Mi. destruct Hgd as (G1 & (d & G2)). unfold P. rewrite w64_id by lia.
  replace (i * gd / 8) with (i * d) by (rewrite G2, Z.mul_assoc, Z.div_mul; lia). replace (gd / 8) with d by (rewrite G2, Z.div_mul; lia).
  assert (E : i * gd = 8 * (i * d)) by (rewrite G2; ring). assert (D1 : 16 <= d <= 128) by lia.
  set (u := i * d) in *. assert (U : 0 <= u) by lia.
  set (xs := clamped_size u d b). 
  assert (X : (i + 1 < k -> xs = d) /\ 0 <= xs <= d /\ (k = i + 1 -> n <= 8 * (u + xs))).
  { unfold xs, clamped_size. rewrite w64_id by lia. destruct (Z.leb_spec (u + d) b) as [L|L].
    - split; [auto|]. split; [lia|]. intros K. rewrite K in Hk. replace ((i + 1) * gd) with (i * gd + gd) in Hk by ring. lia.
    - destruct (Z.gtb_spec b u) as [L2|L2]; (split; [intros K; exfalso; pose proof (mul_step i ltac:(lia) K) as M; replace ((i + 1) * gd) with (i * gd + gd) in M by ring; lia|]); [split; [lia|intros; lia]|lia]. }
  destruct X as (X1 & X2 & X3). clearbody xs. assert (I0 : (u =? 0) = (i =? 0)). { unfold u. destruct (Z.eqb_spec i 0) as [->|]; [reflexivity|]. apply Z.eqb_neq. intros K. apply Z.mul_eq_0 in K. lia. }
  unfold positions, begins, inner. rewrite I0, (w64_id (u + xs)) by lia. replace (k =? i + 1) with (i + 1 =? k) by (apply Z.eqb_sym).
  split; [|split; [|split]].
  - destruct (Z.eqb_spec i 0) as [|Ni]; [reflexivity|]. assert (1 * gd <= i * gd) by (apply Z.mul_le_mono_nonneg_r; lia). rewrite w64_id; lia.
  - destruct (i =? 0); [reflexivity|]. rewrite w64_id by lia. do 2 f_equal. lia.
  - destruct (Z.eqb_spec (i + 1) k) as [|Nk]; [reflexivity|]. replace (i + 1 =? 0) with false by lia. rewrite X1 by lia. replace ((i + 1) * gd) with (i * gd + gd) by ring. rewrite w64_id; lia.
  - rewrite w64_id by lia. destruct (Z.eqb_spec (i + 1) k) as [K|Nk]; [specialize (X3 ltac:(lia)); lia|]. replace (i + 1 =? 0) with false by lia. rewrite X1 by lia. replace ((i + 1) * gd) with (i * gd + gd) by ring. f_equal. lia.
Qed.
Lemma positions_mono i : 0 <= i < k -> 0 <= P i 0 <= P i 1 /\ P i 1 <= P i 2 <= P i 3 /\ P i 3 <= n.
Proof.
  intros Hi. destruct (positions_of i Hi) as (-> & -> & -> & ->). pose proof (mul_in i Hi) as Mi. unfold begins, inner.
  assert (M1 : i <> 0 -> gd <= i * gd) by (intros N; assert (1 * gd <= i * gd) by (apply Z.mul_le_mono_nonneg_r; lia); lia).
  assert (M2 : i + 1 < k -> (i + 1) * gd < n) by (apply mul_step; lia). replace ((i + 1) * gd) with (i * gd + gd) in * by ring.
  replace (i + 1 =? 0) with false by lia. destruct (Z.eqb_spec i 0) as [E0|N0]; destruct (Z.eqb_spec (i + 1) k) as [K|NK]; lia.
Qed.
(* the pixel is in part a of group i *)
Definition at_part (i a x : Z) : Prop := P i a <= x < P i (a + 1).
(* The cells: the inner part of group i (true), or the border between groups i - 1 and i (false). *)
Definition in_cell (i : Z) (c : bool) (x : Z) : Prop := if c then at_part i 1 x else 0 < i /\ at_part i 0 x.

Lemma cell_of x : 0 <= x < n -> exists i c, 0 <= i < k /\ in_cell i c x.
Proof.
  intros Hx. assert (K0 : 0 < k) by (destruct (Z.le_gt_cases k 0); [assert (k * gd <= 0) by (apply Z.mul_nonpos_nonneg; lia); lia|lia]).
  destruct (seg_find gd n k x ltac:(lia) ltac:(lia) Hx) as (A & B). set (i := x / gd) in *. clearbody i.
  unfold in_cell, at_part. destruct (positions_of i A) as (E0 & E1 & E2 & E3).
  destruct (Z.lt_ge_cases x (inner i)) as [L|L].
  - exists i, false. split; [exact A|]. unfold inner in L. destruct (Z.eqb_spec i 0); [lia|]. split; [lia|]. change (0 + 1) with 1. rewrite E0, E1. unfold begins, inner. replace (i =? 0) with false by lia. lia.
  - destruct (Z.lt_ge_cases x (P i 2)) as [L2|L2].
    + exists i, true. split; [exact A|]. change (1 + 1) with 2. rewrite E1. lia.
    + rewrite E2 in L2. destruct (Z.eqb_spec (i + 1) k) as [|N]; [lia|]. exists (i + 1), false. split; [lia|]. destruct (positions_of (i + 1) ltac:(lia)) as (F0 & F1 & _). split; [lia|]. change (0 + 1) with 1. rewrite F0, F1. unfold begins, inner in *. replace (i + 1 =? 0) with false in * by lia. replace ((i + 1) * gd) with (i * gd + gd) in * by ring. lia.
Qed.
Lemma part_of_cell i c x : 0 <= i < k -> in_cell i c x -> forall j a, 0 <= j < k -> 0 <= a < 3 ->
  at_part j a x <-> (if c then j = i /\ a = 1 else (j = i /\ a = 0) \/ (j = i - 1 /\ a = 2)).
Proof.
  intros Hi C j a Hj Ha.
  pose proof (positions_mono i Hi) as Mi. pose proof (positions_mono j Hj) as Mj. unfold in_cell, at_part in *.
  assert (LT : forall u v, 0 <= u < k -> 0 <= v < k -> u < v -> P u 2 <= P v 0 /\ P u 3 <= P v 1 /\ (u + 1 < v -> P u 3 <= P v 0)).
  { intros u v Hu Hv L. destruct (positions_of u Hu) as (_ & _ & -> & ->). destruct (positions_of v Hv) as (-> & -> & _). replace (u + 1 =? k) with false by lia. unfold begins, inner. replace (v =? 0) with false by lia. replace (u + 1 =? 0) with false by lia.
    assert ((u + 1) * gd <= v * gd) by (apply Z.mul_le_mono_nonneg_r; lia). split; [lia|]. split; [lia|]. intros L2. assert ((u + 2) * gd <= v * gd) by (apply Z.mul_le_mono_nonneg_r; lia). replace ((u + 2) * gd) with ((u + 1) * gd + gd) in * by ring. lia. }
  assert (N2 : 0 < i -> P (i - 1) 2 = P i 0 /\ P (i - 1) 3 = P i 1).
  { intros L. destruct (positions_of (i - 1) ltac:(lia)) as (_ & _ & -> & ->). destruct (positions_of i Hi) as (-> & -> & _). replace (i - 1 + 1) with i by lia. replace (i =? k) with false by lia. auto. }
  assert (Pz : P 0 0 = P 0 1). { destruct (positions_of 0 ltac:(lia)) as (-> & -> & _). reflexivity. }
  assert (HA : a = 0 \/ a = 1 \/ a = 2) by lia.
  destruct (Z.lt_trichotomy j i) as [L|[->|L]].
  - destruct (LT j i Hj Hi L) as (L1 & L2 & L3). specialize (N2 ltac:(lia)). destruct (Z.eq_dec j (i - 1)) as [->|Nj].
    + destruct c; destruct HA as [->|[->| ->]]; change (0 + 1) with 1 in *; change (1 + 1) with 2 in *; change (2 + 1) with 3 in *; try lia.
    + specialize (L3 ltac:(lia)). destruct c; destruct HA as [->|[->| ->]]; change (0 + 1) with 1 in *; change (1 + 1) with 2 in *; change (2 + 1) with 3 in *; lia.
  - destruct c; destruct HA as [->|[->| ->]]; change (0 + 1) with 1 in *; change (1 + 1) with 2 in *; change (2 + 1) with 3 in *; try lia.
  - destruct (LT i j Hi Hj L) as (L1 & L2 & L3). destruct c; destruct HA as [->|[->| ->]]; change (0 + 1) with 1 in *; change (1 + 1) with 2 in *; change (2 + 1) with 3 in *; try lia.
Qed.
(* near, along the axis *)
Definition near1 (x j : Z) : Prop := exists x', Z.abs (x' - x) <= pad /\ j * gd <= x' < j * gd + seg_size j gd n.
Lemma near_cell i c x : 0 <= i < k -> in_cell i c x -> forall j, 0 <= j < k -> near1 x j <-> (if c then j = i else j = i \/ j = i - 1).
Proof.
  intros Hi C j Hj.
  assert (Sj : seg_size j gd n = Z.min gd (n - j * gd)) by (apply (seg_props j gd n k); lia).
  pose proof (mul_in i Hi) as Mi. pose proof (mul_in j Hj) as Mj. unfold near1. rewrite Sj.
  destruct (positions_of i Hi) as (E0 & E1 & E2 & E3).
  assert (LT : forall u v, 0 <= u < k -> 0 <= v < k -> u < v -> u * gd + gd <= v * gd) by (intros u v Hu Hv L; assert ((u + 1) * gd <= v * gd) by (apply Z.mul_le_mono_nonneg_r; lia); lia).
  assert (LT2 : forall u v, 0 <= u < k -> 0 <= v < k -> u + 1 < v -> u * gd + 2 * gd <= v * gd) by (intros u v Hu Hv L; assert ((u + 2) * gd <= v * gd) by (apply Z.mul_le_mono_nonneg_r; lia); lia).
  assert (NX : i + 1 = k \/ (i + 1 < k /\ i * gd + gd < n)) by (destruct (Z.eq_dec (i + 1) k); [auto|right; split; [lia|]; pose proof (mul_step i ltac:(lia) ltac:(lia)); lia]).
  assert (Hkn : i + 1 = k -> n <= i * gd + gd) by (intros <-; lia).
  unfold in_cell, at_part in C. destruct c.
  - change (1 + 1) with 2 in C. rewrite E1, E2 in C. unfold begins, inner in C. replace (i + 1 =? 0) with false in C by lia. replace ((i + 1) * gd) with (i * gd + gd) in C by ring. split.
    + intros (x' & A & B). destruct (Z.lt_trichotomy j i) as [L|[->|L]]; [|reflexivity|].
      * pose proof (LT j i Hj Hi L). destruct (Z.eqb_spec i 0), (Z.eqb_spec (i + 1) k); lia.
      * pose proof (LT i j Hi Hj L). destruct (Z.eqb_spec i 0), (Z.eqb_spec (i + 1) k); lia.
    + intros ->. exists x. split; [lia|]. destruct (Z.eqb_spec i 0), (Z.eqb_spec (i + 1) k); lia.
  - change (0 + 1) with 1 in C. destruct C as (I0 & C). rewrite E0, E1 in C. unfold begins, inner in C. replace (i =? 0) with false in C by lia.
    pose proof (LT (i - 1) i ltac:(lia) Hi ltac:(lia)) as Mp. replace ((i - 1) * gd) with (i * gd - gd) in * by ring. split.
    + intros (x' & A & B). destruct (Z.lt_trichotomy j i) as [L|[->|L]]; [|auto|].
      * destruct (Z.eq_dec j (i - 1)); [auto|]. pose proof (LT2 j i Hj Hi ltac:(lia)). lia.
      * pose proof (LT i j Hi Hj L). lia.
    + intros [-> | ->].
      * exists (Z.max x (i * gd)). lia.
      * replace ((i - 1) * gd) with (i * gd - gd) by ring. exists (Z.min x (i * gd - 1)). lia.
Qed.
End Axis.

(* ---- one group ---- *)
Definition inside_quad (a b : Z) (q : Z * Z * Z * Z) : bool := let '(x0, x1, y0, y1) := q in (x0 <=? a) && (a <? x1) && (y0 <=? b) && (b <? y1).
Definition mask_of (m : list bool) (px py : Z) : bool :=
  match m with
  | [m00; m20; m22; m02; m10; m01; m21; m12] =>
      match px, py with 1, 1 => true | 0, 0 => m00 && m10 | 2, 0 => m20 | 2, 2 => m22 | 0, 2 => m02 && m12 | 1, 0 => m10 | 0, 1 => m01 | 2, 1 => m21 | 1, 2 => m12 | _, _ => false end
  | _ => false
  end.
Fixpoint masks (n : nat) : list (list bool) := match n with O => [[]] | S n => map (cons true) (masks n) ++ map (cons false) (masks n) end.
Definition parts_ok (m : list bool) : bool :=
  match segment (mask_of m) 0, segment (mask_of m) 1, segment (mask_of m) 2 with
  | Some s0, Some s1, Some s2 =>
      (zlen (merged s0 s1 s2) <=? 3) &&
      forallb (fun q => let '(x0, x1, y0, y1) := q in (0 <=? x0) && (x0 <=? x1) && (x1 <=? 3) && (0 <=? y0) && (y0 <=? y1) && (y1 <=? 3)) (merged s0 s1 s2) &&
      forallb (fun a => forallb (fun b => zlen (filter (inside_quad a b) (merged s0 s1 s2)) =? if mask_of m a b then 1 else 0) [0; 1; 2]) [0; 1; 2]
  | _, _, _ => false
  end.
Lemma all_parts : forallb parts_ok (masks 8) = true.
Proof. vm_compute. reflexivity. Qed.
Lemma in_masks n : forall m, length m = n -> In m (masks n).
Proof. induction n as [|n IH]; intros [|x m] H; try discriminate; cbn [masks]; [left; reflexivity|]. apply in_or_app. destruct x; [left|right]; apply in_map, IH; now injection H. Qed.

Lemma zlen_filter_flat {A B} (p : B -> bool) (h : A -> list B) (l : list A) : zlen (filter p (flat_map h l)) = fold_right Z.add 0 (map (fun a => zlen (filter p (h a))) l).
Proof. induction l as [|a l IH]; cbn [flat_map map fold_right]; [reflexivity|]. rewrite filter_app, zlen_app, IH. reflexivity. Qed.
Lemma zlen_filter_sum {A} (p : A -> bool) (l : list A) : zlen (filter p l) = fold_right Z.add 0 (map (fun a => if p a then 1 else 0) l).
Proof. induction l as [|a l IH]; cbn [filter map fold_right]; [reflexivity|]. destruct (p a); [rewrite zlen_cons|]; lia. Qed.
Lemma sum_ext {A} (h h' : A -> Z) l : (forall a, In a l -> h a = h' a) -> fold_right Z.add 0 (map h l) = fold_right Z.add 0 (map h' l).
Proof. induction l as [|a l IH]; intros H; cbn; [reflexivity|]. rewrite (H a) by (left; reflexivity). rewrite IH; [reflexivity|]. intros b Hb. apply H. now right. Qed.
Lemma sum_zero {A} (h : A -> Z) l : (forall a, In a l -> h a = 0) -> fold_right Z.add 0 (map h l) = 0.
Proof. induction l as [|a l IH]; intros H; cbn; [reflexivity|]. rewrite (H a), IH; auto with datatypes. Qed.
Lemma segment_ext m m' py : (forall px, 0 <= px < 3 -> m px py = m' px py) -> segment m py = segment m' py.
Proof. intros H. unfold segment. cbn [all_of]. unfold segment_step. now rewrite (H 0), (H 1), (H 2) by lia. Qed.

Definition mono (p : Z -> Z) : Prop := 0 <= p 0 <= p 1 /\ p 1 <= p 2 <= p 3 /\ p 3 < 2 ^ 63.
Lemma mono_le p i j : mono p -> 0 <= i <= j -> j <= 3 -> 0 <= p i <= p j /\ p j < 2 ^ 63.
Proof.
  intros (A & B & C) H1 H2. assert (i = 0 \/ i = 1 \/ i = 2 \/ i = 3) as HI by lia. assert (j = 0 \/ j = 1 \/ j = 2 \/ j = 3) as HJ by lia.
  destruct HI as [->|[->|[->| ->]]]; destruct HJ as [->|[->|[->| ->]]]; lia.
Qed.
(* which part a coordinate is in *)
Definition part_at (p : Z -> Z) (x : Z) : option Z := if (p 0 <=? x) && (x <? p 1) then Some 0 else if (p 1 <=? x) && (x <? p 2) then Some 1 else if (p 2 <=? x) && (x <? p 3) then Some 2 else None.
Lemma part_between p x i j : mono p -> 0 <= i <= j -> j <= 3 -> (p i <= x < p j) <-> exists a, part_at p x = Some a /\ i <= a < j.
Proof.
  intros (A & B & C) H1 H2. unfold part_at.
  assert (i = 0 \/ i = 1 \/ i = 2 \/ i = 3) as HI by lia. assert (j = 0 \/ j = 1 \/ j = 2 \/ j = 3) as HJ by lia.
  destruct (Z.leb_spec (p 0) x), (Z.ltb_spec x (p 1)), (Z.leb_spec (p 1) x), (Z.ltb_spec x (p 2)), (Z.leb_spec (p 2) x), (Z.ltb_spec x (p 3)); cbn [andb]; try lia;
    (split; [intros HH|intros (a & E & Ha); try discriminate E; injection E as <-]); destruct HI as [->|[->|[->| ->]]]; destruct HJ as [->|[->|[->| ->]]]; try lia; eexists; split; try reflexivity; lia.
Qed.
Lemma append_covers xp yp x y q : mono xp -> mono yp -> (let '(x0, x1, y0, y1) := q in 0 <= x0 <= x1 /\ x1 <= 3 /\ 0 <= y0 <= y1 /\ y1 <= 3) ->
  zlen (filter (fun r => coversb r x y) (append_rect xp yp q)) = match part_at xp x, part_at yp y with Some a, Some b => if inside_quad a b q then 1 else 0 | _, _ => 0 end.
Proof.
  destruct q as (((x0 & x1) & y0) & y1). intros Mx My (Hx & Hx3 & Hy & Hy3). pose proof (mono_le xp x0 x1 Mx Hx Hx3) as Lx. pose proof (mono_le yp y0 y1 My Hy Hy3) as Ly.
  pose proof (part_between xp x x0 x1 Mx Hx Hx3) as Px. pose proof (part_between yp y y0 y1 My Hy Hy3) as Py.
  unfold append_rect. rewrite !w64_id by lia. cbn [rxsize rysize].
  assert (E : zlen (filter (fun r => coversb r x y) (if (xp x1 - xp x0 =? 0) || (yp y1 - yp y0 =? 0) then [] else [Rect (xp x0) (yp y0) (xp x1 - xp x0) (yp y1 - yp y0)])) = if (xp x0 <=? x) && (x <? xp x1) && (yp y0 <=? y) && (y <? yp y1) then 1 else 0).
  { destruct ((xp x1 - xp x0 =? 0) || (yp y1 - yp y0 =? 0)) eqn:Z0; cbn [filter].
    - replace ((xp x0 <=? x) && (x <? xp x1) && (yp y0 <=? y) && (y <? yp y1)) with false by lia. reflexivity.
    - unfold coversb. cbn [rx0 ry0 rxsize rysize]. replace (xp x0 + (xp x1 - xp x0)) with (xp x1) by lia. replace (yp y0 + (yp y1 - yp y0)) with (yp y1) by lia. destruct ((xp x0 <=? x) && (x <? xp x1) && (yp y0 <=? y) && (y <? yp y1)); reflexivity. }
  rewrite E. clear E. unfold inside_quad.
  destruct (part_at xp x) as [a|].
  - destruct (part_at yp y) as [b|].
    + assert (Qx : (xp x0 <= x < xp x1) <-> x0 <= a < x1) by (rewrite Px; split; [intros (a' & E & H); injection E as <-; exact H|eauto]).
      assert (Qy : (yp y0 <= y < yp y1) <-> y0 <= b < y1) by (rewrite Py; split; [intros (a' & E & H); injection E as <-; exact H|eauto]).
      replace ((x0 <=? a) && (a <? x1) && (y0 <=? b) && (b <? y1)) with ((xp x0 <=? x) && (x <? xp x1) && (yp y0 <=? y) && (y <? yp y1)); [reflexivity|].
      clear - Qx Qy. lia.
    + assert (Qy : ~ (yp y0 <= y < yp y1)) by (rewrite Py; intros (a' & E & H); discriminate). replace ((xp x0 <=? x) && (x <? xp x1) && (yp y0 <=? y) && (y <? yp y1)) with false by lia. reflexivity.
  - assert (Qx : ~ (xp x0 <= x < xp x1)) by (rewrite Px; intros (a' & E & H); discriminate). replace ((xp x0 <=? x) && (x <? xp x1) && (yp y0 <=? y) && (y <? yp y1)) with false by lia. reflexivity.
Qed.
