(* GroupBorderAssigner: the counters under every interleaving, and who gets a pixel. *)
From Verif Require Import Base ListAux ContainerModel FrameDimModel FrameDimSpec FrameDimProofs BorderModel BorderSpec BorderGeom.
Ltac Zify.zify_post_hook ::= idtac.

Lemma zseq_bound n : forall z x, In x (zseq z n) -> z <= x < z + Z.of_nat n.
Proof. induction n as [|n IH]; intros z x H; [contradiction|]. destruct H as [->|H]; [lia|]. apply IH in H. lia. Qed.
(* ---- the position of the q-th step of a group ---- *)
Definition cn (g : Z) (l : list Z) : nat := count_occ Z.eq_dec l g.
Fixpoint T (g : Z) (q : nat) (l : list Z) : nat :=
  match l with
  | [] => O
  | x :: l => if Z.eq_dec x g then match q with O => O | S O => O | S q => S (T g q l) end else S (T g q l)
  end.
Lemma T_count g l : forall q n, (1 <= q)%nat -> (q <= cn g (firstn n l))%nat <-> (T g q l < Nat.min n (length l))%nat.
Proof.
  unfold cn. induction l as [|x l IH]; intros q n Hq.
  - rewrite firstn_nil. cbn. lia.
  - destruct n as [|n]; [cbn; lia|]. cbn [firstn count_occ T length]. destruct (Z.eq_dec x g) as [->|N].
    + destruct q as [|[|q]]; [lia|cbn; lia|]. specialize (IH (S q) n ltac:(lia)). lia.
    + specialize (IH q n Hq). lia.
Qed.
Lemma T_all g l q : (1 <= q)%nat -> (q <= cn g l)%nat <-> (T g q l < length l)%nat.
Proof. intros Hq. pose proof (T_count g l q (length l) Hq) as H. rewrite firstn_all in H. lia. Qed.
Lemma T_at g l : forall q, (1 <= q)%nat -> (T g q l < length l)%nat -> nth_error l (T g q l) = Some g /\ S (cn g (firstn (T g q l) l)) = q.
Proof.
  unfold cn. induction l as [|x l IH]; intros q Hq H; cbn [length] in H; [lia|]. cbn [T] in *. destruct (Z.eq_dec x g) as [->|N].
  - destruct q as [|[|q]]; [lia|split; reflexivity|]. specialize (IH (S q) ltac:(lia) ltac:(lia)). cbn [nth_error firstn count_occ]. destruct (Z.eq_dec g g); [|contradiction]. split; [apply IH|]. f_equal. apply IH.
  - specialize (IH q Hq ltac:(lia)). cbn [nth_error firstn count_occ]. destruct (Z.eq_dec x g); [contradiction|]. exact IH.
Qed.
Lemma T_inj g h q r l : (1 <= q)%nat -> (1 <= r)%nat -> (T g q l < length l)%nat -> T g q l = T h r l -> g = h /\ q = r.
Proof.
  intros Hq Hr H E. pose proof (T_at g l q Hq H) as (A & B). rewrite E in H. pose proof (T_at h l r Hr H) as (A' & B'). rewrite E in *. rewrite A in A'. injection A' as ->. split; [reflexivity|]. lia.
Qed.
Lemma T_snoc g x l : forall q, (1 <= q)%nat -> (q <= cn g l)%nat -> T g q (l ++ [x]) = T g q l.
Proof.
  unfold cn. induction l as [|y l IH]; intros q Hq H; cbn [count_occ] in H; [lia|]. cbn [app T]. destruct (Z.eq_dec y g) as [->|N].
  - destruct q as [|[|q]]; [lia|reflexivity|]. rewrite IH by lia. reflexivity.
  - rewrite IH by lia. reflexivity.
Qed.
Lemma T_new g l : forall q, S (cn g l) = q -> T g q (l ++ [g]) = length l.
Proof.
  unfold cn. induction l as [|y l IH]; intros q H; cbn [count_occ] in H.
  - subst q. cbn. destruct (Z.eq_dec g g); [reflexivity|contradiction].
  - cbn [app T length]. destruct (Z.eq_dec y g) as [->|N]; [|rewrite (IH q H); reflexivity]. subst q. rewrite (IH _ eq_refl). reflexivity.
Qed.
Lemma firstn_snoc {A} n (l : list A) x : (n <= length l)%nat -> firstn n (l ++ [x]) = firstn n l.
Proof. intros H. rewrite firstn_app. replace (n - length l)%nat with O by lia. cbn. apply app_nil_r. Qed.
Lemma cn_snoc g h l : cn g (l ++ [h]) = (cn g l + if Z.eq_dec h g then 1 else 0)%nat.
Proof. unfold cn. rewrite count_occ_app. reflexivity. Qed.

(* ---- bits ---- *)
Lemma high_bits c n : 0 <= c < 16 -> 4 <= n -> Z.testbit c n = false.
Proof. intros Hc Hn. apply Z.bits_above_log2; [lia|]. apply Z.le_lt_trans with 3; [|lia]. destruct (Z.eq_dec c 0) as [->|]; [cbn; lia|]. assert (Z.log2 c < 4) by (apply Z.log2_lt_pow2; lia). lia. Qed.
Lemma land7 x : 0 <= x -> Z.land x 7 = x mod 8.
Proof. intros _. change 7 with (Z.ones 3). rewrite Z.land_ones by lia. reflexivity. Qed.
Lemma shifted_bit c x x0 b : 0 <= c < 16 -> 0 <= b < 4 -> 0 <= x -> 0 <= x0 -> x / 8 = x0 / 8 -> Z.testbit (Z.shiftl c (4 * (x0 mod 8))) (4 * (x mod 8) + b) = (x =? x0) && Z.testbit c b.
Proof.
  intros Hc Hb Hx Hx0 E. pose proof (Z.div_mod x 8 ltac:(lia)). pose proof (Z.div_mod x0 8 ltac:(lia)). pose proof (Z.mod_pos_bound x 8 ltac:(lia)). pose proof (Z.mod_pos_bound x0 8 ltac:(lia)).
  rewrite Z.shiftl_spec by lia. destruct (Z.eqb_spec x x0) as [->|N].
  - replace (4 * (x0 mod 8) + b - 4 * (x0 mod 8)) with b by lia. reflexivity.
  - destruct (Z.lt_ge_cases (x mod 8) (x0 mod 8)); [apply Z.testbit_neg_r; lia|]. apply high_bits; lia.
Qed.

Definition dx (q : nat) : Z := match q with 2%nat | 3%nat => 1 | _ => 0 end.
Definition dy (q : nat) : Z := match q with 3%nat | 4%nat => 1 | _ => 0 end.
Definition bp (q : nat) : Z := match q with 1%nat => 2 | 2%nat => 3 | 3%nat => 0 | _ => 1 end.
Definition quad (q : nat) : Prop := (1 <= q <= 4)%nat.
Lemma quads q : quad q -> q = 1%nat \/ q = 2%nat \/ q = 3%nat \/ q = 4%nat.
Proof. unfold quad. lia. Qed.
Lemma bp_range q : 0 <= bp q < 4.
Proof. destruct q as [|[|[|[|q]]]]; cbn; lia. Qed.
Lemma dxy_range q : 0 <= dx q <= 1 /\ 0 <= dy q <= 1.
Proof. destruct q as [|[|[|[|[|q]]]]]; cbn; lia. Qed.
Lemma bit_pow q q' : quad q -> quad q' -> Z.testbit (2 ^ bp q) (bp q') = (q' =? q)%nat.
Proof. intros H H'. destruct (quads q H) as [->|[->|[->| ->]]]; destruct (quads q' H') as [->|[->|[->| ->]]]; reflexivity. Qed.

Definition nib (u : nat -> bool) : Z := Z.b2z (u 3%nat) + 2 * Z.b2z (u 4%nat) + 4 * Z.b2z (u 1%nat) + 8 * Z.b2z (u 2%nat).
Lemma nib_range u : 0 <= nib u < 16.
Proof. unfold nib. destruct (u 1%nat), (u 2%nat), (u 3%nat), (u 4%nat); cbn; lia. Qed.
Lemma nib_bit u q : quad q -> Z.testbit (nib u) (bp q) = u q.
Proof. intros H. unfold nib. destruct (quads q H) as [->|[->|[->| ->]]]; destruct (u 1%nat), (u 2%nat), (u 3%nat), (u 4%nat); reflexivity. Qed.
Lemma nib_full u : (nib u =? 15) = u 1%nat && u 2%nat && u 3%nat && u 4%nat.
Proof. unfold nib. destruct (u 1%nat), (u 2%nat), (u 3%nat), (u 4%nat); reflexivity. Qed.
Lemma nib_land u q : quad q -> negb (Z.land (nib u) (2 ^ bp q) =? 0) = u q.
Proof. intros H. unfold nib. destruct (quads q H) as [->|[->|[->| ->]]]; destruct (u 1%nat), (u 2%nat), (u 3%nat), (u 4%nat); reflexivity. Qed.
Lemma status_ok old shift q u (k : Z -> gprog) : quad q -> 0 <= shift -> (forall q', quad q' -> Z.testbit old (shift + bp q') = u q') -> u q = false ->
  (let status := Z.shiftr old shift in if Z.land (2 ^ bp q) status =? 0 then k (Z.land (Z.lor (2 ^ bp q) status) 15) else GFail) = k (nib (fun q' => (q' =? q)%nat || u q')).
Proof.
  intros Hq Hs Hu Huq. cbv zeta. pose proof (bp_range q) as Bq.
  assert (E : Z.land (2 ^ bp q) (Z.shiftr old shift) = 0).
  { apply Z.bits_inj'. intros n Hn. rewrite Z.land_spec, Z.bits_0, Z.shiftr_spec, Z.pow2_bits_eqb by lia. destruct (Z.eqb_spec (bp q) n) as [<-|]; [|reflexivity]. cbn [andb]. rewrite Z.add_comm, Hu by exact Hq. exact Huq. }
  rewrite E. change (0 =? 0) with true. cbv iota. f_equal. apply Z.bits_inj'. intros n Hn. rewrite Z.land_spec, Z.lor_spec, Z.shiftr_spec by lia.
  destruct (Z.lt_ge_cases n 4) as [L|L].
  - assert (exists q', quad q' /\ n = bp q') as (q' & Q' & ->).
    { assert (n = 0 \/ n = 1 \/ n = 2 \/ n = 3) as [->|[->|[->| ->]]] by lia; [exists 3%nat|exists 4%nat|exists 1%nat|exists 2%nat]; unfold quad; split; try reflexivity; lia. }
    rewrite nib_bit by exact Q'. rewrite bit_pow by assumption. rewrite Z.add_comm, Hu by exact Q'. replace (Z.testbit 15 (bp q')) with true; [apply andb_true_r|]. destruct (quads q' Q') as [->|[->|[->| ->]]]; reflexivity.
  - rewrite (high_bits 15) by lia. rewrite andb_false_r. symmetry. apply high_bits; [apply nib_range|lia].
Qed.

Section Run.
Variables (f : frame_dim) (padx pady : Z).
Let kx := fd_xsize_groups f.
Let ky := fd_ysize_groups f.
Hypothesis Hkx : 0 < kx.
Hypothesis Hky : 0 < ky.
Hypothesis HN : fd_num_groups f = kx * ky.

Definition gid (x y : Z) : Z := y * kx + x.
Definition inside (x y : Z) : bool := (0 <=? x) && (x <? kx) && (0 <=? y) && (y <? ky).
Definition inr (g : Z) : bool := (0 <=? g) && (g <? fd_num_groups f).
Lemma gid_mod x y : 0 <= x < kx -> gid x y mod kx = x /\ gid x y / kx = y.
Proof. intros H. unfold gid. split; [rewrite Z.add_comm, Z.mod_add by lia; apply Z.mod_small; lia|]. rewrite Z.div_add_l by lia. rewrite Z.div_small by lia. lia. Qed.
Lemma gid_inr x y : inside x y = true -> inr (gid x y) = true.
Proof.
  unfold inside, inr, gid. rewrite HN. intros H. assert (A : 0 <= y * kx) by (apply Z.mul_nonneg_nonneg; lia). assert ((y + 1) * kx <= ky * kx) by (apply Z.mul_le_mono_nonneg_r; lia). lia.
Qed.
Lemma gid_of g : inr g = true -> 0 <= g mod kx < kx /\ 0 <= g / kx < ky /\ gid (g mod kx) (g / kx) = g /\ inside (g mod kx) (g / kx) = true.
Proof.
  unfold inr. rewrite HN. intros H. pose proof (Z.mod_pos_bound g kx ltac:(lia)). assert (0 <= g / kx) by (apply Z.div_pos; lia). assert (g / kx < ky) by (apply Z.div_lt_upper_bound; lia).
  pose proof (Z.div_mod g kx ltac:(lia)). unfold gid, inside. lia.
Qed.

(* whether the group in quadrant q of a corner has been there *)
Definition F (D S : Z -> bool) (order : list Z) (x y : Z) (q : nat) : bool :=
  let a := x - dx q in let b := y - dy q in
  negb (inside a b) || D (gid a b) || (S (gid a b) && (q <=? cn (gid a b) order)%nat).
Definition shows (c : counters) (h : Z -> Z -> nat -> bool) : Prop :=
  forall x y q, 0 <= x <= kx -> 0 <= y <= ky -> quad q -> Z.testbit (c y (x / 8)) (4 * (x mod 8) + bp q) = h x y q.
Definition represents (c : counters) (D : Z -> bool) : Prop := shows c (fun x y q => negb (inside (x - dx q) (y - dy q)) || D (gid (x - dx q) (y - dy q))).

Lemma corner_exists x y : 0 <= x <= kx -> 0 <= y <= ky -> in_counters f y (x / 8) = true.
Proof.
  intros Hx Hy. unfold in_counters. fold kx ky. assert (0 <= x / 8) by (apply Z.div_pos; lia). assert (x / 8 < (kx + 1 + 7) / 8). { replace (kx + 1 + 7) with (kx + 1 * 8) by lia. rewrite Z.div_add by lia. assert (x / 8 <= kx / 8) by (apply Z.div_le_mono; lia). lia. } lia.
Qed.
Lemma shows_lor c h x0 y0 corners : shows c h -> 0 <= x0 <= kx -> 0 <= y0 <= ky -> 0 <= corners < 16 ->
  shows (update c y0 (x0 / 8) (Z.lor (c y0 (x0 / 8)) (Z.shiftl corners (4 * (x0 mod 8))))) (fun x y q => h x y q || ((x =? x0) && (y =? y0) && Z.testbit corners (bp q))).
Proof.
  intros H Hx Hy Hc x y q Rx Ry Q. pose proof (bp_range q) as B. unfold update. destruct (Z.eqb_spec y y0) as [->|Ny]; cbn [andb].
  - destruct (Z.eqb_spec (x / 8) (x0 / 8)) as [E|N].
    + rewrite Z.lor_spec, <- E, H by assumption. rewrite shifted_bit by (assumption || lia). destruct (x =? x0); reflexivity.
    + rewrite H by assumption. destruct (Z.eqb_spec x x0) as [->|]; [contradiction|]. now rewrite orb_false_r.
  - rewrite H by assumption. now rewrite andb_false_r, orb_false_r.
Qed.
Lemma shows_ldiff c h x0 y0 corners : shows c h -> 0 <= x0 <= kx -> 0 <= y0 <= ky -> 0 <= corners < 16 ->
  shows (update c y0 (x0 / 8) (Z.ldiff (c y0 (x0 / 8)) (Z.shiftl corners (4 * (x0 mod 8))))) (fun x y q => h x y q && negb ((x =? x0) && (y =? y0) && Z.testbit corners (bp q))).
Proof.
  intros H Hx Hy Hc x y q Rx Ry Q. pose proof (bp_range q) as B. unfold update. destruct (Z.eqb_spec y y0) as [->|Ny]; cbn [andb].
  - destruct (Z.eqb_spec (x / 8) (x0 / 8)) as [E|N].
    + rewrite Z.ldiff_spec, <- E, H by assumption. rewrite shifted_bit by (assumption || lia). destruct (x =? x0); reflexivity.
    + rewrite H by assumption. destruct (Z.eqb_spec x x0) as [->|]; [contradiction|]. now rewrite andb_true_r.
  - rewrite H by assumption. now rewrite andb_false_r, andb_true_r.
Qed.
Lemma shows_ext c h h' : shows c h -> (forall x y q, 0 <= x <= kx -> 0 <= y <= ky -> quad q -> h x y q = h' x y q) -> shows c h'.
Proof. intros H E x y q Hx Hy Q. rewrite H by assumption. now apply E. Qed.
Lemma set_ok c h x0 y0 corners : shows c h -> 0 <= x0 <= kx -> 0 <= y0 <= ky -> 0 <= corners < 16 ->
  exists c', set_corners f x0 y0 corners c = Some c' /\ shows c' (fun x y q => h x y q || ((x =? x0) && (y =? y0) && Z.testbit corners (bp q))).
Proof. intros H Hx Hy Hc. unfold set_corners. rewrite corner_exists by assumption. rewrite land7 by lia. eexists. split; [reflexivity|]. now apply shows_lor. Qed.
Lemma clear_ok c h x0 y0 corners : shows c h -> 0 <= x0 <= kx -> 0 <= y0 <= ky -> 0 <= corners < 16 ->
  exists c', clear_corners f x0 y0 corners c = Some c' /\ shows c' (fun x y q => h x y q && negb ((x =? x0) && (y =? y0) && Z.testbit corners (bp q))).
Proof. intros H Hx Hy Hc. unfold clear_corners. rewrite corner_exists by assumption. rewrite land7 by lia. eexists. split; [reflexivity|]. now apply shows_ldiff. Qed.

Lemma all_shows (step : Z -> counters -> option counters) (t : Z -> Z -> Z -> nat -> bool) l : forall c h,
  (forall i c h, In i l -> shows c h -> exists c', step i c = Some c' /\ shows c' (fun x y q => h x y q || t i x y q)) -> shows c h ->
  exists c', all_of step l c = Some c' /\ shows c' (fun x y q => h x y q || existsb (fun i => t i x y q) l).
Proof.
  induction l as [|i l IH]; intros c h Hs H; cbn [all_of existsb].
  - exists c. split; [reflexivity|]. apply (shows_ext _ _ _ H). intros. now rewrite orb_false_r.
  - destruct (Hs i c h ltac:(left; reflexivity) H) as (c1 & E1 & H1). rewrite E1. destruct (IH c1 _ ltac:(intros; apply Hs; [right; assumption|assumption]) H1) as (c2 & E2 & H2). exists c2. split; [exact E2|].
    apply (shows_ext _ _ _ H2). intros. now rewrite orb_assoc.
Qed.
Lemma init_ok : exists c, init_counters f = Some c /\ represents c (fun _ => false).
Proof.
  unfold init_counters. fold kx ky.
  destruct (all_shows (fun x c => match set_corners f x 0 (Z.lor kTopLeft kTopRight) c with Some c => set_corners f x ky (Z.lor kBottomLeft kBottomRight) c | None => None end)
    (fun i x y q => ((x =? i) && (y =? 0) && Z.testbit 3 (bp q)) || ((x =? i) && (y =? ky) && Z.testbit 12 (bp q))) (zseq 0 (Z.to_nat (kx + 1))) (fun _ _ => 0) (fun _ _ _ => false)) as (c1 & E1 & H1).
  { intros i c h Hi H. apply zseq_bound in Hi. destruct (set_ok c h i 0 3 H ltac:(lia) ltac:(lia) ltac:(lia)) as (c1 & E1 & H1). change (Z.lor kTopLeft kTopRight) with 3. rewrite E1. destruct (set_ok c1 _ i ky 12 H1 ltac:(lia) ltac:(lia) ltac:(lia)) as (c2 & E2 & H2).
    change (Z.lor kBottomLeft kBottomRight) with 12. exists c2. split; [exact E2|]. apply (shows_ext _ _ _ H2). intros. now rewrite orb_assoc. }
  { intros x y q _ _ _. apply Z.bits_0. }
  rewrite E1.
  edestruct (all_shows (fun y c => match set_corners f 0 y (Z.lor kTopLeft kBottomLeft) c with Some c => set_corners f kx y (Z.lor kTopRight kBottomRight) c | None => None end)
    (fun i x y q => ((x =? 0) && (y =? i) && Z.testbit 9 (bp q)) || ((x =? kx) && (y =? i) && Z.testbit 6 (bp q))) (zseq 0 (Z.to_nat (ky + 1))) c1) as (c2 & E2 & H2); [|exact H1|].
  { intros i c h Hi H. apply zseq_bound in Hi. destruct (set_ok c h 0 i 9 H ltac:(lia) ltac:(lia) ltac:(lia)) as (c' & E' & H'). change (Z.lor kTopLeft kBottomLeft) with 9. rewrite E'. destruct (set_ok c' _ kx i 6 H' ltac:(lia) ltac:(lia) ltac:(lia)) as (c2 & E2 & H2).
    change (Z.lor kTopRight kBottomRight) with 6. exists c2. split; [exact E2|]. apply (shows_ext _ _ _ H2). intros. now rewrite orb_assoc. }
  exists c2. split; [exact E2|]. apply (shows_ext _ _ _ H2). intros x y q Hx Hy Q. rewrite orb_false_r. cbn [orb].
  assert (X1 : existsb (fun i => (x =? i) && (y =? 0) && Z.testbit 3 (bp q) || (x =? i) && (y =? ky) && Z.testbit 12 (bp q)) (zseq 0 (Z.to_nat (kx + 1))) = (y =? 0) && Z.testbit 3 (bp q) || (y =? ky) && Z.testbit 12 (bp q)).
  { apply Bool.eq_iff_eq_true. rewrite existsb_exists. split.
    - intros (i & _ & Hi). destruct (x =? i); [exact Hi|discriminate].
    - intros Hi. exists x. split; [apply in_zseq; lia|]. rewrite Z.eqb_refl. exact Hi. }
  assert (X2 : existsb (fun i => (x =? 0) && (y =? i) && Z.testbit 9 (bp q) || (x =? kx) && (y =? i) && Z.testbit 6 (bp q)) (zseq 0 (Z.to_nat (ky + 1))) = (x =? 0) && Z.testbit 9 (bp q) || (x =? kx) && Z.testbit 6 (bp q)).
  { apply Bool.eq_iff_eq_true. rewrite existsb_exists. split.
    - intros (i & _ & Hi). destruct (y =? i); rewrite ?andb_true_r, ?andb_false_r in Hi; [exact Hi|discriminate].
    - intros Hi. exists y. split; [apply in_zseq; lia|]. rewrite Z.eqb_refl, !andb_true_r. exact Hi. }
  rewrite X1, X2. unfold inside. destruct (quads q Q) as [->|[->|[->| ->]]]; cbn [bp dx dy]; cbn [Z.testbit Pos.testbit]; rewrite ?andb_true_r, ?andb_false_r, ?orb_false_r, ?orb_false_l; cbn [Pos.testbit]; lia.
Qed.

Lemma same_group a b g : inr g = true -> inside a b = true -> (gid a b =? g) = (a =? g mod kx) && (b =? g / kx).
Proof.
  intros Hg Hi. destruct (gid_of g Hg) as (A & B & C & _). destruct (gid_mod a b ltac:(unfold inside in Hi; lia)) as (E1 & E2). destruct (Z.eqb_spec (gid a b) g) as [<-|N].
  - rewrite E1, E2, !Z.eqb_refl. reflexivity.
  - symmetry. apply not_true_iff_false. intros K. apply N. rewrite <- C. f_equal; lia.
Qed.
Lemma clear_done_ok c D g : represents c D -> inr g = true -> exists c', clear_done f g c = Some c' /\ represents c' (fun h => D h && negb (h =? g)).
Proof.
  intros H Hg. destruct (gid_of g Hg) as (A & B & C & I). unfold clear_done. fold kx. set (x0 := g mod kx) in *. set (y0 := g / kx) in *. unfold represents in H.
  destruct (clear_ok _ _ x0 y0 kBottomRight H ltac:(lia) ltac:(lia) ltac:(unfold kBottomRight; lia)) as (c1 & E1 & H1). rewrite E1.
  destruct (clear_ok _ _ (x0 + 1) y0 kBottomLeft H1 ltac:(lia) ltac:(lia) ltac:(unfold kBottomLeft; lia)) as (c2 & E2 & H2). rewrite E2.
  destruct (clear_ok _ _ x0 (y0 + 1) kTopRight H2 ltac:(lia) ltac:(lia) ltac:(unfold kTopRight; lia)) as (c3 & E3 & H3). rewrite E3.
  destruct (clear_ok _ _ (x0 + 1) (y0 + 1) kTopLeft H3 ltac:(lia) ltac:(lia) ltac:(unfold kTopLeft; lia)) as (c4 & E4 & H4). exists c4. split; [exact E4|].
  apply (shows_ext _ _ _ H4). intros x y q Hx Hy Q. cbv beta.
  destruct (inside (x - dx q) (y - dy q)) eqn:Hi; cbn [negb orb].
  - rewrite (same_group _ _ g Hg Hi). fold x0 y0. unfold kBottomRight, kBottomLeft, kTopRight, kTopLeft.
    destruct (D (gid (x - dx q) (y - dy q))); [|reflexivity]. destruct (quads q Q) as [->|[->|[->| ->]]]; cbn [bp dx dy]; cbn [Z.testbit Pos.testbit]; rewrite ?andb_true_r, ?andb_false_r; cbn [negb andb]; rewrite ?andb_true_r; cbn [Pos.testbit]; lia.
  - assert (K : forall a b, (x - dx q =? a) && (y - dy q =? b) = true -> inside a b = false) by (intros a b K; replace a with (x - dx q) by lia; replace b with (y - dy q) by lia; exact Hi).
    unfold kBottomRight, kBottomLeft, kTopRight, kTopLeft. specialize (K x0 y0). rewrite I in K.
    destruct (quads q Q) as [->|[->|[->| ->]]]; cbn [bp dx dy] in *; cbn [Z.testbit Pos.testbit]; rewrite ?andb_true_r, ?andb_false_r; cbn [negb andb]; rewrite ?andb_true_r; cbn [Pos.testbit]; lia.
Qed.

(* ---- a round ---- *)
Section Round.
Variables (D S : Z -> bool).
Hypothesis Dis : forall g, inr g = true -> D g = true -> S g = false.
Definition cornerx (g : Z) (q : nat) : Z := g mod kx + dx q.
Definition cornery (g : Z) (q : nat) : Z := g / kx + dy q.
(* what group g sees in its q-th step *)
Definition sees (order : list Z) (g : Z) (q q' : nat) : bool := (q' =? q)%nat || F D S (firstn (T g q order) order) (cornerx g q) (cornery g q) q'.
Definition stat (order : list Z) (g : Z) (q : nat) : Z := nib (sees order g q).
Definition c3 (g s1 s2 s3 : Z) : gprog := fetch_status (g mod kx) (g / kx + 1) kTopRight (ready_rects f padx pady g s1 s2 s3).
Definition c2 (g s1 s2 : Z) : gprog := fetch_status (g mod kx + 1) (g / kx + 1) kTopLeft (c3 g s1 s2).
Definition c1 (g s1 : Z) : gprog := fetch_status (g mod kx + 1) (g / kx) kBottomLeft (c2 g s1).
Lemma group_done_c1 g : group_done f padx pady g = fetch_status (g mod kx) (g / kx) kBottomRight (c1 g).
Proof. reflexivity. Qed.
Definition stage (order : list Z) (g : Z) : option gprog :=
  match cn g order with
  | O => Some (group_done f padx pady g)
  | 1%nat => Some (c1 g (stat order g 1))
  | 2%nat => Some (c2 g (stat order g 1) (stat order g 2))
  | 3%nat => Some (c3 g (stat order g 1) (stat order g 2) (stat order g 3))
  | _ => None
  end.
Definition active (g : Z) : bool := inr g && S g.
Definition events (order : list Z) (es : list (Z * list rect)) : Prop :=
  NoDup (map fst es) /\ forall g rs, In (g, rs) es <-> active g = true /\ (4 <= cn g order)%nat /\ ready_rects f padx pady g (stat order g 1) (stat order g 2) (stat order g 3) (stat order g 4) = GDone rs.
Definition inv (order : list Z) (s : running) (es : list (Z * list rect)) : Prop :=
  shows (cnt s) (F D S order) /\ (forall g, calls s g = if active g then stage order g else None) /\ events order es.
Hypothesis Ready : forall g s1 s2 s3 s4, inr g = true -> exists rs, ready_rects f padx pady g s1 s2 s3 s4 = GDone rs.

Lemma stat_snoc order g q h : quad q -> (q <= cn g order)%nat -> stat (order ++ [h]) g q = stat order g q.
Proof.
  intros Q H. unfold stat, sees. rewrite T_snoc by (unfold quad in Q; lia). assert (T g q order < length order)%nat by (apply T_all; unfold quad in Q; lia). rewrite firstn_snoc by lia. reflexivity.
Qed.
Lemma stat_new order g q : Datatypes.S (cn g order) = q -> stat (order ++ [g]) g q = nib (fun q' => (q' =? q)%nat || F D S order (cornerx g q) (cornery g q) q').
Proof. intros H. unfold stat, sees. rewrite (T_new g order q H). rewrite firstn_snoc by lia. rewrite firstn_all. reflexivity. Qed.
Lemma F_own order g q : active g = true -> quad q -> F D S order (cornerx g q) (cornery g q) q = (q <=? cn g order)%nat.
Proof.
  unfold active. intros A Q. apply andb_true_iff in A. destruct A as (A & B). destruct (gid_of g A) as (_ & _ & G & I). unfold F, cornerx, cornery. replace (g mod kx + dx q - dx q) with (g mod kx) by lia. replace (g / kx + dy q - dy q) with (g / kx) by lia.
  rewrite G, I, B. cbn [negb orb andb]. destruct (D g) eqn:Ed; [|reflexivity]. specialize (Dis g A Ed). congruence.
Qed.
Lemma corner_range g q : inr g = true -> 0 <= cornerx g q <= kx /\ 0 <= cornery g q <= ky.
Proof. intros A. destruct (gid_of g A) as (X & Y & _). pose proof (dxy_range q). unfold cornerx, cornery. lia. Qed.

(* one fetch_or *)
Lemma fetch_step order s es g q k : inv order s es -> active g = true -> quad q -> Datatypes.S (cn g order) = q ->
  calls s g = Some (fetch_status (cornerx g q) (cornery g q) (2 ^ bp q) k) ->
  exists c, shows c (F D S (order ++ [g])) /\
    run_step f s g = match k (stat (order ++ [g]) g q) with
      | GDone rs => Some (Run c (put (calls s) g None), [(g, rs)])
      | GFail => None
      | p => Some (Run c (put (calls s) g (Some p)), [])
      end.
Proof.
  intros (Hc & _ & _) A Q Hq E. pose proof (proj1 (andb_prop _ _ A)) as Ai. destruct (corner_range g q Ai) as (Rx & Ry). unfold run_step. rewrite E. unfold fetch_status at 1. rewrite corner_exists by assumption.
  rewrite (land7 (cornerx g q)) by lia. pose proof (Z.mod_pos_bound (cornerx g q) 8 ltac:(lia)) as M8.
  pose proof (status_ok (cnt s (cornery g q) (cornerx g q / 8)) (4 * (cornerx g q mod 8)) q (F D S order (cornerx g q) (cornery g q)) k Q ltac:(lia)) as SO. cbv zeta in SO. rewrite SO; clear SO.
  2:{ intros q' Q'. apply Hc; assumption. }
  2:{ rewrite F_own by assumption. apply Nat.leb_gt. lia. }
  rewrite (stat_new order g q Hq).
  exists (update (cnt s) (cornery g q) (cornerx g q / 8) (Z.lor (cnt s (cornery g q) (cornerx g q / 8)) (Z.shiftl (2 ^ bp q) (4 * (cornerx g q mod 8))))). split; [|reflexivity].
  assert (B16 : 0 <= 2 ^ bp q < 16) by (destruct (quads q Q) as [->|[->|[->| ->]]]; cbn; lia).
  pose proof (shows_lor _ _ (cornerx g q) (cornery g q) (2 ^ bp q) Hc Rx Ry B16) as Hs. apply (shows_ext _ _ _ Hs). intros x y q' Hx Hy Q'. cbv beta. rewrite bit_pow by assumption.
  unfold F. destruct (inside (x - dx q') (y - dy q')) eqn:Hi; cbn [negb orb]; [|reflexivity]. rewrite cn_snoc.
  destruct (D (gid (x - dx q') (y - dy q'))) eqn:Hd; cbn [orb]; [reflexivity|].
  pose proof (same_group _ _ g Ai Hi) as SG. destruct (Z.eq_dec g (gid (x - dx q') (y - dy q'))) as [Eg|N].
  - rewrite <- Eg in SG |- *. rewrite Z.eqb_refl in SG. assert (Sg : S g = true) by apply (proj2 (andb_prop _ _ A)). rewrite Sg. cbn [andb]. unfold cornerx, cornery.
    destruct (Nat.eqb_spec q' q) as [->|Nq].
    + replace (x =? g mod kx + dx q) with true by lia. replace (y =? g / kx + dy q) with true by lia. cbn [andb]. rewrite orb_true_r. symmetry. apply Nat.leb_le. lia.
    + rewrite andb_false_r, orb_false_r. destruct (Nat.leb_spec q' (cn g order)); symmetry; [apply Nat.leb_le|apply Nat.leb_gt]; lia.
  - replace (cn (gid (x - dx q') (y - dy q')) order + 0)%nat with (cn (gid (x - dx q') (y - dy q')) order) by lia.
    replace (gid (x - dx q') (y - dy q') =? g) with false in SG by (symmetry; apply Z.eqb_neq; congruence).
    replace ((x =? cornerx g q) && (y =? cornery g q) && (q' =? q)%nat) with false; [now rewrite orb_false_r|]. symmetry. apply not_true_iff_false. intros K. apply andb_true_iff in K. destruct K as (K & K'). apply Nat.eqb_eq in K'. subst q'. unfold cornerx, cornery in K. lia.
Qed.
Lemma stage_other order g h : h <> g -> stage (order ++ [g]) h = stage order h.
Proof.
  intros N. unfold stage. rewrite cn_snoc. destruct (Z.eq_dec g h) as [->|_]; [contradiction|]. rewrite Nat.add_0_r. remember (cn h order) as m eqn:Em. destruct m as [|[|[|[|m]]]]; try reflexivity; rewrite ?stat_snoc by (unfold quad; lia); reflexivity.
Qed.
Lemma events_other order g es : (active g = true -> (cn g order >= 4)%nat \/ (cn g order < 3)%nat) -> events order es -> events (order ++ [g]) es.
Proof.
  intros Hg (N & H). split; [exact N|]. intros h rs. rewrite H, cn_snoc.
  assert (Q : forall q, quad q -> (4 <= cn h order)%nat -> stat (order ++ [g]) h q = stat order h q) by (intros q Q L; apply stat_snoc; [exact Q|unfold quad in Q; lia]).
  split.
  - intros (A & B & C). split; [exact A|]. split; [lia|]. rewrite !Q by (assumption || (unfold quad; lia)). exact C.
  - intros (A & B & C). assert (L : (4 <= cn h order)%nat). { destruct (Z.eq_dec g h) as [->|]; [|lia]. destruct (Hg A); lia. } rewrite !Q in C by (assumption || (unfold quad; lia)). auto.
Qed.
Lemma put_calls s g (v : option gprog) order : (forall h, calls s h = if active h then stage order h else None) -> active g = true -> stage (order ++ [g]) g = v ->
  forall h, put (calls s) g v h = if active h then stage (order ++ [g]) h else None.
Proof. intros H A E h. unfold put. destruct (Z.eqb_spec h g) as [->|N]; [rewrite A; congruence|]. rewrite stage_other by exact N. apply H. Qed.

Lemma inv_step order s es g : inv order s es -> exists s' e, run_step f s g = Some (s', e) /\ inv (order ++ [g]) s' (es ++ e).
Proof.
  intros Hinv. pose proof Hinv as (Hc & Hk & He). destruct (active g) eqn:A.
  - pose proof (Hk g) as Ek. rewrite A in Ek. unfold stage in Ek. remember (cn g order) as m eqn:Em.
    assert (Gn : cn g (order ++ [g]) = Datatypes.S m) by (rewrite cn_snoc, <- Em; destruct (Z.eq_dec g g); [lia|contradiction]).
    destruct m as [|[|[|[|m]]]].
    + rewrite group_done_c1 in Ek. destruct (fetch_step order s es g 1%nat (c1 g) Hinv A ltac:(unfold quad; lia) ltac:(lia)) as (c & C1 & C2). { unfold cornerx, cornery. cbn [dx dy]. rewrite !Z.add_0_r. exact Ek. }
      rewrite C2. unfold c1 at 1, fetch_status at 1. eexists. eexists. split; [reflexivity|]. rewrite app_nil_r. split; [exact C1|]. split; [|apply events_other; [intros _; right; lia|exact He]].
      apply put_calls; [exact Hk|exact A|]. unfold stage. rewrite Gn. reflexivity.
    + destruct (fetch_step order s es g 2%nat (c2 g (stat order g 1)) Hinv A ltac:(unfold quad; lia) ltac:(lia)) as (c & C1 & C2). { unfold cornerx, cornery. cbn [dx dy]. rewrite !Z.add_0_r. exact Ek. }
      rewrite C2. unfold c2 at 1, fetch_status at 1. eexists. eexists. split; [reflexivity|]. rewrite app_nil_r. split; [exact C1|]. split; [|apply events_other; [intros _; right; lia|exact He]].
      apply put_calls; [exact Hk|exact A|]. unfold stage. rewrite Gn. rewrite (stat_snoc order g 1) by (unfold quad; lia). reflexivity.
    + destruct (fetch_step order s es g 3%nat (c3 g (stat order g 1) (stat order g 2)) Hinv A ltac:(unfold quad; lia) ltac:(lia)) as (c & C1 & C2). { unfold cornerx, cornery. cbn [dx dy]. exact Ek. }
      rewrite C2. unfold c3 at 1, fetch_status at 1. eexists. eexists. split; [reflexivity|]. rewrite app_nil_r. split; [exact C1|]. split; [|apply events_other; [intros _; right; lia|exact He]].
      apply put_calls; [exact Hk|exact A|]. unfold stage. rewrite Gn. rewrite (stat_snoc order g 1), (stat_snoc order g 2) by (unfold quad; lia). reflexivity.
    + destruct (fetch_step order s es g 4%nat (ready_rects f padx pady g (stat order g 1) (stat order g 2) (stat order g 3)) Hinv A ltac:(unfold quad; lia) ltac:(lia)) as (c & C1 & C2). { unfold cornerx, cornery. cbn [dx dy]. rewrite !Z.add_0_r. exact Ek. }
      rewrite C2. destruct (Ready g (stat order g 1) (stat order g 2) (stat order g 3) (stat (order ++ [g]) g 4) (proj1 (andb_prop _ _ A))) as (rs & Er). rewrite Er.
      eexists. eexists. split; [reflexivity|]. split; [exact C1|]. split; [apply put_calls; [exact Hk|exact A|unfold stage; rewrite Gn; reflexivity]|].
      destruct He as (N & H). split.
      * rewrite map_app. cbn [map fst]. assert (NG : ~ In g (map fst es)). { intros Hin. apply in_map_iff in Hin. destruct Hin as ((g' & rs') & E' & Hin). cbn in E'. subst g'. apply H in Hin. lia. }
        clear - N NG. induction (map fst es) as [|a l IH]; cbn; [constructor; [intros []|constructor]|]. inversion N; subst. constructor; [|apply IH; [assumption|intros K; apply NG; now right]]. intros K. apply in_app_iff in K. destruct K as [K|[->|[]]]; [contradiction|]. apply NG. now left.
      * intros h rs'. rewrite in_app_iff, H. destruct (Z.eq_dec h g) as [->|Nh].
        -- rewrite (stat_snoc order g 1), (stat_snoc order g 2), (stat_snoc order g 3) by (unfold quad; lia). rewrite Er, Gn. split.
           ++ intros [(_ & K & _)|[K|[]]]; [lia|]. injection K as <-. auto.
           ++ intros (_ & _ & K). injection K as <-. right. left. reflexivity.
        -- rewrite cn_snoc. destruct (Z.eq_dec g h) as [->|_]; [contradiction|]. rewrite Nat.add_0_r. split.
           ++ intros [(A1 & B1 & D1)|[K|[]]]; [|congruence]. split; [exact A1|]. split; [exact B1|]. rewrite !stat_snoc by (unfold quad; lia). exact D1.
           ++ intros (A1 & B1 & D1). left. split; [exact A1|]. split; [exact B1|]. rewrite !stat_snoc in D1 by (unfold quad; lia). exact D1.
    + exists s, []. unfold run_step. rewrite Ek. split; [reflexivity|]. rewrite app_nil_r. split; [|split; [|apply events_other; [intros _; left; lia|exact He]]].
      * apply (shows_ext _ _ _ Hc). intros x y q Hx Hy Q. unfold F. rewrite cn_snoc. destruct (Z.eq_dec g (gid (x - dx q) (y - dy q))) as [<-|]; [|now rewrite Nat.add_0_r]. rewrite <- Em. unfold quad in Q. replace (q <=? Datatypes.S (Datatypes.S (Datatypes.S (Datatypes.S m))))%nat with true by (symmetry; apply Nat.leb_le; lia). replace (q <=? Datatypes.S (Datatypes.S (Datatypes.S (Datatypes.S m))) + 1)%nat with true by (symmetry; apply Nat.leb_le; lia). reflexivity.
      * intros h. rewrite Hk. destruct (Z.eq_dec h g) as [->|N]; [|now rewrite stage_other]. rewrite A. unfold stage. rewrite Gn, <- Em. reflexivity.
  - exists s, []. unfold run_step. rewrite Hk, A. split; [reflexivity|]. rewrite app_nil_r. split; [|split; [|apply events_other; [congruence|exact He]]].
    + apply (shows_ext _ _ _ Hc). intros x y q Hx Hy Q. unfold F. rewrite cn_snoc. destruct (inside (x - dx q) (y - dy q)) eqn:Hi; [|reflexivity]. destruct (Z.eq_dec g (gid (x - dx q) (y - dy q))) as [->|]; [|now rewrite Nat.add_0_r].
      unfold active in A. rewrite (gid_inr _ _ Hi) in A. cbn [andb] in A. rewrite A. reflexivity.
    + intros h. rewrite Hk. destruct (Z.eq_dec h g) as [->|N]; [now rewrite A|]. now rewrite stage_other.
Qed.
Lemma run_snoc s order g : run_steps f s (order ++ [g]) = match run_steps f s order with Some (s', es) => match run_step f s' g with Some (s'', e) => Some (s'', es ++ e) | None => None end | None => None end.
Proof.
  revert s. induction order as [|h order IH]; intros s; cbn [app run_steps].
  - destruct (run_step f s g) as [[s' e]|]; [|reflexivity]. rewrite app_nil_r. reflexivity.
  - destruct (run_step f s h) as [[s1 e1]|]; [|reflexivity]. rewrite IH. destruct (run_steps f s1 order) as [[s2 e2]|]; [|reflexivity]. destruct (run_step f s2 g) as [[s3 e3]|]; [|reflexivity]. now rewrite app_assoc.
Qed.
Lemma run_inv c order : represents c D -> exists s es, run_steps f (Run c (start_calls f padx pady S)) order = Some (s, es) /\ inv order s es.
Proof.
  intros H. induction order as [|g order IH] using rev_ind.
  - exists (Run c (start_calls f padx pady S)), []. split; [reflexivity|]. split; [|split].
    + apply (shows_ext _ _ _ H). intros x y q Hx Hy Q. unfold F. replace (q <=? cn (gid (x - dx q) (y - dy q)) [])%nat with false; [rewrite andb_false_r, orb_false_r; reflexivity|]. symmetry. apply Nat.leb_gt. cbn. unfold quad in Q. lia.
    + intros h. unfold start_calls, active, inr. reflexivity.
    + split; [constructor|]. intros h rs. cbn. split; [intros []|intros (_ & K & _); lia].
  - destruct IH as (s & es & E & I). destruct (inv_step order s es g I) as (s' & e & E' & I'). exists s', (es ++ e). split; [|exact I']. rewrite run_snoc, E, E'. reflexivity.
Qed.
End Round.
End Run.
