(* Finalization of pixels: who delivers a pixel, and when. *)
From Verif Require Import Base ListAux ContainerModel FrameDimModel FrameDimSpec FrameDimProofs BorderModel BorderSpec BorderGeom BorderProofs.
Ltac Zify.zify_post_hook ::= idtac.

Lemma at_part_at p x a : mono p -> 0 <= a < 3 -> (p a <= x < p (a + 1)) <-> part_at p x = Some a.
Proof.
  intros M Ha. rewrite (part_between p x a (a + 1) M ltac:(lia) ltac:(lia)). split; [intros (b & E & H); rewrite E; f_equal; lia|intros E; exists a; split; [exact E|lia]].
Qed.
Lemma part_at_range p x a : part_at p x = Some a -> 0 <= a < 3.
Proof. unfold part_at. repeat destruct (_ && _); intros E; try discriminate; injection E as <-; lia. Qed.

(* counting *)
Lemma count_none (own : Z -> bool) l : (forall g, In g l -> own g = false) -> zlen (filter own l) = 0.
Proof. induction l as [|g l IH]; intros H; cbn [filter]; [reflexivity|]. rewrite (H g) by (left; reflexivity). apply IH. intros h Hh. apply H. now right. Qed.
Lemma count_most (own : Z -> bool) l : NoDup l -> (forall g h, In g l -> In h l -> own g = true -> own h = true -> g = h) -> zlen (filter own l) <= 1.
Proof.
  induction 1 as [|g l N ND IH]; intros H; cbn [filter]; [cbn; lia|]. destruct (own g) eqn:E.
  - rewrite zlen_cons, count_none; [lia|]. intros h Hh. apply not_true_iff_false. intros K. apply N. rewrite (H g h (or_introl eq_refl) (or_intror Hh) E K). exact Hh.
  - apply IH. intros a b Ha Hb. apply H; now right.
Qed.
Lemma count_some (own : Z -> bool) l g : In g l -> own g = true -> 1 <= zlen (filter own l).
Proof. intros Hin E. assert (K : In g (filter own l)) by (apply filter_In; auto). destruct (filter own l) as [|a m]; [destruct K|]. rewrite zlen_cons. pose proof (zlen_nonneg m). lia. Qed.
Lemma arg_max (t : nat -> nat) (p : nat -> bool) l : (exists q, In q l /\ p q = true) -> exists q, In q l /\ p q = true /\ forall r, In r l -> p r = true -> (t r <= t q)%nat.
Proof.
  induction l as [|a l IH]; intros (q & Hq & Eq); [destruct Hq|]. destruct (existsb p l) eqn:Ex.
  - apply existsb_exists in Ex. destruct (IH Ex) as (m & Hm & Em & Max). destruct (p a && (t m <=? t a)%nat) eqn:Ea.
    + apply andb_true_iff in Ea. destruct Ea as (Pa & La). apply Nat.leb_le in La. exists a. split; [now left|]. split; [exact Pa|]. intros r [<-|Hr] Er; [lia|]. specialize (Max r Hr Er). lia.
    + exists m. split; [now right|]. split; [exact Em|]. intros r [<-|Hr] Er; [|auto]. rewrite Er in Ea. cbn in Ea. apply Nat.leb_gt in Ea. lia.
  - destruct Hq as [<-|Hq]; [|exfalso; assert (existsb p l = true) by (apply existsb_exists; eauto); congruence]. exists a. split; [now left|]. split; [exact Eq|]. intros r [<-|Hr] Er; [lia|]. exfalso. assert (existsb p l = true) by (apply existsb_exists; eauto); congruence.
Qed.

Section Top.
Variables (f : frame_dim) (padx pady : Z).
Notation gd := (fd_group_dim f).
Notation kx := (fd_xsize_groups f).
Notation ky := (fd_ysize_groups f).
Hypothesis Hgd : 128 <= gd <= 1024 /\ (8 | gd).
Hypothesis Hx1 : (kx - 1) * gd < fd_xsize f <= kx * gd.
Hypothesis Hy1 : (ky - 1) * gd < fd_ysize f <= ky * gd.
Hypothesis Hx2 : 1 <= fd_xsize f < 2 ^ 34.
Hypothesis Hy2 : 1 <= fd_ysize f < 2 ^ 34.
Hypothesis Hx3 : fd_xsize f <= 8 * fd_xsize_blocks f.
Hypothesis Hy3 : fd_ysize f <= 8 * fd_ysize_blocks f.


Hypothesis Hpx : 0 <= padx /\ 2 * padx <= gd.
Hypothesis Hpy : 0 <= pady /\ 2 * pady <= gd.
Hypothesis HN : fd_num_groups f = kx * ky.
Hypothesis Hkx : 0 < kx.
Hypothesis Hky : 0 < ky.
Notation X := (P gd (fd_xsize f) (fd_xsize_blocks f) kx padx).
Notation Y := (P gd (fd_ysize f) (fd_ysize_blocks f) ky pady).
Notation cellx := (in_cell gd (fd_xsize f) (fd_xsize_blocks f) kx padx).
Notation celly := (in_cell gd (fd_ysize f) (fd_ysize_blocks f) ky pady).
Notation inr := (inr f).
Notation gid := (gid f).
Notation inside := (inside f).

Lemma mono_x i : 0 <= i < kx -> mono (X i).
Proof. intros Hi. pose proof (positions_mono gd _ _ kx padx Hgd Hx1 Hx2 Hx3 Hpx i Hi). unfold mono. lia. Qed.
Lemma mono_y i : 0 <= i < ky -> mono (Y i).
Proof. intros Hi. pose proof (positions_mono gd _ _ ky pady Hgd Hy1 Hy2 Hy3 Hpy i Hi). unfold mono. lia. Qed.

Lemma ready_ok g s1 s2 s3 s4 : inr g = true -> exists rs, ready_rects f padx pady g s1 s2 s3 s4 = GDone rs /\ zlen rs <= 3 /\ Forall (in_frame f) rs /\
  forall x y, zlen (filter (fun r => coversb r x y) rs) =
    match part_at (X (g mod kx)) x, part_at (Y (g / kx)) y with Some a, Some b => if available s1 s2 s3 s4 a b then 1 else 0 | _, _ => 0 end.
Proof.
  intros Hg. destruct (gid_of f Hkx HN g Hg) as (Gx & Gy & _ & _). cbv zeta in *.
  pose proof (mono_x _ Gx) as Mx. pose proof (mono_y _ Gy) as My.
  pose proof (positions_mono gd _ _ kx padx Hgd Hx1 Hx2 Hx3 Hpx _ Gx) as Lx. pose proof (positions_mono gd _ _ ky pady Hgd Hy1 Hy2 Hy3 Hpy _ Gy) as Ly.
  unfold ready_rects. cbv zeta. unfold rect_clamped. cbn [rx0 ry0 rxsize rysize].
  change (positions (w64 (g mod kx * gd) / 8) (clamped_size (w64 (g mod kx * gd) / 8) (gd / 8) (fd_xsize_blocks f)) (fd_xsize f) padx (kx =? g mod kx + 1)) with (X (g mod kx)).
  change (positions (w64 (g / kx * gd) / 8) (clamped_size (w64 (g / kx * gd) / 8) (gd / 8) (fd_ysize_blocks f)) (fd_ysize f) pady (ky =? g / kx + 1)) with (Y (g / kx)).
  set (xp := X (g mod kx)) in *. set (yp := Y (g / kx)) in *. clearbody xp yp.
  set (m := [s1 =? 15; s2 =? 15; s3 =? 15; s4 =? 15; negb (Z.land s1 kTopRight =? 0); negb (Z.land s1 kBottomLeft =? 0); negb (Z.land s2 kBottomRight =? 0); negb (Z.land s4 kBottomRight =? 0)]).
  assert (M : forall a b, 0 <= a < 3 -> 0 <= b < 3 -> available s1 s2 s3 s4 a b = mask_of m a b).
  { intros a b Ha Hb. unfold m, mask_of, available. assert (a = 0 \/ a = 1 \/ a = 2) as [->|[->| ->]] by lia; assert (b = 0 \/ b = 1 \/ b = 2) as [->|[->| ->]] by lia; try reflexivity.
    - destruct (Z.eqb_spec s1 15) as [->|]; reflexivity.
    - destruct (Z.eqb_spec s4 15) as [->|]; reflexivity. }
  rewrite (segment_ext _ (mask_of m) 0), (segment_ext _ (mask_of m) 1), (segment_ext _ (mask_of m) 2) by (intros; apply M; lia).
  pose proof all_parts as AP. rewrite forallb_forall in AP. specialize (AP m (in_masks 8 m eq_refl)). unfold parts_ok in AP.
  destruct (segment (mask_of m) 0) as [g0|]; [|discriminate]. destruct (segment (mask_of m) 1) as [g1|]; [|discriminate]. destruct (segment (mask_of m) 2) as [g2|]; [|discriminate].
  apply andb_true_iff in AP. destruct AP as (AP & A3). apply andb_true_iff in AP. destruct AP as (A1 & A2). rewrite forallb_forall in A2.
  set (qs := merged g0 g1 g2) in *. clearbody qs.
  assert (L3 : forall l, zlen (flat_map (append_rect xp yp) l) <= zlen l).
  { induction l as [|q l IH]; cbn [flat_map]; [reflexivity|]. rewrite zlen_app, zlen_cons. assert (zlen (append_rect xp yp q) <= 1); [|lia]. unfold append_rect. destruct q as (((x0 & x1) & y0) & y1). destruct (_ || _); cbn; lia. }
  specialize (L3 qs). replace (zlen (flat_map (append_rect xp yp) qs) <=? 3) with true by lia. exists (flat_map (append_rect xp yp) qs). split; [reflexivity|]. split; [lia|]. split.
  - apply Forall_forall. intros r Hr. apply in_flat_map in Hr. destruct Hr as ((((x0 & x1) & y0) & y1) & Hq & Hr). specialize (A2 _ Hq). cbv beta iota in A2.
    pose proof (mono_le xp x0 x1 Mx ltac:(lia) ltac:(lia)) as B1. pose proof (mono_le yp y0 y1 My ltac:(lia) ltac:(lia)) as B2.
    pose proof (mono_le xp x1 3 Mx ltac:(lia) ltac:(lia)) as B3. pose proof (mono_le yp y1 3 My ltac:(lia) ltac:(lia)) as B4.
    unfold append_rect in Hr. rewrite !w64_id in Hr by lia. cbn [rxsize rysize] in Hr. destruct ((xp x1 - xp x0 =? 0) || (yp y1 - yp y0 =? 0)) eqn:E0; [destruct Hr|]. destruct Hr as [<-|[]]. unfold in_frame. cbn [rx0 ry0 rxsize rysize]. lia.
  - intros x y. rewrite zlen_filter_flat.
    rewrite (sum_ext _ (fun q => match part_at xp x, part_at yp y with Some a, Some b => if inside_quad a b q then 1 else 0 | _, _ => 0 end)).
    2:{ intros q Hq. apply append_covers; [exact Mx|exact My|]. specialize (A2 _ Hq). destruct q as (((x0 & x1) & y0) & y1). lia. }
    destruct (part_at xp x) as [a|] eqn:Ea; [|apply sum_zero; reflexivity]. destruct (part_at yp y) as [b|] eqn:Eb; [|apply sum_zero; reflexivity].
    apply part_at_range in Ea. apply part_at_range in Eb. rewrite <- zlen_filter_sum. rewrite M by assumption.
    rewrite forallb_forall in A3. assert (In a [0; 1; 2]) as Ia by (cbn; lia). specialize (A3 a Ia). rewrite forallb_forall in A3. assert (In b [0; 1; 2]) as Ib by (cbn; lia). specialize (A3 b Ib). apply Z.eqb_eq in A3. exact A3.
Qed.

(* ---- one pixel ---- *)
Section Pixel.
Variables (x y i j : Z) (cx cy : bool).
Hypothesis Hi : 0 <= i < kx.
Hypothesis Hj : 0 <= j < ky.
Hypothesis Cx : cellx i cx x.
Hypothesis Cy : celly j cy y.
(* the groups around the pixel *)
Definition L : list nat := if cx then if cy then [1%nat] else [1%nat; 4%nat] else if cy then [1%nat; 2%nat] else [1%nat; 2%nat; 3%nat; 4%nat].
Definition grp (q : nat) : Z := gid (i - dx q) (j - dy q).
Definition ax (q : nat) : Z := if cx then 1 else if dx q =? 0 then 0 else 2.
Definition ay (q : nat) : Z := if cy then 1 else if dy q =? 0 then 0 else 2.

Lemma border_x : cx = false -> 0 < i.
Proof. intros E. unfold in_cell in Cx. rewrite E in Cx. apply Cx. Qed.
Lemma border_y : cy = false -> 0 < j.
Proof. intros E. unfold in_cell in Cy. rewrite E in Cy. apply Cy. Qed.
Lemma L_facts q : In q L -> quad q /\ inside (i - dx q) (j - dy q) = true /\ (cx = true -> dx q = 0) /\ (cy = true -> dy q = 0).
Proof.
  intros Hq. pose proof border_x as Bx. pose proof border_y as By. unfold L in Hq. unfold quad, BorderProofs.inside.
  destruct cx, cy; try specialize (Bx eq_refl); try specialize (By eq_refl); cbn [In] in Hq; repeat (destruct Hq as [<-|Hq]); try (destruct Hq); cbn [dx dy]; repeat split; try lia; intros K; discriminate K.
Qed.
Lemma grp_facts q : In q L -> inr (grp q) = true /\ grp q mod kx = i - dx q /\ grp q / kx = j - dy q.
Proof.
  intros Hq. destruct (L_facts q Hq) as (_ & I & _). split; [apply gid_inr; assumption|]. apply (gid_mod f Hkx). unfold BorderProofs.inside in I. lia.
Qed.
Lemma grp_inj q r : In q L -> In r L -> grp q = grp r -> q = r.
Proof.
  intros Hq Hr E. destruct (grp_facts q Hq) as (_ & A1 & A2). destruct (grp_facts r Hr) as (_ & B1 & B2). rewrite E in A1, A2. destruct (L_facts q Hq) as (Q & _). destruct (L_facts r Hr) as (R & _).
  assert (D1 : dx q = dx r) by lia. assert (D2 : dy q = dy r) by lia. destruct (quads q Q) as [->|[->|[->| ->]]]; destruct (quads r R) as [->|[->|[->| ->]]]; cbn in D1, D2; (reflexivity || lia).
Qed.
(* the parts of a group that contain the pixel *)
Lemma part_x g : inr g = true -> part_at (X (g mod kx)) x = if cx then if g mod kx =? i then Some 1 else None else if g mod kx =? i then Some 0 else if g mod kx =? i - 1 then Some 2 else None.
Proof.
  intros Hg. destruct (gid_of f Hkx HN g Hg) as (Gx & _). set (u := g mod kx) in *. clearbody u.
  assert (K : forall a, 0 <= a < 3 -> part_at (X u) x = Some a <-> (if cx then u = i /\ a = 1 else (u = i /\ a = 0) \/ (u = i - 1 /\ a = 2))).
  { intros a Ha. rewrite <- (at_part_at (X u) x a (mono_x u Gx) Ha). apply (part_of_cell gd _ _ kx padx Hgd Hx1 Hx2 Hx3 Hpx i cx x Hi Cx u a Gx Ha). }
  assert (N : (forall a, 0 <= a < 3 -> part_at (X u) x <> Some a) -> part_at (X u) x = None).
  { intros H. destruct (part_at (X u) x) as [a|] eqn:E; [|reflexivity]. exfalso. apply (H a (part_at_range _ _ _ E)). reflexivity. }
  destruct cx.
  - destruct (Z.eqb_spec u i) as [E|E]; [apply K; lia|]. apply N. intros a Ha. rewrite K by exact Ha. lia.
  - destruct (Z.eqb_spec u i) as [E|E]; [apply K; lia|]. destruct (Z.eqb_spec u (i - 1)) as [E'|E']; [apply K; lia|]. apply N. intros a Ha. rewrite K by exact Ha. lia.
Qed.
Lemma part_y g : inr g = true -> part_at (Y (g / kx)) y = if cy then if g / kx =? j then Some 1 else None else if g / kx =? j then Some 0 else if g / kx =? j - 1 then Some 2 else None.
Proof.
  intros Hg. destruct (gid_of f Hkx HN g Hg) as (_ & Gy & _). set (u := g / kx) in *. clearbody u.
  assert (K : forall a, 0 <= a < 3 -> part_at (Y u) y = Some a <-> (if cy then u = j /\ a = 1 else (u = j /\ a = 0) \/ (u = j - 1 /\ a = 2))).
  { intros a Ha. rewrite <- (at_part_at (Y u) y a (mono_y u Gy) Ha). apply (part_of_cell gd _ _ ky pady Hgd Hy1 Hy2 Hy3 Hpy j cy y Hj Cy u a Gy Ha). }
  assert (N : (forall a, 0 <= a < 3 -> part_at (Y u) y <> Some a) -> part_at (Y u) y = None).
  { intros H. destruct (part_at (Y u) y) as [a|] eqn:E; [|reflexivity]. exfalso. apply (H a (part_at_range _ _ _ E)). reflexivity. }
  destruct cy.
  - destruct (Z.eqb_spec u j) as [E|E]; [apply K; lia|]. apply N. intros a Ha. rewrite K by exact Ha. lia.
  - destruct (Z.eqb_spec u j) as [E|E]; [apply K; lia|]. destruct (Z.eqb_spec u (j - 1)) as [E'|E']; [apply K; lia|]. apply N. intros a Ha. rewrite K by exact Ha. lia.
Qed.
Lemma parts_grp q : In q L -> part_at (X (grp q mod kx)) x = Some (ax q) /\ part_at (Y (grp q / kx)) y = Some (ay q).
Proof.
  intros Hq. destruct (L_facts q Hq) as (Q & I & Lx & Ly). destruct (grp_facts q Hq) as (G & Gx & Gy). rewrite part_x, part_y, Gx, Gy by exact G. unfold ax, ay. pose proof (dxy_range q).
  split.
  - destruct cx; [rewrite Lx by reflexivity; replace (i - 0 =? i) with true by lia; reflexivity|]. destruct (Z.eqb_spec (dx q) 0) as [->|]; [replace (i - 0 =? i) with true by lia; reflexivity|]. replace (i - dx q =? i) with false by lia. replace (i - dx q =? i - 1) with true by lia. reflexivity.
  - destruct cy; [rewrite Ly by reflexivity; replace (j - 0 =? j) with true by lia; reflexivity|]. destruct (Z.eqb_spec (dy q) 0) as [->|]; [replace (j - 0 =? j) with true by lia; reflexivity|]. replace (j - dy q =? j) with false by lia. replace (j - dy q =? j - 1) with true by lia. reflexivity.
Qed.
Lemma around g : inr g = true -> (part_at (X (g mod kx)) x <> None /\ part_at (Y (g / kx)) y <> None) -> exists q, In q L /\ g = grp q.
Proof.
  intros Hg (Nx & Ny). rewrite part_x in Nx by exact Hg. rewrite part_y in Ny by exact Hg. destruct (gid_of f Hkx HN g Hg) as (_ & _ & G & _). 
  assert (Ex : g mod kx = i \/ (cx = false /\ g mod kx = i - 1)). { destruct cx; destruct (Z.eqb_spec (g mod kx) i); auto; try (exfalso; apply Nx; reflexivity). destruct (Z.eqb_spec (g mod kx) (i - 1)); auto. exfalso; apply Nx; reflexivity. }
  assert (Ey : g / kx = j \/ (cy = false /\ g / kx = j - 1)). { destruct cy; destruct (Z.eqb_spec (g / kx) j); auto; try (exfalso; apply Ny; reflexivity). destruct (Z.eqb_spec (g / kx) (j - 1)); auto. exfalso; apply Ny; reflexivity. }
  unfold L, grp. rewrite <- G. destruct Ex as [Ex|(Kx & Ex)]; destruct Ey as [Ey|(Ky & Ey)]; rewrite Ex, Ey.
  - exists 1%nat. cbn [dx dy]. rewrite !Z.sub_0_r. split; [|reflexivity]. destruct cx, cy; cbn; auto.
  - exists 4%nat. cbn [dx dy]. rewrite !Z.sub_0_r. split; [|reflexivity]. rewrite Ky. destruct cx; cbn; auto.
  - exists 2%nat. cbn [dx dy]. rewrite !Z.sub_0_r. split; [|reflexivity]. rewrite Kx. destruct cy; cbn; auto.
  - exists 3%nat. cbn [dx dy]. split; [|reflexivity]. rewrite Kx, Ky. cbn; auto.
Qed.
Lemma near_iff g : near f padx pady x y g <-> exists q, In q L /\ g = grp q.
Proof.
  assert (K : forall h, inr h = true -> near f padx pady x y h <-> near1 gd (fd_xsize f) padx x (h mod kx) /\ near1 gd (fd_ysize f) pady y (h / kx)).
  { intros h Hh. destruct (gid_of f Hkx HN h Hh) as (Gx & Gy & _).
    destruct (seg_props (h mod kx) gd (fd_xsize f) kx ltac:(lia) ltac:(lia) ltac:(lia) ltac:(lia) Gx) as (E1 & _).
    destruct (seg_props (h / kx) gd (fd_ysize f) ky ltac:(lia) ltac:(lia) ltac:(lia) ltac:(lia) Gy) as (E2 & _).
    unfold near, covers, group_rect, rect_clamped, near1, seg_size. cbv zeta. cbn [rx0 ry0 rxsize rysize]. rewrite E1, E2. unfold BorderProofs.inr in Hh. split.
    - intros (_ & x' & y' & A & B & C & D). split; [exists x'|exists y']; auto.
    - intros ((x' & A & C) & (y' & B & D)). split; [lia|]. exists x', y'. auto. }
  split.
  - intros Hn. assert (Hg : inr g = true) by (unfold BorderProofs.inr; destruct Hn as (R & _); lia). apply around; [exact Hg|]. apply K in Hn; [|exact Hg]. destruct Hn as (N1 & N2). destruct (gid_of f Hkx HN g Hg) as (Gx & Gy & _).
    rewrite (near_cell gd _ _ kx padx Hgd Hx1 Hx2 Hx3 Hpx i cx x Hi Cx _ Gx) in N1. rewrite (near_cell gd _ _ ky pady Hgd Hy1 Hy2 Hy3 Hpy j cy y Hj Cy _ Gy) in N2.
    rewrite part_x, part_y by exact Hg. split.
    + destruct cx; [rewrite N1, Z.eqb_refl; discriminate|]. destruct N1 as [N1|N1]; rewrite N1; [rewrite Z.eqb_refl; discriminate|]. destruct (i - 1 =? i); [discriminate|]. rewrite Z.eqb_refl. discriminate.
    + destruct cy; [rewrite N2, Z.eqb_refl; discriminate|]. destruct N2 as [N2|N2]; rewrite N2; [rewrite Z.eqb_refl; discriminate|]. destruct (j - 1 =? j); [discriminate|]. rewrite Z.eqb_refl. discriminate.
  - intros (q & Hq & ->). destruct (L_facts q Hq) as (Q & I & Lx & Ly). destruct (grp_facts q Hq) as (G & Gx & Gy). apply K; [exact G|]. pose proof (dxy_range q).
    unfold BorderProofs.inside in I. rewrite Gx, Gy. rewrite (near_cell gd _ _ kx padx Hgd Hx1 Hx2 Hx3 Hpx i cx x Hi Cx (i - dx q) ltac:(lia)), (near_cell gd _ _ ky pady Hgd Hy1 Hy2 Hy3 Hpy j cy y Hj Cy (j - dy q) ltac:(lia)). split.
    + destruct cx; [rewrite Lx by reflexivity; lia|lia].
    + destruct cy; [rewrite Ly by reflexivity; lia|lia].
Qed.

(* ---- one round ---- *)
Section Owner.
Variables (D S : Z -> bool) (order : list Z).
Hypothesis Dis : forall g, inr g = true -> D g = true -> S g = false.
Notation stat := (stat f D S order).
Lemma available_grp q : In q L ->
  available (stat (grp q) 1) (stat (grp q) 2) (stat (grp q) 3) (stat (grp q) 4) (ax q) (ay q) =
  forallb (fun q' => (q' =? q)%nat || F f D S (firstn (T (grp q) q order) order) i j q') L.
Proof.
  intros Hq. destruct (grp_facts q Hq) as (_ & Gx & Gy).
  assert (Sq : forall q', sees f D S order (grp q) q q' = (q' =? q)%nat || F f D S (firstn (T (grp q) q order) order) i j q').
  { intros q'. unfold sees, cornerx, cornery. rewrite Gx, Gy. replace (i - dx q + dx q) with i by lia. replace (j - dy q + dy q) with j by lia. reflexivity. }
  assert (B : forall q', quad q' -> negb (Z.land (stat (grp q) q) (2 ^ bp q') =? 0) = (q' =? q)%nat || F f D S (firstn (T (grp q) q order) order) i j q').
  { intros q' Q'. unfold BorderProofs.stat. rewrite nib_land by exact Q'. apply Sq. }
  assert (A : (stat (grp q) q =? 15) = forallb (fun q' => (q' =? q)%nat || F f D S (firstn (T (grp q) q order) order) i j q') [1%nat; 2%nat; 3%nat; 4%nat]).
  { unfold BorderProofs.stat. rewrite nib_full, !Sq. cbn [forallb]. now rewrite andb_true_r, !andb_assoc. }
  clear Sq. unfold L in *. unfold ax, ay.
  destruct cx, cy; cbn [In] in Hq; repeat (destruct Hq as [<-|Hq]); try (destruct Hq); cbn [dx dy]; cbn [Z.eqb]; cbn [available].
  - reflexivity.
  - change kTopRight with (2 ^ bp 4). rewrite (B 4%nat ltac:(unfold quad; lia)). cbn [forallb]. rewrite andb_true_r. reflexivity.
  - change kBottomRight with (2 ^ bp 1). rewrite (B 1%nat ltac:(unfold quad; lia)). cbn [forallb]. cbn [Nat.eqb orb andb]. rewrite andb_true_r. reflexivity.
  - change kBottomLeft with (2 ^ bp 2). rewrite (B 2%nat ltac:(unfold quad; lia)). cbn [forallb]. rewrite andb_true_r. reflexivity.
  - change kBottomRight with (2 ^ bp 1). rewrite (B 1%nat ltac:(unfold quad; lia)). cbn [forallb]. cbn [Nat.eqb orb andb]. rewrite andb_true_r. reflexivity.
  - exact A.
  - exact A.
  - exact A.
  - exact A.
Qed.
(* the group delivers the pixel *)
Definition own (g : Z) : bool :=
  existsb (fun q => (g =? grp q) && forallb (fun q' => (q' =? q)%nat || F f D S (firstn (T g q order) order) i j q') L) L.
Lemma own_grp q : In q L -> own (grp q) = forallb (fun q' => (q' =? q)%nat || F f D S (firstn (T (grp q) q order) order) i j q') L.
Proof.
  intros Hq. unfold own. set (h := forallb _ L). destruct h eqn:E.
  - apply existsb_exists. exists q. split; [exact Hq|]. rewrite Z.eqb_refl. exact E.
  - apply not_true_iff_false. intros K. apply existsb_exists in K. destruct K as (r & Hr & K). apply andb_true_iff in K. destruct K as (K1 & K2). apply Z.eqb_eq in K1. apply grp_inj in K1; [|assumption|assumption]. subst r. unfold h in E. congruence.
Qed.
Lemma contribution g rs : inr g = true -> ready_rects f padx pady g (stat g 1) (stat g 2) (stat g 3) (stat g 4) = GDone rs ->
  zlen (filter (fun r => coversb r x y) rs) = if own g then 1 else 0.
Proof.
  intros Hg E. destruct (ready_ok g (stat g 1) (stat g 2) (stat g 3) (stat g 4) Hg) as (rs' & E' & _ & _ & C). rewrite E in E'. injection E' as <-. rewrite C. clear C.
  destruct (existsb (fun q => g =? grp q) L) eqn:Ex.
  - apply existsb_exists in Ex. destruct Ex as (q & Hq & Eq). apply Z.eqb_eq in Eq. subst g. destruct (parts_grp q Hq) as (-> & ->). rewrite available_grp, own_grp by exact Hq. reflexivity.
  - assert (N : forall q, In q L -> g <> grp q). { intros q Hq K. assert (existsb (fun q => g =? grp q) L = true) by (apply existsb_exists; exists q; split; [exact Hq|now apply Z.eqb_eq]). congruence. }
    assert (O : own g = false). { apply not_true_iff_false. intros K. apply existsb_exists in K. destruct K as (q & Hq & K). apply andb_true_iff in K. apply (N q Hq). lia. }
    rewrite O. destruct (part_at (X (g mod kx)) x) as [a|] eqn:Ea; [|reflexivity]. destruct (part_at (Y (g / kx)) y) as [b|] eqn:Eb; [|reflexivity]. exfalso. destruct (around g Hg) as (q & Hq & K); [rewrite Ea, Eb; split; discriminate|]. exact (N q Hq K).
Qed.
Lemma times_own es : events f padx pady D S order es -> times es x y = zlen (filter own (map fst es)).
Proof.
  intros (_ & H). unfold times. rewrite zlen_filter_flat.
  rewrite (sum_ext _ (fun e => if own (fst e) then 1 else 0)).
  - induction es as [|e es IH]; [reflexivity|]. clear H IH. rewrite <- zlen_filter_sum. induction (e :: es) as [|a l IH]; [reflexivity|]. cbn [map filter]. destruct (own (fst a)); [rewrite !zlen_cons, IH; reflexivity|exact IH].
  - intros (g & rs) Hin. apply H in Hin. destruct Hin as (A & _ & R). apply contribution; [exact (proj1 (andb_prop _ _ A))|exact R].
Qed.
Lemma F_grp t q : In q L -> F f D S (firstn t order) i j q = D (grp q) || (S (grp q) && (T (grp q) q order <? Nat.min t (length order))%nat).
Proof.
  intros Hq. destruct (L_facts q Hq) as (Q & I & _). unfold F. rewrite I. fold (grp q). cbn [negb orb]. f_equal. f_equal. apply eq_true_iff_eq. rewrite Nat.leb_le, Nat.ltb_lt. apply T_count. unfold quad in Q. lia.
Qed.
Lemma own_iff q : In q L -> (4 <= cn (grp q) order)%nat ->
  own (grp q) = true <-> forall q', In q' L -> q' <> q -> D (grp q') = true \/ (S (grp q') = true /\ (T (grp q') q' order < T (grp q) q order)%nat).
Proof.
  intros Hq Hc. rewrite own_grp by exact Hq. destruct (L_facts q Hq) as (Q & _). assert (Tl : (T (grp q) q order < length order)%nat) by (apply T_all; unfold quad in Q; lia).
  rewrite forallb_forall. split.
  - intros H q' Hq' N. specialize (H q' Hq'). apply orb_true_iff in H. destruct H as [H|H]; [apply Nat.eqb_eq in H; contradiction|]. rewrite F_grp in H by exact Hq'. apply orb_true_iff in H. destruct H as [H|H]; [left; exact H|right]. apply andb_true_iff in H. destruct H as (H1 & H2). apply Nat.ltb_lt in H2. split; [exact H1|lia].
  - intros H q' Hq'. destruct (Nat.eqb_spec q' q) as [|N]; [reflexivity|]. cbn [orb]. rewrite F_grp by exact Hq'. destruct (H q' Hq' N) as [->|(-> & Lt)]; [reflexivity|]. replace (T (grp q') q' order <? _)%nat with true; [now rewrite orb_true_r|]. symmetry. apply Nat.ltb_lt. lia.
Qed.
Lemma own_around g : own g = true -> exists q, In q L /\ g = grp q.
Proof. intros H. apply existsb_exists in H. destruct H as (q & Hq & K). exists q. split; [exact Hq|]. lia. Qed.

Section Events.
Variable es : list (Z * list rect).
Hypothesis He : events f padx pady D S order es.
Lemma event_facts g : In g (map fst es) -> inr g = true /\ S g = true /\ (4 <= cn g order)%nat.
Proof.
  intros Hin. apply in_map_iff in Hin. destruct Hin as ((h & rs) & E & Hin). cbn in E. subst h. destruct He as (_ & H). apply H in Hin. destruct Hin as (A & B & _). apply andb_true_iff in A. tauto.
Qed.
Lemma event_of g : inr g = true -> S g = true -> (4 <= cn g order)%nat -> In g (map fst es).
Proof.
  intros A B C. destruct (ready_ok g (stat g 1) (stat g 2) (stat g 3) (stat g 4) A) as (rs & E & _). apply in_map_iff. exists (g, rs). split; [reflexivity|]. apply (proj2 He). unfold active. rewrite A, B. auto.
Qed.
Lemma times_most : times es x y <= 1.
Proof.
  rewrite times_own by exact He. apply count_most; [apply He|]. intros g h Hg Hh Og Oh. destruct (own_around g Og) as (q & Hq & ->). destruct (own_around h Oh) as (r & Hr & ->). destruct (Nat.eq_dec q r) as [->|N]; [reflexivity|]. exfalso.
  destruct (event_facts _ Hg) as (Ig & Sg & Cg). destruct (event_facts _ Hh) as (Ih & Sh & Ch).
  rewrite own_iff in Og by assumption. rewrite own_iff in Oh by assumption.
  assert (NN : r <> q) by congruence. specialize (Og r Hr NN). specialize (Oh q Hq N).
  destruct Og as [Og|(_ & Og)]; [rewrite (Dis _ Ih Og) in Sh; discriminate|]. destruct Oh as [Oh|(_ & Oh)]; [rewrite (Dis _ Ig Oh) in Sg; discriminate|]. lia.
Qed.
Lemma times_pos : 1 <= times es x y -> exists g, inr g = true /\ S g = true /\ (4 <= cn g order)%nat /\ own g = true.
Proof.
  rewrite times_own by exact He. intros H. destruct (filter own (map fst es)) as [|g l] eqn:E; [cbn in H; lia|]. assert (K : In g (filter own (map fst es))) by (rewrite E; now left). apply filter_In in K. destruct K as (K1 & K2). exists g. destruct (event_facts g K1) as (A & B & C). auto.
Qed.
Lemma times_ready : 1 <= times es x y -> (forall g, near f padx pady x y g -> D g = true \/ (S g = true /\ (1 <= cn g order)%nat)) /\ exists g, near f padx pady x y g /\ S g = true.
Proof.
  intros H. destruct (times_pos H) as (g & A & B & C & O). destruct (own_around g O) as (q & Hq & ->). split.
  - intros h Hn. apply near_iff in Hn. destruct Hn as (r & Hr & ->). destruct (Nat.eq_dec r q) as [->|N]; [right; split; [exact B|lia]|]. rewrite own_iff in O by assumption. destruct (O r Hr N) as [K|(K1 & K2)]; [left; exact K|right]. split; [exact K1|].
    destruct (L_facts r Hr) as (R & _). destruct (L_facts q Hq) as (Q & _). assert (T (grp q) q order < length order)%nat by (apply T_all; unfold quad in Q; lia). assert (r <= cn (grp r) order)%nat by (apply T_all; unfold quad in R; lia). unfold quad in R. lia.
  - exists (grp q). split; [|exact B]. apply near_iff. eauto.
Qed.
Lemma times_one : (forall g, inr g = true -> S g = true -> (4 <= cn g order)%nat) -> (forall g, near f padx pady x y g -> D g = true \/ S g = true) -> (exists g, near f padx pady x y g /\ S g = true) -> times es x y = 1.
Proof.
  intros Com All (g & Hn & Sg). enough (1 <= times es x y) by (pose proof times_most; lia). apply near_iff in Hn. destruct Hn as (q0 & Hq0 & ->).
  destruct (arg_max (fun q => T (grp q) q order) (fun q => S (grp q)) L (ex_intro _ q0 (conj Hq0 Sg))) as (q & Hq & Sq & Max).
  destruct (grp_facts q Hq) as (I & _). rewrite times_own by exact He. apply (count_some own _ (grp q)); [apply event_of; auto|]. apply own_iff; [exact Hq|auto|]. intros r Hr N. destruct (All (grp r)) as [K|K]; [apply near_iff; eauto|left; exact K|right]. split; [exact K|]. specialize (Max r Hr K). cbv beta in Max.
  destruct (L_facts r Hr) as (R & _). destruct (L_facts q Hq) as (Q & _). assert (Tq : (T (grp q) q order < length order)%nat) by (apply T_all; [unfold quad in Q; lia|]; specialize (Com _ I Sq); unfold quad in Q; lia).
  destruct (Nat.eq_dec (T (grp q) q order) (T (grp r) r order)) as [E|NE]; [|lia]. apply T_inj in E; [|unfold quad in Q; lia|unfold quad in R; lia|exact Tq]. destruct E as (_ & E). congruence.
Qed.
End Events.
End Owner.
End Pixel.

Lemma steps_cn g order : steps_of g order = Z.of_nat (cn g order).
Proof.
  unfold steps_of, cn. induction order as [|h l IH]; [reflexivity|]. cbn [filter count_occ]. destruct (Z.eqb_spec g h) as [->|N]; destruct (Z.eq_dec h _) as [E|E]; try congruence; rewrite ?zlen_cons, IH; lia.
Qed.
Lemma cell_x x : 0 <= x < fd_xsize f -> exists i c, 0 <= i < kx /\ cellx i c x.
Proof. intros H. apply (cell_of gd _ _ kx padx Hgd Hx1 Hx2 Hx3 Hpx x H). Qed.
Lemma cell_y y : 0 <= y < fd_ysize f -> exists j c, 0 <= j < ky /\ celly j c y.
Proof. intros H. apply (cell_of gd _ _ ky pady Hgd Hy1 Hy2 Hy3 Hpy y H). Qed.

Lemma inr_iff g : inr g = true <-> 0 <= g < fd_num_groups f.
Proof. unfold BorderProofs.inr. lia. Qed.
Lemma ready_some g s1 s2 s3 s4 : inr g = true -> exists rs, ready_rects f padx pady g s1 s2 s3 s4 = GDone rs.
Proof. intros H. destruct (ready_ok g s1 s2 s3 s4 H) as (rs & E & _). eauto. Qed.

Lemma round_ok c D set order : represents f c D -> allowed f D (Paint set order) -> exists c' es, act f padx pady (Paint set order) c = Some (c', es) /\ events f padx pady D set order es /\
  (complete f set order -> represents f c' (done_after (Paint set order) D)).
Proof.
  intros R A. cbn [allowed] in A. assert (Dis : forall g, inr g = true -> D g = true -> set g = false) by (intros g Hg; apply A, inr_iff; exact Hg).
  destruct (run_inv f padx pady Hkx HN D set Dis ready_some c order R) as (s & es & E & (Sh & _ & Ev)). exists (cnt s), es. cbn [act]. rewrite E. split; [reflexivity|]. split; [exact Ev|].
  intros Com. unfold represents. apply (shows_ext _ _ _ _ Sh). intros x y q Hx Hy Q. unfold F. cbn [done_after]. destruct (inside (x - dx q) (y - dy q)) eqn:I; [|reflexivity]. cbn [negb orb].
  destruct (set (gid (x - dx q) (y - dy q))) eqn:Es; [|reflexivity]. cbn [andb]. rewrite orb_true_r. pose proof (gid_inr f Hkx HN _ _ I) as G. apply inr_iff in G. specialize (Com _ G Es). rewrite steps_cn in Com. replace (q <=? _)%nat with true; [now rewrite orb_true_r|]. symmetry. apply Nat.leb_le. unfold quad in Q. lia.
Qed.
Lemma history_ok l : forall c D, represents f c D -> valid f l D -> exists c', history f padx pady l c = Some c' /\ represents f c' (fold_left (fun d a => done_after a d) l D).
Proof.
  induction l as [|a l IH]; intros c D R V; cbn [history fold_left]; [eauto|]. cbn [valid] in V. destruct V as (A & C & V). destruct a as [set order|g].
  - destruct (round_ok c D set order R A) as (c1 & es & E & _ & R1). rewrite E. apply IH; auto.
  - cbn [allowed] in A. destruct (clear_done_ok f Hkx HN c D g R ltac:(apply inr_iff; exact A)) as (c1 & E & R1). cbn [act]. rewrite E. apply IH; auto.
Qed.
Lemma reached l : valid f l (fun _ => false) -> exists c0 c, init_counters f = Some c0 /\ history f padx pady l c0 = Some c /\ represents f c (done_by l).
Proof. intros V. destruct (init_ok f Hkx Hky) as (c0 & E & R). destruct (history_ok l c0 _ R V) as (c & H & R'). exists c0, c. auto. Qed.

Lemma events_frame D set order es : events f padx pady D set order es -> NoDup (map fst es) /\ forall g rs, In (g, rs) es -> 0 <= g < fd_num_groups f /\ set g = true /\ zlen rs <= 3 /\ Forall (in_frame f) rs.
Proof.
  intros (N & H). split; [exact N|]. intros g rs Hin. apply H in Hin. destruct Hin as (A & _ & R). apply andb_true_iff in A. destruct A as (A & B).
  edestruct (ready_ok g) as (rs' & E & F1 & F2 & _); [exact A|]. rewrite R in E. injection E as <-. split; [now apply inr_iff|]. auto.
Qed.

Section PixelRound.
Variables (D set : Z -> bool) (order : list Z) (es : list (Z * list rect)) (x y : Z).
Hypothesis A : allowed f D (Paint set order).
Hypothesis Ev : events f padx pady D set order es.
Hypothesis Hx : 0 <= x < fd_xsize f.
Hypothesis Hy : 0 <= y < fd_ysize f.
Lemma pixel_round : times es x y <= 1 /\
  (times es x y = 1 -> (forall g, near f padx pady x y g -> D g = true \/ (set g = true /\ 1 <= steps_of g order)) /\ exists g, near f padx pady x y g /\ set g = true) /\
  (complete f set order -> (forall g, near f padx pady x y g -> D g = true \/ set g = true) -> (exists g, near f padx pady x y g /\ set g = true) -> times es x y = 1).
Proof.
  destruct (cell_x x Hx) as (i & cx & Hi & Cx). destruct (cell_y y Hy) as (j & cy & Hj & Cy).
  assert (Dis : forall g, inr g = true -> D g = true -> set g = false) by (intros g Hg; apply A, inr_iff; exact Hg).
  split; [exact (times_most x y i j cx cy Hi Hj Cx Cy D set order Dis es Ev)|]. split.
  - intros E. destruct (times_ready x y i j cx cy Hi Hj Cx Cy D set order Dis es Ev ltac:(lia)) as (R1 & R2). split; [|exact R2]. intros g Hg. destruct (R1 g Hg) as [K|(K1 & K2)]; [left; exact K|right]. rewrite steps_cn. split; [exact K1|lia].
  - intros Com. apply (times_one x y i j cx cy Hi Hj Cx Cy D set order Dis es Ev). intros g Hg Sg. apply inr_iff in Hg. specialize (Com g Hg Sg). rewrite steps_cn in Com. lia.
Qed.
Lemma times_nonneg : 0 <= times es x y.
Proof. apply zlen_nonneg. Qed.
End PixelRound.
Lemma near_dec (p : Z -> bool) x y : 0 <= x < fd_xsize f -> 0 <= y < fd_ysize f -> (forall g, near f padx pady x y g -> p g = true) \/ exists g, near f padx pady x y g /\ p g = false.
Proof.
  intros Hx Hy. destruct (cell_x x Hx) as (i & cx & Hi & Cx). destruct (cell_y y Hy) as (j & cy & Hj & Cy). pose proof (near_iff x y i j cx cy Hi Hj Cx Cy) as NI.
  destruct (forallb (fun q => p (grp i j q)) (L cx cy)) eqn:E.
  - left. intros g Hg. apply NI in Hg. destruct Hg as (q & Hq & ->). rewrite forallb_forall in E. apply (E q Hq).
  - right. apply not_true_iff_false in E. rewrite forallb_forall in E. destruct (existsb (fun q => negb (p (grp i j q))) (L cx cy)) eqn:Ex.
    + apply existsb_exists in Ex. destruct Ex as (q & Hq & K). exists (grp i j q). split; [apply NI; eauto|]. now apply negb_true_iff.
    + exfalso. apply E. intros q Hq. apply not_false_iff_true. intros K. assert (existsb (fun q => negb (p (grp i j q))) (L cx cy) = true) by (apply existsb_exists; exists q; split; [exact Hq|now rewrite K]). congruence.
Qed.

Lemma rounds_once x y : 0 <= x < fd_xsize f -> 0 <= y < fd_ysize f -> forall l c D, represents f c D -> valid f l D -> Forall paints l ->
  (forall g, 0 <= g < fd_num_groups f -> fold_left (fun d a => done_after a d) l D g = true) ->
  exists es, delivered f padx pady l c = Some es /\ Forall (fun e => Forall (in_frame f) (snd e)) es /\
    ((forall g, near f padx pady x y g -> D g = true) -> times es x y = 0) /\
    ((exists g, near f padx pady x y g /\ D g = false) -> times es x y = 1).
Proof.
  intros Hx Hy. induction l as [|a l IH]; intros c D R V Pt All; cbn [delivered fold_left] in *.
  - exists []. split; [reflexivity|]. split; [constructor|]. split; [reflexivity|]. intros (g & Hn & K). rewrite All in K; [discriminate|]. apply Hn.
  - cbn [valid] in V. destruct V as (A & C & V). inversion Pt as [|a' l' P1 P2]; subst. destruct a as [set order|g]; [|destruct P1].
    destruct (round_ok c D set order R A) as (c1 & es & E & Ev & R1). specialize (R1 C). rewrite E.
    destruct (IH c1 _ R1 V P2 All) as (es' & E' & F' & H0 & H1). rewrite E'. exists (es ++ es'). split; [reflexivity|].
    destruct (pixel_round D set order es x y A Ev Hx Hy) as (Q1 & Q2 & Q3). pose proof (times_nonneg es x y) as Q0.
    assert (TA : times (es ++ es') x y = times es x y + times es' x y) by (unfold times; rewrite flat_map_app, filter_app, zlen_app; reflexivity). rewrite TA.
    split.
    { apply Forall_app. split; [|exact F']. apply Forall_forall. intros (g & rs) Hin. destruct (events_frame D set order es Ev) as (_ & K). apply (K g rs Hin). }
    cbn [done_after] in H0, H1. split.
    + intros Dn. rewrite H0 by (intros g Hg; rewrite (Dn g Hg); reflexivity). assert (times es x y = 1 \/ times es x y = 0) as [K|K] by lia; [|lia]. exfalso. destruct (Q2 K) as (_ & (g & Hg & Sg)). rewrite (A g) in Sg; [discriminate|apply Hg|auto].
    + intros (g & Hg & Dg). destruct (near_dec (fun g => D g || set g) x y Hx Hy) as [Al|(h & Hh & Ph)].
      * rewrite H0 by exact Al. rewrite Q3; [lia|exact C| |].
        -- intros h Hh. specialize (Al h Hh). apply orb_true_iff in Al. exact Al.
        -- exists g. split; [exact Hg|]. specialize (Al g Hg). cbv beta in Al. rewrite Dg in Al. exact Al.
      * rewrite H1 by eauto. assert (times es x y = 1 \/ times es x y = 0) as [K|K] by lia; [|lia]. exfalso. destruct (Q2 K) as (K1 & _). destruct (K1 h Hh) as [K2|(K2 & _)]; rewrite K2 in Ph; [|rewrite orb_true_r in Ph]; discriminate.
Qed.
End Top.

(* ---- for the frames that occur ---- *)
Section Frames.
Variables (xpx ypx gs hs vs ups : Z) (modular : bool) (padx pady : Z).
Hypothesis OK : params_ok xpx ypx gs hs vs ups.
Let f := fd_set xpx ypx gs hs vs modular ups.
Hypothesis PX : padding_ok f padx.
Hypothesis PY : padding_ok f pady.
Lemma frame_facts : (128 <= fd_group_dim f <= 1024 /\ (8 | fd_group_dim f)) /\
  ((fd_xsize_groups f - 1) * fd_group_dim f < fd_xsize f <= fd_xsize_groups f * fd_group_dim f /\ (fd_ysize_groups f - 1) * fd_group_dim f < fd_ysize f <= fd_ysize_groups f * fd_group_dim f) /\
  (1 <= fd_xsize f < 2 ^ 34 /\ 1 <= fd_ysize f < 2 ^ 34) /\ (fd_xsize f <= 8 * fd_xsize_blocks f /\ fd_ysize f <= 8 * fd_ysize_blocks f) /\
  fd_num_groups f = fd_xsize_groups f * fd_ysize_groups f /\ 0 < fd_xsize_groups f /\ 0 < fd_ysize_groups f.
Proof.
  destruct (set_facts xpx ypx gs hs vs ups modular OK) as (_ & _ & S1 & S2 & _ & _ & _ & _ & R1 & R2). fold f in S1, S2, R1, R2.
  destruct (group_dim_val xpx ypx gs hs vs ups modular OK) as [GD GP]. fold f in GD.
  destruct (groups_bounds (fd_xsize f) (fd_group_dim f) ltac:(lia) ltac:(lia)) as [A1 A2].
  destruct (groups_bounds (fd_ysize f) (fd_group_dim f) ltac:(lia) ltac:(lia)) as [B1 B2].
  change (div_ceil (fd_xsize f) (fd_group_dim f)) with (fd_xsize_groups f) in *.
  change (div_ceil (fd_ysize f) (fd_group_dim f)) with (fd_ysize_groups f) in *.
  destruct (groups_tile xpx ypx gs hs vs ups modular OK) as (_ & EN). fold f in EN. destruct R1 as (R1 & _). destruct R2 as (R2 & _).
  split; [split; [lia|exists (16 * 2 ^ gs); lia]|]. repeat split; lia.
Qed.
Lemma frame_round l set order : valid f l (fun _ => false) -> allowed f (done_by l) (Paint set order) ->
  exists c0 c c' es, init_counters f = Some c0 /\ history f padx pady l c0 = Some c /\ act f padx pady (Paint set order) c = Some (c', es) /\ NoDup (map fst es) /\
  (forall g rs, In (g, rs) es -> 0 <= g < fd_num_groups f /\ set g = true /\ zlen rs <= 3 /\ Forall (in_frame f) rs) /\
  forall x y, 0 <= x < fd_xsize f -> 0 <= y < fd_ysize f -> times es x y <= 1 /\
    (times es x y = 1 -> (forall g, near f padx pady x y g -> done_by l g = true \/ (set g = true /\ 1 <= steps_of g order)) /\ exists g, near f padx pady x y g /\ set g = true) /\
    (complete f set order -> (forall g, near f padx pady x y g -> done_by l g = true \/ set g = true) -> (exists g, near f padx pady x y g /\ set g = true) -> times es x y = 1).
Proof.
  intros V A. destruct frame_facts as (F1 & (F2 & F3) & (F4 & F5) & (F6 & F7) & F8 & F9 & F10).
  destruct (reached f padx pady) with (l := l) as (c0 & c & E0 & E1 & R); try assumption.
  destruct (round_ok f padx pady) with (c := c) (D := done_by l) (set := set) (order := order) as (c' & es & E2 & Ev & _); try assumption.
  exists c0, c, c', es. split; [exact E0|]. split; [exact E1|]. split; [exact E2|].
  destruct (events_frame f padx pady) with (D := done_by l) (set := set) (order := order) (es := es) as (N & Fr); try assumption. split; [exact N|]. split; [exact Fr|].
  intros x y Hx Hy. apply pixel_round; assumption.
Qed.
Lemma frame_once l : valid f l (fun _ => false) -> Forall paints l -> (forall g, 0 <= g < fd_num_groups f -> done_by l g = true) ->
  exists c0 es, init_counters f = Some c0 /\ delivered f padx pady l c0 = Some es /\ Forall (fun e => Forall (in_frame f) (snd e)) es /\
  forall x y, 0 <= x < fd_xsize f -> 0 <= y < fd_ysize f -> times es x y = 1.
Proof.
  intros V Pt All. destruct frame_facts as (F1 & (F2 & F3) & (F4 & F5) & (F6 & F7) & F8 & F9 & F10).
  destruct (init_ok f F9 F10) as (c0 & E0 & R0). exists c0.
  assert (K : forall x y, 0 <= x < fd_xsize f -> 0 <= y < fd_ysize f -> exists es, delivered f padx pady l c0 = Some es /\ Forall (fun e => Forall (in_frame f) (snd e)) es /\ times es x y = 1).
  { intros x y Hx Hy. edestruct (rounds_once f padx pady) with (x := x) (y := y) (l := l) (c := c0) (D := fun _ : Z => false) as (es & E & Fr & _ & One); try assumption. exists es. split; [exact E|]. split; [exact Fr|]. apply One.
    destruct (near_dec f padx pady) with (p := fun _ : Z => false) (x := x) (y := y) as [N|N]; try assumption. exfalso.
    destruct (groups_tile xpx ypx gs hs vs ups modular OK) as ((_ & Tl) & _). fold f in Tl. destruct (Tl x y Hx Hy) as (g & Hg & Cv & _). assert (false = true) as W; [|discriminate W]. apply (N g). split; [exact Hg|]. exists x, y. destruct PX, PY. split; [lia|]. split; [lia|exact Cv]. }
  destruct (K 0 0 ltac:(lia) ltac:(lia)) as (es & E & Fr & _). exists es. split; [exact E0|]. split; [exact E|]. split; [exact Fr|]. intros x y Hx Hy. destruct (K x y Hx Hy) as (es' & E' & _ & O). congruence.
Qed.
End Frames.
