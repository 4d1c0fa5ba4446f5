(** * C62: the transforms of a group tile it, whatever the file says *)
From Coq Require Import ZArith List Bool Lia.
From Verif Require Import AcMetaModel AcMetaSpec.
Import ListNotations.
Local Open Scope Z_scope.
Ltac Zify.zify_post_hook ::= idtac.

Lemma in_zrange n a : In a (zrange n) <-> 0 <= a < n.
Proof.
  unfold zrange. rewrite in_map_iff. split.
  - intros (k & <- & Hk). apply in_seq in Hk. lia.
  - intros H. exists (Z.to_nat a). split; [lia|]. apply in_seq. lia.
Qed.
Lemma in_raster w h a b : In (a, b) (raster w h) <-> 0 <= a < w /\ 0 <= b < h.
Proof.
  unfold raster. rewrite in_flat_map. split.
  - intros (y & Hy & H). apply in_map_iff in H. destruct H as (x & E & Hx). inversion E; subst.
    apply in_zrange in Hy. apply in_zrange in Hx. auto.
  - intros (Ha & Hb). exists b. split; [now apply in_zrange|]. apply in_map_iff. exists a.
    split; [reflexivity|now apply in_zrange].
Qed.

Lemma raw_cases t : raw_valid t = true -> In t (zrange 27).
Proof. unfold raw_valid. rewrite andb_true_iff, Z.ltb_lt, Z.leb_le. intros. apply in_zrange. lia. Qed.
Definition dims_ok (t : Z) : bool :=
  (cov_x t =? wide t) && (cov_y t =? high t) && (1 <=? wide t) && (1 <=? high t)
  && (Z.lor (Z.shiftl t 1) 1 =? 2 * t + 1) && (Z.lor (Z.shiftl t 1) 0 =? 2 * t).
Lemma dims_all : forallb dims_ok (zrange 27) = true.
Proof. vm_compute. reflexivity. Qed.
Lemma dims_spec t : raw_valid t = true ->
  0 <= t < 27 /\ cov_x t = wide t /\ cov_y t = high t /\ 1 <= wide t /\ 1 <= high t
  /\ Z.lor (Z.shiftl t 1) 1 = 2 * t + 1 /\ Z.lor (Z.shiftl t 1) 0 = 2 * t.
Proof.
  intros H. apply raw_cases in H. pose proof dims_all as D. rewrite forallb_forall in D.
  specialize (D t H). apply in_zrange in H. unfold dims_ok in D.
  rewrite !andb_true_iff, !Z.eqb_eq, !Z.leb_le in D. intuition.
Qed.

Definition cell_val (t ix iy : Z) : Z :=
  Z.lor (Z.shiftl t 1) (if Z.lor iy ix =? 0 then 1 else 0).
Lemma cell_val_small t ix iy : raw_valid t = true -> cell_val t ix iy <> invalid.
Proof.
  intros H. destruct (dims_spec t H) as (R & _ & _ & _ & _ & A & B). unfold cell_val, invalid.
  destruct (Z.lor iy ix =? 0); lia.
Qed.
Lemma cell_val_stored t x y ix iy : raw_valid t = true ->
  stored (x, y, t) (x + ix) (y + iy) (cell_val t ix iy).
Proof.
  intros H. destruct (dims_spec t H) as (R & _ & _ & _ & _ & A & B). unfold cell_val, stored.
  destruct (Z.lor iy ix =? 0) eqn:E.
  - apply Z.eqb_eq in E. apply Z.lor_eq_0_iff in E. left. lia.
  - right. split; [|lia]. intros (E1 & E2). assert (ix = 0) by lia. assert (iy = 0) by lia. subst.
    discriminate E.
Qed.

Lemma put_same g x y v : put g x y v x y = v.
Proof. unfold put. now rewrite !Z.eqb_refl. Qed.
Lemma put_other g x y v a b : ~ (a = x /\ b = y) -> put g x y v a b = g a b.
Proof.
  intros H. unfold put. destruct (a =? x) eqn:A; [|reflexivity]. destruct (b =? y) eqn:B; [|reflexivity].
  apply Z.eqb_eq in A. apply Z.eqb_eq in B. tauto.
Qed.

Lemma set_cells_spec x y t (Ht : raw_valid t = true) : forall l g g',
  set_cells g x y t l = Some g' ->
  (forall ix iy, In (ix, iy) l ->
     g (x + ix) (y + iy) = invalid /\ g' (x + ix) (y + iy) = cell_val t ix iy)
  /\ (forall a b, ~ In (a - x, b - y) l -> g' a b = g a b).
Proof.
  induction l as [|(jx, jy) l IH]; intros g g' H; cbn [set_cells] in H.
  - injection H as <-. split; [intros ? ? []|reflexivity].
  - destruct (g (x + jx) (y + jy) =? invalid) eqn:E; [|discriminate].
    apply Z.eqb_eq in E. fold (cell_val t jx jy) in H. apply IH in H. destruct H as (H1 & H2). clear IH.
    assert (N : ~ In (jx, jy) l).
    { intros I. apply H1 in I. destruct I as (I & _). rewrite put_same in I.
      now apply (cell_val_small t jx jy Ht). }
    split.
    + intros ix iy [I|I].
      * inversion I; subst. split; [exact E|]. rewrite H2; [apply put_same|].
        replace (x + ix - x) with ix by lia. replace (y + iy - y) with iy by lia. exact N.
      * destruct (H1 _ _ I) as (A & B). split; [|exact B]. rewrite put_other in A; [exact A|].
        intros (E1 & E2). apply N. replace jx with ix by lia. now replace jy with iy by lia.
    + intros a b I. cbn [In] in I. rewrite H2 by tauto. apply put_other. intros (E1 & E2). apply I.
      left. f_equal; lia.
Qed.

Lemma set_strategy_spec g x y t g' : raw_valid t = true -> set_strategy g x y t = Some g' ->
  (forall a b, covers (x, y, t) a b -> g a b = invalid /\ g' a b <> invalid /\ stored (x, y, t) a b (g' a b))
  /\ (forall a b, ~ covers (x, y, t) a b -> g' a b = g a b).
Proof.
  intros Ht H. destruct (dims_spec t Ht) as (R & Wx & Wy & _). unfold set_strategy in H.
  rewrite Wx, Wy in H. destruct (set_cells_spec x y t Ht _ _ _ H) as (H1 & H2). split.
  - intros a b (A & B). assert (I : In (a - x, b - y) (raster (wide t) (high t))) by (apply in_raster; lia).
    destruct (H1 _ _ I) as (E1 & E2). replace (x + (a - x)) with a in E1, E2 by lia.
    replace (y + (b - y)) with b in E1, E2 by lia. rewrite E2.
    split; [exact E1|]. split; [now apply cell_val_small|].
    pose proof (cell_val_stored t x y (a - x) (b - y) Ht) as S.
    replace (x + (a - x)) with a in S by lia. now replace (y + (b - y)) with b in S by lia.
  - intros a b N. apply H2. intros I. apply N. apply in_raster in I. unfold covers. lia.
Qed.

(** One transform is where it may be, is the k-th of the file, and its quantization is in range *)
Definition fits (m : meta) (qf : grid) (k : nat) (p : transform) : Prop :=
  let '(cx, cy, t) := p in
  0 <= t < 27 /\ t = m_row1 m (Z.of_nat k)
  /\ (m_444 m = false -> wide t = 1 /\ high t = 1)
  /\ (forall a b, covers p a b ->
        inside (m_x0 m) (m_y0 m) (m_xs m) (m_ys m) a b /\ a < m_xsize m /\ b < m_ysize m
        /\ same_group a b cx cy)
  /\ covers p cx cy
  /\ 1 <= qf cx cy <= 256
  /\ (let v := m_row2 m (Z.of_nat k) in 0 <= v < 256 -> qf cx cy = v + 1).

Record inv (m : meta) (acs0 qf0 epf0 : grid) (s : mst) (done : list (Z * Z)) (L : list transform) : Prop := {
  i_num : s_num s = Z.of_nat (length L);
  i_cnt : Z.of_nat (length L) <= Z.max 0 (m_count m);
  i_fit : forall k p, nth_error L k = Some p -> fits m (s_qf s) k p;
  i_cov : forall p a b, In p L -> covers p a b -> s_acs s a b <> invalid /\ stored p a b (s_acs s a b);
  i_one : forall j k p q a b, nth_error L j = Some p -> nth_error L k = Some q ->
          covers p a b -> covers q a b -> j = k;
  i_set : forall a b, s_acs s a b <> acs0 a b -> exists p, In p L /\ covers p a b;
  i_done : forall ix iy, In (ix, iy) done ->
           s_acs s (m_x0 m + ix) (m_y0 m + iy) <> invalid
           /\ s_epf s (m_x0 m + ix) (m_y0 m + iy) = m_sharp m ix iy /\ 0 <= m_sharp m ix iy <= 7;
  i_qf : forall a b, ~ inside (m_x0 m) (m_y0 m) (m_xs m) (m_ys m) a b -> s_qf s a b = qf0 a b;
  i_epf : forall a b, ~ inside (m_x0 m) (m_y0 m) (m_xs m) (m_ys m) a b -> s_epf s a b = epf0 a b }.

Lemma div_same x w a : 0 <= a - x < w -> x + w <= (x / 32 + 1) * 32 -> a / 32 = x / 32.
Proof.
  intros H G. pose proof (Z.div_mod x 32 ltac:(lia)). pose proof (Z.mod_pos_bound x 32 ltac:(lia)).
  symmetry. apply (Z.div_unique_pos a 32 (x / 32) (a - 32 * (x / 32))); lia.
Qed.

Lemma nth_error_snoc {A} (L : list A) p k q : nth_error (L ++ [p]) k = Some q ->
  nth_error L k = Some q \/ (k = length L /\ q = p).
Proof.
  intros H. destruct (Nat.lt_ge_cases k (length L)) as [C|C].
  - left. now rewrite nth_error_app1 in H.
  - right. rewrite nth_error_app2 in H by lia. destruct (k - length L)%nat as [|n] eqn:E.
    + cbn in H. injection H as <-. split; [lia|reflexivity].
    + cbn in H. now destruct n.
Qed.

Lemma step_inv m acs0 qf0 epf0 s done L ix iy s' :
  0 <= ix < m_xs m -> 0 <= iy < m_ys m ->
  inv m acs0 qf0 epf0 s done L -> block_step m s (ix, iy) = Some s' ->
  exists L', inv m acs0 qf0 epf0 s' (done ++ [(ix, iy)]) L'.
Proof.
  intros Hx Hy I H. unfold block_step in H.
  set (x := m_x0 m + ix) in *. set (y := m_y0 m + iy) in *.
  destruct ((m_sharp m ix iy <? 0) || (8 <=? m_sharp m ix iy)) eqn:Es; [discriminate|].
  apply orb_false_iff in Es. destruct Es as (S1 & S2). apply Z.ltb_ge in S1. apply Z.leb_gt in S2.
  assert (Epf : forall jx jy, In (jx, jy) (done ++ [(ix, iy)]) ->
     put (s_epf s) x y (m_sharp m ix iy) (m_x0 m + jx) (m_y0 m + jy) = m_sharp m jx jy
     /\ 0 <= m_sharp m jx jy <= 7).
  { intros jx jy J. destruct (Z.eq_dec jx ix) as [->|Nx]; [destruct (Z.eq_dec jy iy) as [->|Ny]|].
    - unfold x, y. rewrite put_same. split; [reflexivity|lia].
    - rewrite put_other by (unfold x, y; lia). apply in_app_iff in J. destruct J as [J|[J|[]]].
      + apply (i_done _ _ _ _ _ _ _ I) in J. tauto.
      + congruence.
    - rewrite put_other by (unfold x, y; lia). apply in_app_iff in J. destruct J as [J|[J|[]]].
      + apply (i_done _ _ _ _ _ _ _ I) in J. tauto.
      + congruence. }
  assert (Xy : inside (m_x0 m) (m_y0 m) (m_xs m) (m_ys m) x y) by (unfold inside, x, y; lia).
  destruct (s_acs s x y =? invalid) eqn:Ev; cbn [negb] in H.
  2: { apply Z.eqb_neq in Ev. injection H as <-. exists L. destruct I. constructor; cbn; auto.
       - intros jx jy J. specialize (Epf jx jy J). apply in_app_iff in J. destruct J as [J|[J|[]]].
         + apply i_done0 in J. tauto.
         + inversion J; subst. tauto.
       - intros a b N. rewrite put_other; [now apply i_epf0|]. intros (-> & ->). tauto. }
  apply Z.eqb_eq in Ev.
  destruct (m_count m <=? s_num s) eqn:Ec; [discriminate|]. apply Z.leb_gt in Ec.
  remember (m_row1 m (s_num s)) as t eqn:Et.
  destruct (raw_valid t) eqn:Er; cbn [negb] in H; [|discriminate].
  destruct (dims_spec t Er) as (R & Wx & Wy & W1 & H1 & _). rewrite Wx, Wy in H.
  destruct (((1 <? wide t) || (1 <? high t)) && negb (m_444 m)) eqn:E4; [discriminate|].
  unfold group_dim_in_blocks in H.
  match type of H with (if ?c then _ else _) = _ => destruct c eqn:Ex end; [discriminate|].
  match type of H with (if ?c then _ else _) = _ => destruct c eqn:Ey end; [discriminate|].
  apply orb_false_iff in Ex. apply orb_false_iff in Ey. rewrite !Z.ltb_ge in Ex, Ey.
  destruct (set_strategy (s_acs s) x y t) as [g|] eqn:Eg; [|discriminate].
  apply (f_equal (fun o => match o with Some z => z | None => s' end)) in H. cbn beta iota in H. subst s'.
  destruct (set_strategy_spec _ _ _ _ _ Er Eg) as (G1 & G2).
  set (v := 1 + Z.max 0 (Z.min (256 - 1) (m_row2 m (s_num s)))).
  destruct I as [In1 In2 If Ic Io Is Id Iq Ie].
  assert (Cself : covers (x, y, t) x y) by (unfold covers; lia).
  assert (Old : forall q a b, In q L -> covers q a b -> ~ covers (x, y, t) a b).
  { intros q a b Q C N. apply (Ic q a b Q) in C. apply G1 in N. tauto. }
  exists (L ++ [(x, y, t)]). constructor; cbn [s_num s_acs s_qf s_epf].
  - rewrite app_length. cbn. lia.
  - rewrite app_length. cbn. lia.
  - intros k p K. apply nth_error_snoc in K. destruct K as [K|(-> & ->)].
    + pose proof (If k p K) as F. apply nth_error_In in K. destruct p as ((cx, cy), u). unfold fits in *.
      destruct F as (F1 & F2 & F3 & F4 & F5 & F6).
      rewrite put_other; [tauto|]. intros (-> & ->). exact (Old _ _ _ K F5 Cself).
    + unfold fits. rewrite put_same, <- In1, <- Et.
      split; [exact R|]. split; [reflexivity|]. split.
      { intros Hf. rewrite Hf in E4. cbn in E4. rewrite andb_true_r in E4. apply orb_false_iff in E4.
        rewrite !Z.ltb_ge in E4. lia. }
      split.
      { intros a b (A & B). unfold inside, same_group.
        assert (a / 32 = x / 32) by (apply (div_same x (wide t)); lia).
        assert (b / 32 = y / 32) by (apply (div_same y (high t)); lia).
        unfold x, y in *. lia. }
      split; [exact Cself|]. unfold v. clear. cbv zeta. split; [lia|]. intros ?. lia.
  - intros p a b P C. apply in_app_iff in P. destruct P as [P|[<-|[]]].
    + rewrite G2 by (now apply (Old p)). now apply Ic.
    + now apply G1 in C.
  - intros j k p q a b J K C D. apply nth_error_snoc in J. apply nth_error_snoc in K.
    destruct J as [J|(-> & ->)]; destruct K as [K|(-> & ->)].
    + now apply (Io j k p q a b).
    + apply nth_error_In in J. exfalso. exact (Old _ _ _ J C D).
    + apply nth_error_In in K. exfalso. exact (Old _ _ _ K D C).
    + reflexivity.
  - intros a b N. assert (Dec : covers (x, y, t) a b \/ ~ covers (x, y, t) a b).
    { unfold covers. clear. lia. }
    destruct Dec as [C|C].
    + exists (x, y, t). split; [apply in_app_iff; right; now left|exact C].
    + rewrite G2 in N by exact C. destruct (Is a b N) as (p & P & Q). exists p.
      split; [apply in_app_iff; now left|exact Q].
  - intros jx jy J. specialize (Epf jx jy J). split; [|exact Epf]. apply in_app_iff in J.
    destruct J as [J|[J|[]]].
    + apply Id in J. destruct J as (J & _).
      intros N. assert (C : ~ covers (x, y, t) (m_x0 m + jx) (m_y0 m + jy)).
      { intros C. apply G1 in C. tauto. }
      rewrite G2 in N by exact C. tauto.
    + inversion J; subst jx jy. apply G1. exact Cself.
  - intros a b N. rewrite put_other; [now apply Iq|]. intros (-> & ->). tauto.
  - intros a b N. rewrite put_other; [now apply Ie|]. intros (-> & ->). tauto.
Qed.

Lemma steps_inv m acs0 qf0 epf0 : forall l s done L s',
  (forall ix iy, In (ix, iy) l -> 0 <= ix < m_xs m /\ 0 <= iy < m_ys m) ->
  inv m acs0 qf0 epf0 s done L -> block_steps m s l = Some s' ->
  exists L', inv m acs0 qf0 epf0 s' (done ++ l) L'.
Proof.
  induction l as [|(ix, iy) l IH]; intros s done L s' B I H; cbn [block_steps] in H.
  - injection H as <-. exists L. now rewrite app_nil_r.
  - destruct (block_step m s (ix, iy)) as [s1|] eqn:E; [|discriminate].
    destruct (B ix iy (or_introl eq_refl)) as (Bx & By).
    destruct (step_inv _ _ _ _ _ _ _ _ _ _ Bx By I E) as (L1 & I1).
    replace (done ++ (ix, iy) :: l) with ((done ++ [(ix, iy)]) ++ l) by (now rewrite <- app_assoc).
    apply (IH s1 _ L1); auto. intros jx jy J. apply B. now right.
Qed.

(** C62: if the metadata of a group whose blocks are not set yet is accepted, then there is a list
    of transforms, the first ones of the file in order, such that each lies in the group, in the
    image and in one 256x256 group, and every block of the rectangle belongs to exactly one of
    them and has its value stored.  Nothing outside of the rectangle changes. *)
Theorem C62_transforms_tile : forall m acs0 qf0 epf0 s,
  (forall a b, inside (m_x0 m) (m_y0 m) (m_xs m) (m_ys m) a b -> acs0 a b = invalid) ->
  decode_blocks m acs0 qf0 epf0 = Some s ->
  exists L : list transform,
    Z.of_nat (length L) <= Z.max 0 (m_count m)
    /\ (forall k p, nth_error L k = Some p -> fits m (s_qf s) k p)
    /\ (forall a b, inside (m_x0 m) (m_y0 m) (m_xs m) (m_ys m) a b ->
          exists k p, nth_error L k = Some p /\ covers p a b /\ stored p a b (s_acs s a b)
            /\ (forall j q, nth_error L j = Some q -> covers q a b -> j = k))
    /\ (forall a b, inside (m_x0 m) (m_y0 m) (m_xs m) (m_ys m) a b ->
          s_epf s a b = m_sharp m (a - m_x0 m) (b - m_y0 m) /\ 0 <= s_epf s a b <= 7)
    /\ (forall a b, ~ inside (m_x0 m) (m_y0 m) (m_xs m) (m_ys m) a b ->
          s_acs s a b = acs0 a b /\ s_qf s a b = qf0 a b /\ s_epf s a b = epf0 a b).
Proof.
  intros m acs0 qf0 epf0 s Z0 H. unfold decode_blocks in H.
  destruct (steps_inv m acs0 qf0 epf0 (raster (m_xs m) (m_ys m)) (mkMst acs0 qf0 epf0 0) [] [] s) as (L & I);
    [intros ix iy J; now apply in_raster|..|exact H|].
  { constructor; cbn; try tauto; try lia.
    - intros k p K. now destruct k.
    - intros j k p q a b J. now destruct j. }
  cbn [app] in I. destruct I as [In1 In2 If Ic Io Is Id Iq Ie].
  assert (D : forall a b, inside (m_x0 m) (m_y0 m) (m_xs m) (m_ys m) a b ->
     s_acs s a b <> invalid /\ s_epf s a b = m_sharp m (a - m_x0 m) (b - m_y0 m)
     /\ 0 <= m_sharp m (a - m_x0 m) (b - m_y0 m) <= 7).
  { intros a b C. assert (J : In (a - m_x0 m, b - m_y0 m) (raster (m_xs m) (m_ys m))).
    { apply in_raster. unfold inside in C. lia. }
    apply Id in J. replace (m_x0 m + (a - m_x0 m)) with a in J by lia.
    now replace (m_y0 m + (b - m_y0 m)) with b in J by lia. }
  exists L. split; [exact In2|]. split; [exact If|]. split; [|split].
  - intros a b C. destruct (D a b C) as (N & _). destruct (Is a b) as (p & P & Q).
    { rewrite (Z0 a b C). exact N. }
    destruct (In_nth_error _ _ P) as (k & K). exists k, p. split; [exact K|]. split; [exact Q|].
    split; [now apply Ic|]. intros j q J Cq. exact (Io j k q p a b J K Cq Q).
  - intros a b C. destruct (D a b C) as (_ & E & B). rewrite E. auto.
  - intros a b N. split; [|split; [now apply Iq|now apply Ie]].
    destruct (Z.eq_dec (s_acs s a b) (acs0 a b)) as [E|E]; [exact E|].
    destruct (Is a b E) as (p & P & Q). destruct (In_nth_error _ _ P) as (k & K).
    apply If in K. destruct p as ((cx, cy), t). destruct K as (_ & _ & _ & F & _).
    destruct (F a b Q) as (X & _). tauto.
Qed.
Print Assumptions C62_transforms_tile.

(** A group of 4x2 blocks at (64, 32): a 16x16 transform, a column of two blocks, two single ones *)
Definition demo_meta : meta :=
  mkMeta 64 32 4 2 68 34 true 4
    (fun k => nth (Z.to_nat k) [4; 6; 0; 1] 0) (fun k => nth (Z.to_nat k) [3; 999; -5; 255] 0)
    (fun ix iy => ix + iy).
Example C62_transforms_tile_case :
  option_map (fun s => (map (fun c => s_acs s (64 + fst c) (32 + snd c)) (raster 4 2),
                        (s_qf s 64 32, s_qf s 66 32, s_qf s 67 32, s_qf s 67 33), s_num s))
    (decode_blocks demo_meta (fun _ _ => invalid) (fun _ _ => 0) (fun _ _ => 0))
  = Some ([9; 8; 13; 1; 8; 8; 12; 3], (4, 256, 1, 256), 4).
Proof. vm_compute. reflexivity. Qed.

(** ** Every tiling listed row by row is accepted *)
From Coq Require Import Sorting.Sorted.
Definition lex (c d : Z * Z) : Prop := snd c < snd d \/ (snd c = snd d /\ fst c < fst d).
Lemma ssorted_app {A} (R : A -> A -> Prop) (l1 l2 : list A) :
  StronglySorted R l1 -> StronglySorted R l2 -> (forall a b, In a l1 -> In b l2 -> R a b) ->
  StronglySorted R (l1 ++ l2).
Proof.
  induction l1 as [|a l1 IH]; intros S1 S2 H; [exact S2|]. inversion S1; subst. cbn. constructor.
  - apply IH; auto. intros x y X Y. apply H; [now right|exact Y].
  - apply Forall_app. split; [assumption|]. apply Forall_forall. intros y Y. apply H; [now left|exact Y].
Qed.
Lemma zrange_sorted n : StronglySorted Z.lt (zrange n).
Proof.
  unfold zrange. generalize 0%nat as s. induction (Z.to_nat n) as [|k IH]; intros s; cbn; constructor; auto.
  apply Forall_forall. intros y Y. apply in_map_iff in Y. destruct Y as (j & <- & J). apply in_seq in J. lia.
Qed.
Lemma row_sorted y : forall l, StronglySorted Z.lt l -> StronglySorted lex (map (fun x => (x, y)) l).
Proof.
  induction 1; cbn; constructor; auto. rewrite Forall_forall in *. intros c C. apply in_map_iff in C.
  destruct C as (x & <- & X). right. cbn. split; [reflexivity|now apply H0].
Qed.
Lemma raster_sorted w h : StronglySorted lex (raster w h).
Proof.
  unfold raster. pose proof (zrange_sorted h) as S. induction S as [|y l S IH F]; cbn; [constructor|].
  apply ssorted_app; [apply row_sorted, zrange_sorted|exact IH|].
  intros c d C D. apply in_map_iff in C. destruct C as (x & <- & _).
  apply in_flat_map in D. destruct D as (y' & Y & D). apply in_map_iff in D. destruct D as (x' & <- & _).
  left. cbn. rewrite Forall_forall in F. now apply F.
Qed.
Lemma ssorted_mid {A} (R : A -> A -> Prop) (l1 l2 : list A) c :
  StronglySorted R (l1 ++ c :: l2) -> forall d, In d l2 -> R c d.
Proof.
  induction l1 as [|a l1 IH]; cbn; intros S; inversion S; subst; auto.
  rewrite Forall_forall in *. auto.
Qed.
Lemma raster_before w h l1 c l2 d : raster w h = l1 ++ c :: l2 -> In d (raster w h) -> lex d c -> In d l1.
Proof.
  intros E I X. pose proof (raster_sorted w h) as S. rewrite E in S, I.
  apply in_app_iff in I. destruct I as [I|[I|I]]; [exact I|..].
  - subst. unfold lex in X. lia.
  - pose proof (ssorted_mid _ _ _ _ S d I). unfold lex in *. lia.
Qed.

Lemma set_cells_some x y t : forall l g, StronglySorted lex l ->
  (forall ix iy, In (ix, iy) l -> g (x + ix) (y + iy) = invalid) -> exists g', set_cells g x y t l = Some g'.
Proof.
  induction l as [|(jx, jy) l IH]; intros g S H; [now exists g|].
  cbn [set_cells]. rewrite (H jx jy (or_introl eq_refl)), Z.eqb_refl. inversion S; subst. apply IH; [assumption|].
  intros ix iy I. rewrite put_other; [apply H; now right|]. rewrite Forall_forall in *.
  specialize (H3 _ I). unfold lex in H3. cbn in H3. lia.
Qed.
Lemma set_strategy_some g x y t : raw_valid t = true ->
  (forall a b, covers (x, y, t) a b -> g a b = invalid) -> exists g', set_strategy g x y t = Some g'.
Proof.
  intros R H. destruct (dims_spec t R) as (_ & Wx & Wy & _). unfold set_strategy. rewrite Wx, Wy.
  apply set_cells_some; [apply raster_sorted|]. intros ix iy I. apply in_raster in I. apply H. unfold covers. lia.
Qed.

(** A transform that the format allows as the k-th of this group *)
Definition allowed (m : meta) (k : nat) (p : transform) : Prop :=
  let '(cx, cy, t) := p in
  0 <= t < 27 /\ m_row1 m (Z.of_nat k) = t /\ (m_444 m = false -> wide t = 1 /\ high t = 1)
  /\ (forall a b, covers p a b ->
        inside (m_x0 m) (m_y0 m) (m_xs m) (m_ys m) a b /\ a < m_xsize m /\ b < m_ysize m
        /\ same_group a b cx cy).
(** The first block of p comes before the first block of q, row by row *)
Definition comes_before (p q : transform) : Prop :=
  let '(cx, cy, _) := p in let '(dx, dy, _) := q in cy < dy \/ (cy = dy /\ cx < dx).

Section Accept.
  Context (m : meta) (L : list transform).
  Context (Hsharp : forall ix iy, 0 <= ix < m_xs m -> 0 <= iy < m_ys m -> 0 <= m_sharp m ix iy <= 7).
  Context (Hall : forall k p, nth_error L k = Some p -> allowed m k p).
  Context (Hcov : forall a b, inside (m_x0 m) (m_y0 m) (m_xs m) (m_ys m) a b -> exists p, In p L /\ covers p a b).
  Context (Hone : forall j k p q a b, nth_error L j = Some p -> nth_error L k = Some q ->
             covers p a b -> covers q a b -> j = k).
  Context (Hord : forall j k p q, nth_error L j = Some p -> nth_error L k = Some q -> (j < k)%nat -> comes_before p q).
  Context (Hcnt : Z.of_nat (length L) <= m_count m).

  Record acc (s : mst) (done : list (Z * Z)) (n : nat) : Prop := {
    a_num : s_num s = Z.of_nat n;
    a_cov : forall k p a b, (k < n)%nat -> nth_error L k = Some p -> covers p a b ->
            s_acs s a b <> invalid /\ stored p a b (s_acs s a b);
    a_set : forall a b, inside (m_x0 m) (m_y0 m) (m_xs m) (m_ys m) a b -> s_acs s a b <> invalid ->
            exists k p, (k < n)%nat /\ nth_error L k = Some p /\ covers p a b;
    a_done : forall ix iy, In (ix, iy) done -> s_acs s (m_x0 m + ix) (m_y0 m + iy) <> invalid }.

  Lemma raw_of t : 0 <= t < 27 -> raw_valid t = true.
  Proof. intros H. unfold raw_valid. rewrite andb_true_iff, Z.ltb_lt, Z.leb_le. lia. Qed.
  Lemma corner k cx cy t : nth_error L k = Some (cx, cy, t) -> covers (cx, cy, t) cx cy.
  Proof.
    intros K. apply Hall in K. destruct K as (R & _). destruct (dims_spec t (raw_of t R)) as (_ & _ & _ & W & H & _).
    unfold covers. lia.
  Qed.

  Lemma accept_step s done rest n ix iy :
    raster (m_xs m) (m_ys m) = done ++ (ix, iy) :: rest -> acc s done n ->
    exists s' n', block_step m s (ix, iy) = Some s' /\ acc s' (done ++ [(ix, iy)]) n'.
  Proof.
    intros E A. assert (B : 0 <= ix < m_xs m /\ 0 <= iy < m_ys m).
    { apply in_raster. rewrite E. apply in_app_iff. right. now left. }
    unfold block_step. set (x := m_x0 m + ix). set (y := m_y0 m + iy).
    destruct (Hsharp ix iy (proj1 B) (proj2 B)) as (S1 & S2).
    rewrite (proj2 (Z.ltb_ge _ _)) by lia. rewrite (proj2 (Z.leb_gt _ _)) by lia. cbn [orb].
    destruct A as [An Ac As Ad].
    destruct (s_acs s x y =? invalid) eqn:Ev; cbn [negb].
    2: { apply Z.eqb_neq in Ev. eexists. exists n. split; [reflexivity|]. constructor; cbn; auto.
         intros jx jy J. apply in_app_iff in J. destruct J as [J|[J|[]]]; [now apply Ad|].
         inversion J; subst. exact Ev. }
    apply Z.eqb_eq in Ev.
    assert (Xy : inside (m_x0 m) (m_y0 m) (m_xs m) (m_ys m) x y) by (unfold inside, x, y; lia).
    (* a transform whose first block comes before (x, y) is among the first n *)
    assert (Early : forall k cx cy t, nth_error L k = Some (cx, cy, t) ->
              lex (cx, cy) (x, y) -> (k < n)%nat).
    { intros k cx cy t K X. pose proof (corner _ _ _ _ K) as C.
      assert (Ci : inside (m_x0 m) (m_y0 m) (m_xs m) (m_ys m) cx cy).
      { pose proof (Hall _ _ K) as (_ & _ & _ & F). now apply F. }
      assert (D : In (cx - m_x0 m, cy - m_y0 m) done).
      { apply (raster_before _ _ _ _ _ _ E); [apply in_raster; unfold inside in Ci; lia|].
        unfold lex, x, y in *. cbn in *. lia. }
      apply Ad in D. replace (m_x0 m + (cx - m_x0 m)) with cx in D by lia.
      replace (m_y0 m + (cy - m_y0 m)) with cy in D by lia.
      destruct (As cx cy Ci D) as (j & q & J & Q & Cq). now rewrite (Hone k j _ _ cx cy K Q C Cq). }
    destruct (Hcov x y Xy) as (((cx, cy), t) & P & C). destruct (In_nth_error _ _ P) as (k & K).
    assert (Kn : (n <= k)%nat).
    { destruct (Nat.lt_ge_cases k n) as [G|G]; [|exact G]. exfalso. now apply (Ac k _ x y G K C). }
    assert (Exy : cx = x /\ cy = y).
    { assert (N : ~ lex (cx, cy) (x, y)).
      { intros X. apply (Early k cx cy t K) in X. lia. }
      unfold lex in N. cbn in N. destruct C as (C1 & C2). lia. }
    destruct Exy as (-> & ->).
    assert (Ekn : k = n).
    { destruct (Nat.eq_dec k n) as [G|G]; [exact G|]. exfalso.
      destruct (nth_error L n) as [((dx, dy), u)|] eqn:N.
      - pose proof (Hord n k _ _ N K ltac:(lia)) as O. unfold comes_before in O.
        assert (X : (n < n)%nat) by (apply (Early n dx dy u N); unfold lex; cbn; lia). lia.
      - apply nth_error_None in N. assert (k < length L)%nat by (apply nth_error_Some; congruence). lia. }
    subst k. assert (Len : (n < length L)%nat) by (apply nth_error_Some; congruence).
    rewrite (proj2 (Z.leb_gt _ _)) by lia.
    pose proof (Hall _ _ K) as (R & Rt & R4 & F). rewrite An, Rt.
    pose proof (raw_of t R) as Rv. rewrite Rv. cbn [negb].
    destruct (dims_spec t Rv) as (_ & Wx & Wy & W1 & H1 & _). rewrite Wx, Wy.
    assert (E4 : ((1 <? wide t) || (1 <? high t)) && negb (m_444 m) = false).
    { destruct (m_444 m); [apply andb_false_r|]. destruct (R4 eq_refl) as (-> & ->). reflexivity. }
    rewrite E4.
    destruct (F (x + wide t - 1) (y + high t - 1)) as (I1 & I2 & I3 & I4 & I5); [unfold covers; lia|].
    unfold group_dim_in_blocks.
    pose proof (Z.div_mod (x + wide t - 1) 32 ltac:(lia)) as D1.
    pose proof (Z.mod_pos_bound (x + wide t - 1) 32 ltac:(lia)) as D2.
    pose proof (Z.div_mod (y + high t - 1) 32 ltac:(lia)) as D3.
    pose proof (Z.mod_pos_bound (y + high t - 1) 32 ltac:(lia)) as D4.
    rewrite I4 in D1. rewrite I5 in D3. unfold inside in I1.
    rewrite !(proj2 (Z.ltb_ge _ _)) by lia. cbn [orb].
    assert (Free : forall a b, covers (x, y, t) a b -> s_acs s a b = invalid).
    { intros a b Cab. destruct (Z.eq_dec (s_acs s a b) invalid) as [G|G]; [exact G|]. exfalso.
      destruct (F a b Cab) as (Iab & _). destruct (As a b Iab G) as (j & q & J & Q & Cq).
      pose proof (Hone j n _ _ a b Q K Cq Cab). lia. }
    destruct (set_strategy_some _ x y t Rv Free) as (g & G). rewrite G.
    destruct (set_strategy_spec _ _ _ _ _ Rv G) as (G1 & G2).
    eexists. exists (S n). split; [reflexivity|]. constructor; cbn [s_num s_acs].
    - lia.
    - intros j p a b J Q Cp. destruct (Nat.eq_dec j n) as [->|Nj].
      + rewrite K in Q. injection Q as <-. now apply G1 in Cp.
      + rewrite G2; [apply (Ac j); auto; lia|]. intros N. pose proof (Hone j n _ _ a b Q K Cp N). lia.
    - intros a b Iab Na. assert (Dec : covers (x, y, t) a b \/ ~ covers (x, y, t) a b).
      { unfold covers. clear. lia. }
      destruct Dec as [D|D]; [exists n; eauto|]. rewrite G2 in Na by exact D.
      destruct (As a b Iab Na) as (j & q & J & Q & Cq). exists j, q. auto.
    - intros jx jy J. apply in_app_iff in J. destruct J as [J|[J|[]]].
      + apply Ad in J. rewrite G2; [exact J|]. intros N. apply Free in N. tauto.
      + inversion J; subst jx jy. apply G1. now apply (corner n).
  Qed.

  Lemma accept_steps : forall rest s done n, raster (m_xs m) (m_ys m) = done ++ rest -> acc s done n ->
    exists s' n', block_steps m s rest = Some s' /\ acc s' (raster (m_xs m) (m_ys m)) n'.
  Proof.
    induction rest as [|(ix, iy) rest IH]; intros s done n E A; cbn [block_steps].
    - exists s, n. rewrite app_nil_r in E. rewrite E. auto.
    - destruct (accept_step _ _ _ _ _ _ E A) as (s1 & n1 & -> & A1).
      apply (IH s1 (done ++ [(ix, iy)]) n1); [|exact A1]. now rewrite <- app_assoc.
  Qed.

  Lemma accept_all : forall acs0 qf0 epf0,
    (forall a b, inside (m_x0 m) (m_y0 m) (m_xs m) (m_ys m) a b -> acs0 a b = invalid) ->
    exists s, decode_blocks m acs0 qf0 epf0 = Some s
      /\ forall p a b, In p L -> covers p a b -> stored p a b (s_acs s a b).
  Proof.
    intros acs0 qf0 epf0 Z0. unfold decode_blocks.
    destruct (accept_steps (raster (m_xs m) (m_ys m)) (mkMst acs0 qf0 epf0 0) [] 0%nat eq_refl) as (s & n & E & A).
    { constructor; cbn; try tauto; [intros; lia|]. intros a b I N. rewrite (Z0 a b I) in N. tauto. }
    exists s. split; [exact E|]. intros p a b P C. destruct (In_nth_error _ _ P) as (k & K).
    assert (I : inside (m_x0 m) (m_y0 m) (m_xs m) (m_ys m) a b).
    { pose proof (Hall _ _ K) as F. destruct p as ((cx, cy), t). destruct F as (_ & _ & _ & F). now apply F. }
    assert (D : s_acs s a b <> invalid).
    { pose proof (a_done _ _ _ A (a - m_x0 m) (b - m_y0 m)) as D.
      replace (m_x0 m + (a - m_x0 m)) with a in D by lia. replace (m_y0 m + (b - m_y0 m)) with b in D by lia.
      apply D. apply in_raster. unfold inside in I. lia. }
    destruct (a_set _ _ _ A a b I D) as (j & q & J & Q & Cq).
    rewrite (Hone k j _ _ a b K Q C Cq) in K. now apply (a_cov _ _ _ A j p a b).
  Qed.
End Accept.

(** C62: every list of allowed transforms that tiles the group, in the order of their first
    blocks, is accepted, and each block gets the transform it belongs to. *)
Theorem C62_tilings_accepted : forall m (L : list transform) acs0 qf0 epf0,
  (forall ix iy, 0 <= ix < m_xs m -> 0 <= iy < m_ys m -> 0 <= m_sharp m ix iy <= 7) ->
  (forall k p, nth_error L k = Some p -> allowed m k p) ->
  (forall a b, inside (m_x0 m) (m_y0 m) (m_xs m) (m_ys m) a b -> exists p, In p L /\ covers p a b) ->
  (forall j k p q a b, nth_error L j = Some p -> nth_error L k = Some q ->
     covers p a b -> covers q a b -> j = k) ->
  (forall j k p q, nth_error L j = Some p -> nth_error L k = Some q -> (j < k)%nat -> comes_before p q) ->
  Z.of_nat (length L) <= m_count m ->
  (forall a b, inside (m_x0 m) (m_y0 m) (m_xs m) (m_ys m) a b -> acs0 a b = invalid) ->
  exists s, decode_blocks m acs0 qf0 epf0 = Some s
    /\ forall p a b, In p L -> covers p a b -> stored p a b (s_acs s a b).
Proof. intros m L acs0 qf0 epf0 H1 H2 H3 H4 H5 H6. now apply accept_all. Qed.
Print Assumptions C62_tilings_accepted.

(** The transforms of [demo_meta] meet the hypotheses *)
Definition demo_list : list transform := [(64, 32, 4); (66, 32, 6); (67, 32, 0); (67, 33, 1)].
Ltac four k K := destruct k as [|[|[|[|k]]]]; cbn in K; [injection K as <-..|now destruct k].
Lemma demo_sizes : (wide 4 = 2 /\ high 4 = 2 /\ wide 6 = 1 /\ high 6 = 2)
  /\ (wide 0 = 1 /\ high 0 = 1 /\ wide 1 = 1 /\ high 1 = 1).
Proof. vm_compute. tauto. Qed.
Example C62_tilings_accepted_case :
  (forall k p, nth_error demo_list k = Some p -> allowed demo_meta k p)
  /\ (forall a b, inside 64 32 4 2 a b -> exists p, In p demo_list /\ covers p a b)
  /\ (forall j k p q a b, nth_error demo_list j = Some p -> nth_error demo_list k = Some q ->
       covers p a b -> covers q a b -> j = k)
  /\ (forall j k p q, nth_error demo_list j = Some p -> nth_error demo_list k = Some q ->
       (j < k)%nat -> comes_before p q).
Proof.
  destruct demo_sizes as ((S1 & S2 & S3 & S4) & (S5 & S6 & S7 & S8)).
  split; [|split; [|split]].
  - intros k p K. four k K; unfold allowed, covers, inside, same_group;
      cbn [demo_meta m_x0 m_y0 m_xs m_ys m_xsize m_ysize m_444 m_row1].
    all: split; [lia|]; split; [reflexivity|]; split; [discriminate|]; intros a b C.
    all: assert (a / 32 = 2) by (symmetry; apply (Z.div_unique_pos a 32 2 (a - 64)); lia).
    all: assert (b / 32 = 1) by (symmetry; apply (Z.div_unique_pos b 32 1 (b - 32)); lia).
    all: repeat split; try lia; assumption.
  - intros a b (A & B).
    assert (D : a < 66 \/ a = 66 \/ (a = 67 /\ b = 32) \/ (a = 67 /\ b = 33)) by lia.
    destruct D as [D|[D|[D|D]]];
      [exists (64, 32, 4)|exists (66, 32, 6)|exists (67, 32, 0)|exists (67, 33, 1)];
      (split; [unfold demo_list; cbn [In]; tauto|unfold covers; lia]).
  - intros j k p q a b J K. four j J; four k K; unfold covers; intros; lia.
  - intros j k p q J K. four j J; four k K; unfold comes_before; intros; lia.
Qed.
