From Verif Require Import Base Wrap RctModel RctSpec.

Lemma clamped_gradient_spec n w l : is_i32 n -> is_i32 w -> is_i32 l ->
  clamped_gradient n w l = clamp (Z.min n w) (Z.max n w) (n + w - l).
Proof.
  unfold is_i32. intros Hn Hw Hl. unfold clamped_gradient, clamp.
  rewrite s32_w32.
  assert (s32 (w32 (w32 n + w32 w) - w32 l) = s32 (n + w - l)) as ->.
  { apply s32_mod. unfold w32. rewrite Zminus_mod_idemp_l, Zminus_mod_idemp_r, <- Z.add_sub_assoc.
    rewrite Z.add_mod_idemp_l by lia. replace (n + (w mod 2 ^ 32 - l)) with (w mod 2 ^ 32 + (n - l)) by lia.
    rewrite Z.add_mod_idemp_l by lia. f_equal. lia. }
  destruct (Z.ltb_spec (Z.max n w) l); [lia|].
  destruct (Z.ltb_spec l (Z.min n w)); [lia|].
  rewrite s32_id; [lia|]. unfold is_i32. lia.
Qed.

Lemma clamped_gradient_range n w l : is_i32 n -> is_i32 w -> is_i32 l -> is_i32 (clamped_gradient n w l).
Proof.
  intros Hn Hw Hl. rewrite clamped_gradient_spec by assumption. unfold clamp, is_i32 in *. lia.
Qed.

Lemma pixel_add_eq a b : pixel_add a b = s32 (a + b).
Proof.
  unfold pixel_add. rewrite s32_w32. apply s32_mod. unfold w32. rewrite <- Z.add_mod by lia. reflexivity.
Qed.

Lemma inv_px_same t p : inv_px_simd t p = inv_px_scalar t p.
Proof.
  destruct p as [[a b] c]. unfold inv_px_simd, inv_px_scalar, v_add, v_sub, v_shr1. rewrite !pixel_add_eq.
  destruct (t =? 6); rewrite ?Z.add_opp_r; reflexivity.
Qed.

Lemma inv_row_eq lanes t row : inv_row lanes t row = map (inv_px_scalar t) row.
Proof.
  unfold inv_row. rewrite (map_ext _ _ (inv_px_same t)). rewrite <- map_app, firstn_skipn. reflexivity.
Qed.

Lemma fwd_scalar_simd t p q : px_ok p -> fwd_px_scalar t p = Some q -> fwd_px_simd t p = q.
Proof.
  destruct p as [[a b] c]. intros Hok. unfold fwd_px_scalar, fwd_px_simd, v_add, v_sub, v_shr1.
  assert (forall x y, chk x = Some y -> y = x /\ s32 x = x) as Hc.
  { intros x y. unfold chk. destruct ((_ <=? _) && _) eqn:E; [|discriminate]. intros [= <-]. split; [reflexivity|].
    apply s32_id. unfold is_i32. lia. }
  assert (forall x, (exists y, chk x = Some y) \/ chk x = None) as Hd by (intros x; destruct (chk x); eauto).
  assert (forall (x : Z) (A : Type) (f : Z -> option A) r, obind (chk x) f = Some r -> s32 x = x /\ f x = Some r) as Ho.
  { intros x A f r. destruct (Hd x) as [[y Hy]|Hn].
    - rewrite Hy. destruct (Hc _ _ Hy) as [-> Hs]. cbn [obind]. auto.
    - rewrite Hn. discriminate. }
  destruct (t =? 6).
  - intros H. apply Ho in H. destruct H as [E1 H]. apply Ho in H. destruct H as [E2 H].
    apply Ho in H. destruct H as [E3 H]. apply Ho in H. destruct H as [E4 H]. injection H as <-.
    rewrite E1, E2, E3, E4. reflexivity.
  - destruct (Z.shiftr t 1 =? 1); [|destruct (Z.shiftr t 1 =? 2)]; destruct (Z.land t 1 =? 1); cbn [obind]; intros H;
    repeat match type of H with
    | obind (obind (chk _) _) _ = Some _ => fail 1
    | obind (chk _) _ = Some _ => apply Ho in H; let E := fresh "E" in destruct H as [E H]; rewrite ?E
    end; try (injection H as <-; reflexivity).
    + destruct (Hd (a + c)) as [[y Hy]|Hn]; [|rewrite Hn in H; discriminate].
      rewrite Hy in H. destruct (Hc _ _ Hy) as [-> Hs]. cbn [obind] in H. rewrite Hs.
      apply Ho in H. destruct H as [E1 H]. apply Ho in H. destruct H as [E2 H]. injection H as <-. rewrite E1, E2. reflexivity.
    + destruct (Hd (a + c)) as [[y Hy]|Hn]; [|rewrite Hn in H; discriminate].
      rewrite Hy in H. destruct (Hc _ _ Hy) as [-> Hs]. cbn [obind] in H. rewrite Hs.
      apply Ho in H. destruct H as [E1 H]. injection H as <-. rewrite E1. reflexivity.
Qed.

Lemma px_roundtrip t p : px_ok p -> inv_px_scalar t (fwd_px_simd t p) = p.
Proof.
  destruct p as [[a b] c]. unfold px_ok, fst3, snd3, trd3. cbn [fst snd]. intros (Ha & Hb & Hc).
  unfold inv_px_scalar, fwd_px_simd, v_add, v_sub, v_shr1.
  destruct (t =? 6); rewrite ?pixel_add_eq.
  - set (o1 := s32 (a - c)). set (h := Z.shiftr o1 1). set (tmp := s32 (c + h)).
    set (o2 := s32 (b - tmp)). set (h2 := Z.shiftr o2 1).
    assert (s32 (s32 (tmp + h2) + - h2) = tmp) as Et.
    { rewrite s32_add_l. replace (tmp + h2 + - h2) with tmp by lia. apply s32_idem. }
    rewrite Et.
    assert (s32 (tmp + - h) = c) as Ec.
    { unfold tmp. rewrite s32_add_l. replace (c + h + - h) with c by lia. apply s32_id, Hc. }
    rewrite Ec.
    assert (s32 (o2 + tmp) = b) as Eb.
    { unfold o2. rewrite s32_add_l. replace (b - tmp + tmp) with b by lia. apply s32_id, Hb. }
    rewrite Eb. unfold o1. rewrite s32_add_r. replace (c + (a - c)) with a by lia. rewrite s32_id by exact Ha. reflexivity.
  - assert (s32 (s32 (c - a) + a) = c) as Ec.
    { rewrite s32_add_l. replace (c - a + a) with c by lia. apply s32_id, Hc. }
    assert (forall x, s32 (s32 (b - x) + x) = b) as Eb.
    { intros x. rewrite s32_add_l. replace (b - x + x) with b by lia. apply s32_id, Hb. }
    destruct (Z.land t 1 =? 1), (Z.shiftr t 1 =? 1), (Z.shiftr t 1 =? 2);
      rewrite ?pixel_add_eq, ?Ec, ?Eb; reflexivity.
Qed.

(* ---- images ---- *)
Lemma zip3_unzip : forall a b c, length a = length b -> length a = length c ->
  map fst3 (zip3 a b c) = a /\ map snd3 (zip3 a b c) = b /\ map trd3 (zip3 a b c) = c.
Proof.
  induction a as [|x a IH]; intros [|y b] [|z c] H1 H2; cbn in *; try discriminate; auto.
  destruct (IH b c ltac:(lia) ltac:(lia)) as (E1 & E2 & E3). rewrite E1, E2, E3. auto.
Qed.

Lemma zip_rows_unzip : forall a b c, same_shape a b -> same_shape a c ->
  map (map fst3) (zip_rows a b c) = a /\ map (map snd3) (zip_rows a b c) = b /\ map (map trd3) (zip_rows a b c) = c.
Proof.
  unfold same_shape. induction a as [|x a IH]; intros [|y b] [|z c] H1 H2; cbn in *; try discriminate; auto.
  injection H1 as Hx H1. injection H2 as Hx2 H2.
  destruct (IH b c H1 H2) as (E1 & E2 & E3). destruct (zip3_unzip x y z Hx Hx2) as (F1 & F2 & F3).
  rewrite E1, E2, E3, F1, F2, F3. auto.
Qed.

Lemma unzip3_zip l : zip3 (map fst3 l) (map snd3 l) (map trd3 l) = l.
Proof. induction l as [|[[a b] c] l IH]; cbn; [reflexivity|]. rewrite IH. reflexivity. Qed.

Lemma unzip_zip_rows rs : zip_rows (map (map fst3) rs) (map (map snd3) rs) (map (map trd3) rs) = rs.
Proof. induction rs as [|r rs IH]; cbn; [reflexivity|]. rewrite IH, unzip3_zip. reflexivity. Qed.

Lemma zip3_ok : forall a b c, Forall is_i32 a -> Forall is_i32 b -> Forall is_i32 c -> Forall px_ok (zip3 a b c).
Proof.
  induction a as [|x a IH]; intros [|y b] [|z c] Ha Hb Hc; cbn; try constructor.
  - inversion Ha; inversion Hb; inversion Hc; subst. split; [|split]; assumption.
  - inversion Ha; inversion Hb; inversion Hc; subst. apply IH; assumption.
Qed.
Lemma zip_rows_ok : forall a b c, chan_ok a -> chan_ok b -> chan_ok c -> Forall (Forall px_ok) (zip_rows a b c).
Proof.
  unfold chan_ok. induction a as [|x a IH]; intros [|y b] [|z c] Ha Hb Hc; cbn; try constructor.
  - inversion Ha; inversion Hb; inversion Hc; subst. apply zip3_ok; assumption.
  - inversion Ha; inversion Hb; inversion Hc; subst. apply IH; assumption.
Qed.

Lemma rows_roundtrip lanes t rs : Forall (Forall px_ok) rs ->
  map (inv_row lanes t) (map (map (fwd_px_simd t)) rs) = rs.
Proof.
  intros H. rewrite map_map. rewrite <- (map_id rs) at 2. apply map_ext_in. intros r Hr.
  rewrite inv_row_eq, map_map. rewrite <- (map_id r) at 2. apply map_ext_in. intros p Hp.
  apply px_roundtrip. rewrite Forall_forall in H. specialize (H r Hr). rewrite Forall_forall in H. auto.
Qed.

Lemma same_shape_sym a b : same_shape a b -> same_shape b a.
Proof. unfold same_shape. auto. Qed.
Lemma same_shape_trans a b c : same_shape a b -> same_shape b c -> same_shape a c.
Proof. unfold same_shape. congruence. Qed.

Lemma rct_roundtrip lanes ty c : 0 <= ty < 42 -> chans_ok c ->
  inv_rct lanes ty (fwd_rct ty c) = Some c.
Proof.
  intros Hty Hok. unfold inv_rct, fwd_rct. destruct (Z.eqb_spec ty 0); [reflexivity|].
  assert (0 <= ty / 7 < 6) as Hp by lia. assert (0 <= ty mod 7 < 7) as Ht by lia.
  set (p := ty / 7) in *. set (t := ty mod 7) in *. clearbody p t.
  destruct c as [[a b] d]. destruct Hok as (S1 & S2 & Oa & Ob & Od).
  destruct (Z.ltb_spec p 6); [|lia]. cbn [negb].
  assert (forall x y z, same_shape x y -> same_shape x z -> chan_ok x -> chan_ok y -> chan_ok z ->
    map (inv_row lanes t) (zip_rows (map (map fst3) (map (map (fwd_px_simd t)) (zip_rows x y z)))
       (map (map snd3) (map (map (fwd_px_simd t)) (zip_rows x y z)))
       (map (map trd3) (map (map (fwd_px_simd t)) (zip_rows x y z)))) = zip_rows x y z) as Hr.
  { intros. rewrite unzip_zip_rows. apply rows_roundtrip. apply zip_rows_ok; assumption. }
  assert (t = 0 -> forall rs, map (map (fwd_px_simd t)) rs = rs) as H0.
  { intros -> rs. rewrite <- (map_id rs) at 2. apply map_ext. intros r. rewrite <- (map_id r) at 2. apply map_ext.
    intros [[? ?] ?]. reflexivity. }
  assert (p = 0 \/ p = 1 \/ p = 2 \/ p = 3 \/ p = 4 \/ p = 5) as Hpc by lia.
  pose proof (same_shape_sym _ _ S1) as S1'. pose proof (same_shape_sym _ _ S2) as S2'.
  pose proof (same_shape_trans _ _ _ S1' S2) as S3. pose proof (same_shape_sym _ _ S3) as S3'.
  destruct (Z.eqb_spec t 0) as [Et|Et].
  - rewrite !(H0 Et).
    destruct Hpc as [->|[->|[->|[->|[->| ->]]]]];
    match goal with |- context [zip_rows (sel _ ?i) (sel _ ?j) (sel _ ?k)] =>
      let i' := eval vm_compute in i in let j' := eval vm_compute in j in let k' := eval vm_compute in k in
      change i with i'; change j with j'; change k with k' end;
    cbn [sel upd Z.eqb Pos.eqb];
    match goal with |- context [zip_rows ?x ?y ?z] => destruct (zip_rows_unzip x y z) as (E1 & E2 & E3); [assumption|assumption|] end;
    rewrite E1, E2, E3; reflexivity.
  - destruct Hpc as [->|[->|[->|[->|[->| ->]]]]];
    match goal with |- context [zip_rows (sel _ ?i) (sel _ ?j) (sel _ ?k)] =>
      let i' := eval vm_compute in i in let j' := eval vm_compute in j in let k' := eval vm_compute in k in
      change i with i'; change j with j'; change k with k' end;
    cbn [sel Z.eqb Pos.eqb]; rewrite Hr by assumption;
    match goal with |- context [zip_rows ?x ?y ?z] => destruct (zip_rows_unzip x y z) as (E1 & E2 & E3); [assumption|assumption|] end;
    rewrite E1, E2, E3; reflexivity.
Qed.

Lemma inv_rct_lanes lanes lanes' ty c : inv_rct lanes ty c = inv_rct lanes' ty c.
Proof.
  unfold inv_rct. destruct (ty =? 0); [reflexivity|]. destruct (negb _); [reflexivity|].
  destruct c as [[a b] d]. destruct (_ =? 0); [reflexivity|].
  rewrite (map_ext _ _ (inv_row_eq lanes (ty mod 7))), (map_ext _ _ (inv_row_eq lanes' (ty mod 7))). reflexivity.
Qed.
