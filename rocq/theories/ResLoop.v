(* Pixels in raster order, and what two paths that guess the same make of each other's tokens. *)
From Verif Require Import Base Wrap FieldsModel FieldsProofs RctModel MaModel OMap ResModel ResSpec ListAux.
Ltac Zify.zify_post_hook ::= idtac.

Lemma Some_inj {A} (a b : A) : Some a = Some b -> a = b.
Proof. congruence. Qed.

Lemma znth_nth {A} (l : list A) i : 0 <= i -> znth l i = nth_error l (Z.to_nat i).
Proof. intros H. unfold znth. now replace (i <? 0) with false by lia. Qed.
Lemma firstn_S_nth {A} (l : list A) n v : nth_error l n = Some v -> firstn (S n) l = firstn n l ++ [v].
Proof. revert l. induction n as [|n IH]; intros [|a l] E; try discriminate. - injection E as ->. reflexivity. - cbn [firstn app]. f_equal. now apply IH. Qed.

Section Chan.
Variables (w h : Z) (data : list Z).
Hypothesis Hw : 0 < w.
Hypothesis Hlen : zlen data = w * h.

Definition pix (x y : Z) : Z := match pixel w data x y with Some v => v | None => 0 end.
Definition before (x y x' y' : Z) : Prop := y' < y \/ (y' = y /\ x' < x).
(* the pixels before (x, y) are known *)
Definition knows (px : Z -> Z -> option Z) (x y : Z) : Prop :=
  forall x' y', 0 <= x' < w -> 0 <= y' -> before x y x' y' -> px x' y' = Some (pix x' y').

Lemma index_range x y : 0 <= x < w -> 0 <= y < h -> 0 <= y * w + x < w * h.
Proof. intros. nia. Qed.
Lemma pixel_pix x y : 0 <= x < w -> 0 <= y < h -> pixel w data x y = Some (pix x y).
Proof.
  intros Hx Hy. unfold pix. unfold pixel. replace ((0 <=? x) && (x <? w) && (0 <=? y)) with true by lia.
  destruct (znth_ex data (y * w + x)) as (v & ->); [rewrite Hlen; apply index_range; assumption|reflexivity].
Qed.
Lemma knows_full x y : 0 <= x <= w -> 0 <= y < h -> knows (pixel w data) x y.
Proof. intros Hx Hy x' y' A B C. apply pixel_pix; [assumption|]. unfold before in C. lia. Qed.
Lemma knows_prefix x y : 0 <= x <= w -> 0 <= y < h -> knows (pixel w (firstn (Z.to_nat (y * w + x)) data)) x y.
Proof.
  intros Hx Hy x' y' A B C. assert (Y : y' < h) by (unfold before in C; lia). rewrite <- pixel_pix by lia. unfold pixel. replace ((0 <=? x') && (x' <? w) && (0 <=? y')) with true by lia.
  assert (I : 0 <= y' * w + x' < y * w + x) by (unfold before in C; destruct C as [C|[-> C]]; nia).
  rewrite !znth_nth by lia. apply nth_error_firstn. lia.
Qed.
Lemma pix_data x y : 0 <= x < w -> 0 <= y < h -> znth data (y * w + x) = Some (pix x y).
Proof. intros Hx Hy. rewrite <- pixel_pix by assumption. unfold pixel. now replace ((0 <=? x) && (x <? w) && (0 <=? y)) with true by lia. Qed.
Lemma pix_i32 x y : Forall is_i32 data -> is_i32 (pix x y).
Proof.
  intros F. unfold pix, pixel. destruct ((0 <=? x) && (x <? w) && (0 <=? y)); [|unfold is_i32; lia]. destruct (znth data (y * w + x)) as [v|] eqn:E; [|unfold is_i32; lia].
  rewrite Forall_forall in F. apply F. unfold znth in E. destruct (_ <? 0); [discriminate|]. eapply nth_error_In, E.
Qed.
Lemma prefix_step x y : 0 <= x < w -> 0 <= y < h -> firstn (Z.to_nat (y * w + x)) data ++ [pix x y] = firstn (Z.to_nat (y * w + (x + 1))) data.
Proof.
  intros Hx Hy. pose proof (pix_data x y Hx Hy) as E. pose proof (index_range x y Hx Hy) as I. rewrite znth_nth in E by lia.
  replace (Z.to_nat (y * w + (x + 1))) with (Datatypes.S (Z.to_nat (y * w + x))) by lia. symmetry. apply firstn_S_nth. exact E.
Qed.

(* ---- paths and the guesses they make ---- *)
Definition follows (P : path) (R : Z -> Z -> guessed) : Prop :=
  exists inv : Z -> Z -> st -> Prop,
    inv 0 0 (p_row P start) /\
    (forall y s, 0 <= y < h -> inv w y s -> inv 0 (y + 1) (p_row P s)) /\
    (forall x y s px, 0 <= x < w -> 0 <= y < h -> knows px x y -> inv x y s ->
       exists s1 s2, p_predict P px x y s = Some (R x y, s1) /\ p_update P (pix x y) x y s1 = Some s2 /\ inv (x + 1) y s2).

(* the decoder makes the pixel of the encoder's token *)
Definition undoes (cm : list Z) (k : how) (plain : bool) (Re Rd : Z -> Z -> guessed) : Prop :=
  forall x y v, 0 <= x < w -> 0 <= y < h -> let '(c, g, m) := Re x y in let '(c', g', m') := Rd x y in
    residual k (pix x y) g m = Good v -> znth cm c = Some c' /\ (if plain then unpack_signed v else make_pixel v m' g') = pix x y.

Variables (cm : list Z) (Pe Pd : path) (Re Rd : Z -> Z -> guessed) (k : how) (plain : bool).
Hypothesis U : undoes cm k plain Re Rd.

Lemma rows_back (inve invd : Z -> Z -> st -> Prop)
  (Se : forall x y s px, 0 <= x < w -> 0 <= y < h -> knows px x y -> inve x y s -> exists s1 s2, p_predict Pe px x y s = Some (Re x y, s1) /\ p_update Pe (pix x y) x y s1 = Some s2 /\ inve (x + 1) y s2)
  (Sd : forall x y s px, 0 <= x < w -> 0 <= y < h -> knows px x y -> invd x y s -> exists s1 s2, p_predict Pd px x y s = Some (Rd x y, s1) /\ p_update Pd (pix x y) x y s1 = Some s2 /\ invd (x + 1) y s2) y (Hy : 0 <= y < h) :
  forall n x se sd ts se', x + Z.of_nat n = w -> 0 <= x -> inve x y se -> invd x y sd -> enc_row Pe k (pixel w data) n x y se = Good (ts, se') ->
  inve w y se' /\ exists us, clustered cm ts us /\ length us = n /\ exists sd', invd w y sd' /\
    forall rest, dec_row plain Pd w n x y (firstn (Z.to_nat (y * w + x)) data) sd (us ++ rest) = Some (firstn (Z.to_nat (y * w + w)) data, sd', rest).
Proof.
  induction n as [|n IH]; intros x se sd ts se' Hn Hx Ie Id E; cbn [enc_row dec_row] in *.
  - injection E as <- <-. replace x with w in * by lia. split; [assumption|]. exists []. split; [constructor|]. split; [reflexivity|]. exists sd. split; [assumption|]. reflexivity.
  - assert (Xr : 0 <= x < w) by lia.
    destruct (Se x y se _ Xr Hy (knows_full x y ltac:(lia) Hy) Ie) as (s1 & s2 & A1 & A2 & A3).
    destruct (Sd x y sd _ Xr Hy (knows_prefix x y ltac:(lia) Hy) Id) as (d1 & d2 & B1 & B2 & B3).
    rewrite A1 in E. pose proof (U x y) as Uxy. destruct (Re x y) as ((c & g) & m). destruct (Rd x y) as ((c' & g') & m'). cbn [opt bind] in E. rewrite (pixel_pix x y Xr Hy) in E. cbn [opt bind] in E.
    destruct (residual k (pix x y) g m) as [v| | |] eqn:Er; try discriminate E. cbn [bind] in E. rewrite A2 in E. cbn [opt bind] in E.
    destruct (enc_row Pe k (pixel w data) n (x + 1) y s2) as [(ts0 & s3)| | |] eqn:En; try discriminate E. cbn [bind] in E. injection E as <- <-.
    destruct (Uxy v Xr Hy eq_refl) as (Uc & Up).
    destruct (IH (x + 1) s2 d2 ts0 s3 ltac:(lia) ltac:(lia) A3 B3 En) as (I1 & us & I2 & I3 & sd' & I4 & I5).
    split; [assumption|]. exists ((c', v) :: us). split; [constructor; [split; [exact Uc|reflexivity]|exact I2]|]. split; [cbn; lia|]. exists sd'. split; [assumption|]. intros rest. rewrite B1. cbn [app read_symbol]. rewrite Z.eqb_refl.
    rewrite Up, B2, prefix_step by assumption. apply I5.
Qed.

Lemma channel_back : follows Pe Re -> follows Pd Rd -> forall ts, enc_rows Pe k (pixel w data) w (Z.to_nat h) 0 start = Good ts ->
  exists us, clustered cm ts us /\ length us = Z.to_nat (w * h) /\ forall rest, dec_rows plain Pd w (Z.to_nat h) 0 [] start (us ++ rest) = Some (data, rest).
Proof.
  intros (inve & Ie & Le & Se) (invd & Id & Ld & Sd).
  assert (K : forall n y se sd ts, y + Z.of_nat n = h -> 0 <= y -> inve 0 y (p_row Pe se) -> invd 0 y (p_row Pd sd) -> enc_rows Pe k (pixel w data) w n y se = Good ts ->
    exists us, clustered cm ts us /\ length us = Z.to_nat (w * Z.of_nat n) /\ forall rest, dec_rows plain Pd w n y (firstn (Z.to_nat (y * w)) data) sd (us ++ rest) = Some (data, rest)).
  { induction n as [|n IH]; intros y se sd ts Hn Hy Je Jd E; cbn [enc_rows dec_rows] in *.
    - injection E as <-. exists []. split; [constructor|]. split; [cbn [length]; lia|]. intros rest. replace (Z.to_nat (y * w)) with (length data) by (unfold zlen in Hlen; nia). now rewrite firstn_all.
    - destruct (enc_row Pe k (pixel w data) (Z.to_nat w) 0 y (p_row Pe se)) as [(t1 & s1)| | |] eqn:E1; try discriminate E. cbn [bind] in E.
      destruct (enc_rows Pe k (pixel w data) w n (y + 1) s1) as [t2| | |] eqn:E2; try discriminate E. cbn [bind] in E. injection E as <-.
      destruct (rows_back inve invd Se Sd y ltac:(lia) (Z.to_nat w) 0 _ (p_row Pd sd) t1 s1 ltac:(lia) ltac:(lia) Je Jd E1) as (I1 & us & I2 & I3 & sd' & I4 & I5).
      destruct (IH (y + 1) s1 sd' t2 ltac:(lia) ltac:(lia) ltac:(apply Le; [lia|assumption]) ltac:(apply Ld; [lia|assumption]) E2) as (vs & J1 & J2 & J3).
      exists (us ++ vs). split; [apply Forall2_app; assumption|]. split; [rewrite app_length, I3, J2; nia|]. intros rest. rewrite <- app_assoc. replace (y * w) with (y * w + 0) by lia. rewrite I5. replace (y * w + w) with ((y + 1) * w) by lia. apply J3. }
  intros ts E. destruct (Z.lt_ge_cases h 0); [exfalso; unfold zlen in Hlen; nia|].
  destruct (K (Z.to_nat h) 0 start start ts ltac:(lia) ltac:(lia) Ie Id E) as (us & A & B & C). exists us. split; [assumption|]. split; [rewrite B; f_equal; lia|]. exact C.
Qed.
End Chan.

(* ---- residuals ---- *)
Lemma pack_back r : is_i32 r -> unpack_signed (pack_signed r) = r.
Proof. apply unpack_pack. Qed.

Lemma divided_back p g m v g' : is_i32 p -> residual Divided p g m = Good v -> s32 g' = s32 g -> make_pixel v m g' = p.
Proof.
  unfold residual, make_pixel. intros Hp E Eg. destruct (Z.eqb_spec m 0); [discriminate|]. destruct (Z.eqb_spec (Z.rem (p - g) m) 0) as [R|R]; [|discriminate]. injection E as <-.
  rewrite unpack_pack by apply s32_range. pose proof (Z.quot_rem' (p - g) m) as Q. rewrite R in Q. set (q := Z.quot (p - g) m) in *.
  rewrite <- (s32_id p Hp). transitivity (s32 (q * m + g)); [|f_equal; lia]. apply s32_mod.
  assert (A : s32 q mod 2 ^ 32 = q mod 2 ^ 32) by apply s32_cong. assert (B : g' mod 2 ^ 32 = g mod 2 ^ 32) by (rewrite <- (s32_cong g'), Eg; apply s32_cong).
  rewrite Z.add_mod, Z.mul_mod, A, B, <- Z.mul_mod, <- Z.add_mod by lia. reflexivity.
Qed.
Lemma shifted_divided p g m k v : 0 <= k -> m = 2 ^ k -> residual (Shifted k) p g m = Good v -> residual Divided p g m = Good v.
Proof.
  unfold residual. intros Hk -> E. assert (K : 0 < 2 ^ k) by (apply Z.pow_pos_nonneg; lia). destruct (Z.eqb_spec (Z.shiftr (p - g) k * 2 ^ k) (p - g)) as [R|]; [|discriminate].
  replace (2 ^ k =? 0) with false by lia. set (q := Z.shiftr (p - g) k) in *. rewrite <- R. rewrite Z.rem_mul by lia. rewrite Z.eqb_refl. rewrite Z.quot_mul by lia. exact E.
Qed.
Lemma checked_divided p g v : residual Checked p g 1 = Good v -> residual Divided p g 1 = Good v.
Proof.
  unfold residual. destruct (Z.eqb_spec (p - s32 g) (s32 (p - s32 g))) as [R|]; [|discriminate]. intros E. injection E as <-. cbn [Z.eqb]. rewrite Z.rem_1_r, Z.quot_1_r. cbn [Z.eqb]. rewrite R, s32_sub_r. reflexivity.
Qed.
Lemma raw_divided p v : is_i32 p -> residual Raw p 0 1 = Good v -> residual Divided p 0 1 = Good v.
Proof. unfold residual. intros Hp E. cbn [Z.eqb]. rewrite Z.rem_1_r, Z.quot_1_r, Z.sub_0_r, s32_id by assumption. exact E. Qed.
Lemma checked_guess p g g' : s32 g = s32 g' -> residual Checked p g 1 = residual Checked p g' 1.
Proof. unfold residual. now intros ->. Qed.
