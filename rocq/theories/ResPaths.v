(* The guesses of each path, as functions of the whole channel. *)
From Verif Require Import Base Wrap FieldsModel RctModel MaModel MaSpec OMap ListAux ResModel ResSpec ResWp ResLoop.
Ltac Zify.zify_post_hook ::= idtac.

Section Paths.
Variables (w h : Z) (data : list Z).
Hypothesis Hw : 0 < w.
Hypothesis Hlen : zlen data = w * h.
Hypothesis Hd : Forall is_i32 data.
Variable hd : wp_header.
Hypothesis Hh : header_ok hd.

Notation pix := (pix w data).
Notation knows := (knows w data).
Notation follows := (follows w h data).

Definition nbref (x y : Z) : nb :=
  let left := if 0 <? x then pix (x - 1) y else if 0 <? y then pix x (y - 1) else 0 in
  let top := if 0 <? y then pix x (y - 1) else left in
  let topleft := if (0 <? x) && (0 <? y) then pix (x - 1) (y - 1) else left in
  let topright := if (x + 1 <? w) && (0 <? y) then pix (x + 1) (y - 1) else top in
  let leftleft := if 1 <? x then pix (x - 2) y else left in
  let toptop := if 1 <? y then pix x (y - 2) else top in
  let toprightright := if (x + 2 <? w) && (0 <? y) then pix (x + 2) (y - 1) else topright in
  NB left top topleft topright leftleft toptop toprightright.

Lemma known px x y x' y' : knows px x y -> 0 <= x' < w -> 0 <= y' -> before x y x' y' -> px x' y' = Some (pix x' y').
Proof. intros K. apply K. Qed.
Ltac know K := rewrite (known _ _ _ _ _ K) by (unfold before; lia).

Lemma neighbours_ref nec px x y : knows px x y -> 0 <= x < w -> 0 <= y -> (nec = true -> 2 <= x < w - 2 /\ 1 < y) -> neighbours nec px w x y = Some (nbref x y).
Proof.
  intros K Hx Hy Hn. unfold neighbours, nbref. destruct nec; cbn [orb].
  - specialize (Hn eq_refl). destruct Hn as (N1 & N2). do 7 know K.
    replace (0 <? x) with true by lia. replace (0 <? y) with true by lia. replace (x + 1 <? w) with true by lia. replace (1 <? x) with true by lia. replace (1 <? y) with true by lia. replace (x + 2 <? w) with true by lia. reflexivity.
  - destruct (Z.ltb_spec 0 x).
    + know K. destruct (Z.ltb_spec 0 y); cbn [andb].
      * know K. know K. destruct (Z.ltb_spec (x + 1) w); cbn [andb]; [know K|]; (destruct (Z.ltb_spec 1 x); [know K|]); (destruct (Z.ltb_spec 1 y); [know K|]); (destruct (Z.ltb_spec (x + 2) w); cbn [andb]; [know K|]); reflexivity.
      * rewrite !andb_false_r. replace (1 <? y) with false by lia. destruct (Z.ltb_spec 1 x); [know K|]; reflexivity.
    + cbn [andb]. replace (1 <? x) with false by lia. destruct (Z.ltb_spec 0 y).
      * know K. rewrite !andb_true_r. destruct (Z.ltb_spec (x + 1) w); [know K|]; (destruct (Z.ltb_spec 1 y); [know K|]); (destruct (Z.ltb_spec (x + 2) w); [know K|]); reflexivity.
      * rewrite !andb_false_r. replace (1 <? y) with false by lia. reflexivity.
Qed.
Lemma grad_ref px x y : knows px x y -> 0 <= x < w -> 0 <= y -> grad_neighbours px x y = Some (left (nbref x y), top (nbref x y), topleft (nbref x y)).
Proof.
  intros K Hx Hy. unfold grad_neighbours, nbref. cbn [left top topleft]. destruct (Z.ltb_spec 0 x).
  - know K. destruct (Z.ltb_spec 0 y); cbn [andb]; [know K; know K|]; reflexivity.
  - cbn [andb]. destruct (Z.ltb_spec 0 y); [know K|]; reflexivity.
Qed.

Definition nb_i32 (n : nb) : Prop := is_i32 (left n) /\ is_i32 (top n) /\ is_i32 (topleft n) /\ is_i32 (topright n) /\ is_i32 (leftleft n) /\ is_i32 (toptop n) /\ is_i32 (toprightright n).
Lemma nbref_i32 x y : nb_i32 (nbref x y).
Proof.
  assert (P : forall a b, is_i32 (pix a b)) by (intros; apply pix_i32; assumption).
  assert (C : forall (b : bool) u v, is_i32 u -> is_i32 v -> is_i32 (if b then u else v)) by (intros []; auto).
  assert (Z0 : is_i32 0) by (unfold is_i32; lia).
  unfold nb_i32, nbref. cbn [left top topleft topright leftleft toptop toprightright]. repeat split; repeat (apply C; [apply P|]); auto; apply C; auto.
Qed.

(* ---- the weighted predictor along the channel ---- *)
Definition wp_at (x y : Z) (s : wp_state) : option (Z * Z * wp_state) :=
  let n := nbref x y in wp_predict hd x y w (top n) (left n) (topright n) (topleft n) (toptop n) s.
Definition wp_next (x y : Z) (s : wp_state) : wp_state :=
  match wp_at x y s with Some (_, _, q) => match update_errors (pix x y) x y w q with Some s => s | None => s end | None => s end.
Fixpoint wpref (n : nat) : wp_state :=
  match n with O => wp_init | S n => wp_next (Z.of_nat n mod w) (Z.of_nat n / w) (wpref n) end.

Lemma wp_step x y s : 0 <= x < w -> wp_ok s -> exists g p q s', wp_at x y s = Some (g, p, q) /\ update_errors (pix x y) x y w q = Some s' /\ wp_ok s' /\ wp_next x y s = s'.
Proof.
  intros Hx Hs. destruct (nbref_i32 x y) as (A1 & A2 & A3 & A4 & _ & A6 & _).
  destruct (wp_total hd x y w _ _ _ _ _ s Hh Hx A2 A1 A4 A3 A6 Hs) as (g & p & q & E & Q1 & Q2 & Q3 & Q4 & Q5).
  assert (Oq : wp_ok q) by (unfold wp_ok; rewrite Q1, Q2; exact Hs).
  destruct (update_total (pix x y) x y w q Hx ltac:(apply pix_i32; assumption) Oq Q3 Q4 Q5) as (s' & U & O'). exists g, p, q, s'. unfold wp_next, wp_at. rewrite E, U. auto.
Qed.
Lemma wpref_ok n : wp_ok (wpref n).
Proof.
  induction n as [|n IH]; [exact wp_init_ok|]. cbn [wpref]. destruct (wp_step (Z.of_nat n mod w) (Z.of_nat n / w) (wpref n) ltac:(apply Z.mod_pos_bound; lia) IH) as (g & p & q & s' & _ & _ & O & ->). exact O.
Qed.
Definition index (x y : Z) : nat := Z.to_nat (y * w + x).
Lemma wpref_next x y : 0 <= x < w -> 0 <= y -> wpref (index (x + 1) y) = wp_next x y (wpref (index x y)).
Proof.
  intros Hx Hy. unfold index. replace (Z.to_nat (y * w + (x + 1))) with (S (Z.to_nat (y * w + x))) by nia. cbn [wpref]. rewrite Z2Nat.id by nia.
  replace ((y * w + x) mod w) with x by (rewrite Z.add_comm, Z.mod_add, Z.mod_small; lia). replace ((y * w + x) / w) with y by (rewrite Z.add_comm, Z.div_add, Z.div_small; lia). reflexivity.
Qed.
(* the prediction and the property *)
Definition wpval (x y : Z) : Z * Z := match wp_at x y (wpref (index x y)) with Some (g, p, _) => (g, p) | None => (0, 0) end.

(* property 9 of the pixel before *)
Definition g9 (x y : Z) : Z := if 0 <? x then let n := nbref (x - 1) y in s32 (left n + top n - topleft n) else 0.

(* what a path's state is *)
Definition tracks (uw ug : bool) (x y : Z) (s : st) : Prop := (uw = true -> wp s = wpref (index x y)) /\ (ug = true -> grad9 s = g9 x y).

(* ---- trees ---- *)
Section Tree.
Variables (sp : Z -> Z) (refs : Z -> Z -> option (list Z)) (tree : list fnode) (np : Z) (D : (Z -> Z) -> Z * Z * Z * Z).
Hypothesis Hl : forall pv, agrees sp pv -> lookup (length tree) tree np pv 0 = Some (D pv).
Hypothesis Hr : forall x y, 0 <= x < w -> 0 <= y < h -> exists l, refs x y = Some l /\ zlen l = np - 16.

Definition refsref (x y : Z) : list Z := match refs x y with Some l => l | None => [] end.
Definition props (uw : bool) (x y : Z) (i : Z) : Z :=
  nth (Z.to_nat i) (local_properties sp x y (nbref x y) (g9 x y) ++ [if uw then snd (wpval x y) else 0] ++ refsref x y) 0.
Definition Rtree (uw : bool) (x y : Z) : guessed :=
  let '(c, pr, o, m) := D (props uw x y) in (c, o + predict_one pr (nbref x y) (if uw then fst (wpval x y) else 0), m).

Lemma tree_step nec uw x y s px : 0 <= x < w -> 0 <= y < h -> knows px x y -> tracks uw true x y s -> (nec = true -> 2 <= x < w - 2 /\ 1 < y /\ np = 16) ->
  exists q, predict_tree nec uw hd sp refs tree np w px x y s = Some (Rtree uw x y, St q (g9 (x + 1) y)) /\
    (if uw then exists g p, wp_at x y (wpref (index x y)) = Some (g, p, q) else q = wp s).
Proof.
  intros Hx Hy K (T1 & T2) Hn. unfold predict_tree. rewrite (neighbours_ref nec px x y K Hx ltac:(lia)) by (intros E; destruct (Hn E) as (? & ? & _); auto). rewrite (T2 eq_refl).
  destruct (Hr x y Hx Hy) as (l & Er & Ll).
  assert (Re : (if nec then Some [] else refs x y) = Some (refsref x y)).
  { unfold refsref. rewrite Er. destruct nec; [|reflexivity]. destruct (Hn eq_refl) as (_ & _ & N). f_equal. destruct l; [reflexivity|]. rewrite zlen_cons in Ll. pose proof (zlen_nonneg l). lia. }
  assert (Lr : zlen (refsref x y) = np - 16) by (unfold refsref; rewrite Er; exact Ll).
  assert (G : nth (Z.to_nat 9) (local_properties sp x y (nbref x y) (g9 x y)) 0 = g9 (x + 1) y).
  { unfold g9 at 2. replace (0 <? x + 1) with true by lia. replace (x + 1 - 1) with x by lia. reflexivity. }
  assert (V : forall v, vector np (local_properties sp x y (nbref x y) (g9 x y) ++ [v] ++ refsref x y) = Some (fun i => nth (Z.to_nat i) (local_properties sp x y (nbref x y) (g9 x y) ++ [v] ++ refsref x y) 0)).
  { intros v. unfold vector. rewrite zlen_app, zlen_app, Lr. change (zlen (local_properties sp x y (nbref x y) (g9 x y))) with 15. change (zlen [v]) with 1. replace (15 + (1 + (np - 16)) =? np) with true by lia. reflexivity. }
  assert (A : forall v, agrees sp (fun i => nth (Z.to_nat i) (local_properties sp x y (nbref x y) (g9 x y) ++ [v] ++ refsref x y) 0)) by (intros v; split; reflexivity).
  assert (G' : forall v, nth (Z.to_nat 9) (local_properties sp x y (nbref x y) (g9 x y) ++ [v] ++ refsref x y) 0 = g9 (x + 1) y) by (intros v; rewrite <- G; reflexivity).
  unfold Rtree, props. destruct uw.
  - rewrite (T1 eq_refl). destruct (wp_step x y (wpref (index x y)) Hx (wpref_ok _)) as (g & p & q & s' & E1 & _). unfold wpval. rewrite E1. unfold wp_at in E1. rewrite E1, Re. rewrite V, Hl by apply A. cbn [fst snd]. rewrite G'. destruct (D _) as (((c & pr) & o) & m). exists q. split; [reflexivity|]. exists g, p. reflexivity.
  - rewrite Re, V, Hl by apply A. rewrite G'. destruct (D _) as (((c & pr) & o) & m). exists (wp s). auto.
Qed.

Lemma tree_follows (uw : bool) (P : path) (nec : Z -> Z -> bool) : p_row P = init_row -> p_update P = (if uw then update_wp w else keep) ->
  (forall px x y s, p_predict P px x y s = predict_tree (nec x y) uw hd sp refs tree np w px x y s) ->
  (forall x y, 0 <= x < w -> 0 <= y < h -> nec x y = true -> 2 <= x < w - 2 /\ 1 < y /\ np = 16) -> follows P (Rtree uw).
Proof.
  intros Er Eu Ep Hn. exists (tracks uw true). rewrite Er, Eu. split; [|split].
  - split; [intros _; reflexivity|]. intros _. reflexivity.
  - intros y s Hy (T1 & _). split; [|reflexivity]. intros E. cbn [wp init_row]. rewrite (T1 E). unfold index. f_equal. lia.
  - intros x y s px Hx Hy K T. rewrite Ep. destruct (tree_step (nec x y) uw x y s px Hx Hy K T ltac:(auto)) as (q & E & F). exists (St q (g9 (x + 1) y)). destruct uw.
    + destruct F as (g & p & F). destruct (wp_step x y (wpref (index x y)) Hx (wpref_ok _)) as (g' & p' & q' & s' & E1 & E2 & _ & E4). rewrite F in E1. apply Some_inj in E1. assert (q' = q) by congruence. subst q'.
      exists (St s' (g9 (x + 1) y)). split; [exact E|]. split; [unfold update_wp; cbn [wp grad9]; rewrite E2; reflexivity|]. split; [|intros _; reflexivity]. intros _. cbn [wp]. rewrite wpref_next by lia. auto.
    + eexists. split; [exact E|]. split; [reflexivity|]. split; [discriminate|]. intros _. reflexivity.
Qed.
End Tree.

(* ---- the other paths ---- *)
Lemma stateless (P : path) (R : Z -> Z -> guessed) : p_row P = (fun s => s) -> p_update P = keep ->
  (forall x y s px, 0 <= x < w -> 0 <= y < h -> knows px x y -> p_predict P px x y s = Some (R x y, s)) -> follows P R.
Proof.
  intros Er Eu Ep. exists (fun _ _ _ => True). rewrite Eu. split; [exact I|]. split; [auto|]. intros x y s px Hx Hy K _. exists s, s. rewrite Ep by assumption. auto.
Qed.

Definition grad (x y : Z) : Z := let n := nbref x y in clamped_gradient (left n) (top n) (topleft n).
Lemma gradient_comm a b c : clamped_gradient a b c = clamped_gradient b a c.
Proof. unfold clamped_gradient. rewrite (Z.min_comm a b), (Z.max_comm a b), (Z.add_comm (w32 a) (w32 b)). reflexivity. Qed.

Lemma gradient_follows ctx : follows (gradient_path ctx) (fun x y => (ctx, grad x y, 1)).
Proof. apply stateless; [reflexivity..|]. intros x y s px Hx Hy K. cbn [p_predict gradient_path]. rewrite (grad_ref px x y K Hx) by lia. unfold grad. now rewrite gradient_comm. Qed.
Definition lutv (lut : Z -> Z) (v : Z) : Z := lut (kPropRangeFast + Z.min (Z.max (- kPropRangeFast) v) (kPropRangeFast - 1)).
Lemma lut_total lut v : lut_at lut v = Some (lutv lut v).
Proof. unfold lut_at, lutv. rewrite get_ok; [reflexivity|]. unfold kPropRangeFast. lia. Qed.
Definition gradp (x y : Z) : Z := let n := nbref x y in left n + top n - topleft n.
Lemma gradient_lut_follows lut : follows (gradient_lut_path lut) (fun x y => (lutv lut (gradp x y), grad x y, 1)).
Proof. apply stateless; [reflexivity..|]. intros x y s px Hx Hy K. cbn [p_predict gradient_lut_path]. rewrite (grad_ref px x y K Hx) by lia. rewrite lut_total. unfold grad, gradp. rewrite gradient_comm, (Z.add_comm (top _)). reflexivity. Qed.
Lemma zero_follows c o m : follows (zero_path c o m) (fun x y => (c, o, m)).
Proof. apply stateless; reflexivity. Qed.
Lemma single_follows c pr m : follows (single_path c pr m w) (fun x y => (c, predict_one pr (nbref x y) 0, m)).
Proof. apply stateless; [reflexivity..|]. intros x y s px Hx Hy K. cbn [p_predict single_path]. unfold predict_no_tree. rewrite (neighbours_ref false px x y K Hx) by (lia || discriminate). reflexivity. Qed.
Lemma gradient_same a : is_i32 a -> clamped_gradient a a a = a.
Proof. intros H. unfold clamped_gradient. rewrite Z.min_id, Z.max_id, Z.ltb_irrefl. rewrite s32_w32. rewrite <- (s32_id a H) at 4. apply s32_mod. unfold w32. rewrite Zminus_mod_idemp_l, Zminus_mod_idemp_r, <- Zminus_mod_idemp_l, <- Z.add_mod, Zminus_mod_idemp_l by lia. f_equal. lia. Qed.
Lemma rle_follows ctx : follows (rle_path ctx) (fun x y => (ctx, grad x y, 1)).
Proof.
  apply stateless; [reflexivity..|]. intros x y s px Hx Hy K. cbn [p_predict rle_path]. unfold ptr, grad, nbref. cbn [left top topleft]. destruct (Z.eqb_spec x 0) as [->|].
  - change (0 <? 0) with false. cbn [andb]. destruct (Z.ltb_spec 0 y).
    + change (0 + 0) with 0. know K. rewrite gradient_same by (apply pix_i32; assumption). reflexivity.
    + rewrite gradient_same by (unfold is_i32; lia). reflexivity.
  - replace (0 <? x) with true by lia. cbn [andb]. replace (0 + (x - 1)) with (x - 1) by lia. know K. destruct (Z.ltb_spec 0 y).
    + replace (0 + x) with x by lia. replace (-1 + x) with (x - 1) by lia. know K. know K. now rewrite gradient_comm.
    + replace (-1 + x) with (x - 1) by lia. know K. reflexivity.
Qed.

Definition Rwp (lut : Z -> Z) (x y : Z) : guessed := (lutv lut (snd (wpval x y)), s32 (fst (wpval x y)), 1).
Lemma wp_follows lut (P : path) : p_row P = (fun s => s) -> p_update P = update_wp w ->
  (forall x y s px, 0 <= x < w -> 0 <= y < h -> knows px x y ->
     p_predict P px x y s = (do (g, p, q) <- wp_at x y (wp s); do ctx <- lut_at lut p; Some (ctx, s32 g, 1, St q (grad9 s)))) -> follows P (Rwp lut).
Proof.
  intros Er Eu Ep. exists (tracks true false). rewrite Er, Eu. split; [|split].
  - split; [intros _; reflexivity|discriminate].
  - intros y s Hy (T1 & _). split; [|discriminate]. intros E. rewrite (T1 E). unfold index. f_equal. lia.
  - intros x y s px Hx Hy K (T & _). rewrite Ep by assumption. destruct (wp_step x y (wpref (index x y)) Hx (wpref_ok _)) as (g & p & q & s' & E1 & E2 & _ & E4). rewrite (T eq_refl), E1, lut_total.
    exists (St q (grad9 s)), (St s' (grad9 s)). unfold Rwp, wpval. rewrite E1. split; [reflexivity|]. split; [unfold update_wp; cbn [wp grad9]; rewrite E2; reflexivity|]. split; [|discriminate]. intros _. cbn [wp]. rewrite wpref_next by lia. auto.
Qed.
Lemma wp_enc_follows lut : follows (wp_lut_enc_path hd lut w) (Rwp lut).
Proof.
  apply wp_follows; [reflexivity..|]. intros x y s px Hx Hy K. cbn [p_predict wp_lut_enc_path]. pose proof (neighbours_ref false px x y K Hx ltac:(lia) ltac:(discriminate)) as N. unfold neighbours in N. cbn [orb] in N. unfold wp_at.
  destruct (if 0 <? x then _ else _) as [a|]; [|discriminate]. destruct (if 0 <? y then px x (y - 1) else _) as [b|]; [|discriminate]. destruct (if (0 <? x) && (0 <? y) then _ else _) as [c|]; [|discriminate]. destruct (if (x + 1 <? w) && (0 <? y) then _ else _) as [d|]; [|discriminate].
  destruct (if 1 <? x then _ else _) as [e|]; [|discriminate]. destruct (if 1 <? y then _ else _) as [f|]; [|discriminate]. destruct (if (x + 2 <? w) && (0 <? y) then _ else _) as [g|]; [|discriminate]. apply Some_inj in N. rewrite <- N. reflexivity.
Qed.
Lemma wp_dec_follows lut : follows (wp_lut_dec_path hd lut w) (Rwp lut).
Proof.
  apply wp_follows; [reflexivity..|]. intros x y s px Hx Hy K. cbn [p_predict wp_lut_dec_path]. unfold ptr, wp_at, nbref. cbn [left top topleft topright toptop]. destruct (Z.eqb_spec x 0) as [->|].
  - change (0 <? 0) with false. cbn [andb]. destruct (Z.ltb_spec 0 y).
    + change (0 + 0) with 0. know K. rewrite !andb_true_r. destruct (Z.ltb_spec 1 y); know K; (change (0 + (0 + 1)) with (0 + 1)); (destruct (Z.ltb_spec (0 + 1) w); [know K|]); reflexivity.
    + rewrite !andb_false_r. replace (1 <? y) with false by lia. reflexivity.
  - replace (0 <? x) with true by lia. cbn [andb]. replace (0 + (x - 1)) with (x - 1) by lia. destruct (Z.ltb_spec 0 y).
    + rewrite !andb_true_r. replace (0 + x) with x by lia. replace (-1 + x) with (x - 1) by lia. replace (1 + x) with (x + 1) by lia. destruct (Z.ltb_spec (x + 1) w); destruct (Z.ltb_spec 1 y); repeat know K; reflexivity.
    + rewrite !andb_false_r. replace (1 <? y) with false by lia. replace (-1 + x) with (x - 1) by lia. know K. destruct (x + 1 <? w); reflexivity.
Qed.
End Paths.
