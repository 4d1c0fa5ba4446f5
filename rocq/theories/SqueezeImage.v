(* Squeeze of whole images: losslessness, ranges, and independence of the vector code. *)
From Verif Require Import Base ListAux SqueezeModel SqueezeSpec SqueezeStep SqueezeProofs.

Lemma Forall_app_parts {A} (P : A -> Prop) a b c d : Forall P (a ++ b ++ c ++ d) ->
  Forall P a /\ Forall P b /\ Forall P c /\ Forall P d.
Proof. rewrite !Forall_app. tauto. Qed.

Lemma mapM_map {A B C} (g : A -> B) (f : B -> option C) l : mapM f (map g l) = mapM (fun x => f (g x)) l.
Proof. induction l as [|a l IH]; cbn; [reflexivity|]. destruct (f (g a)); [|reflexivity]. now rewrite IH. Qed.

Lemma mid_part {A} (pre mid rest : list A) b n : length pre = b -> length mid = n -> firstn n (skipn b (pre ++ mid ++ rest)) = mid.
Proof.
  intros <- <-. rewrite skipn_app, skipn_all, Nat.sub_diag. cbn [app skipn]. rewrite firstn_app, Nat.sub_diag, firstn_all, firstn_O. apply app_nil_r.
Qed.

Lemma step_lossless simd p nm l nm' d' l' :
  sq_ok p -> Forall chan_ok l ->
  (forall c a r, In c (firstn (Z.to_nat (num_c p)) (skipn (Z.to_nat (begin_c p)) l)) -> fwd_c (horizontal p) c = Some (a, r) -> inv_c simd (horizontal p) a r = Some c) \/ simd = false ->
  meta_step p (nm, map dims l) = Some (nm', d') -> fwd_step p l = Some l' ->
  map dims l' = d' /\ Forall chan_ok l' /\ inv_step simd p (nm', l') = Some (nm, l).
Proof.
  intros Hp Hl Hs Em Ef.
  assert (Hc : check_params p (length l) = true).
  { unfold fwd_step in Ef. now destruct (check_params p (length l)). }
  destruct (step_parts p l Hp Hc) as (pre & mid & gap & post & -> & L1 & L2 & L3 & Ho & _).
  apply Forall_app_parts in Hl as (H1 & H2 & H3 & H4).
  rewrite fwd_step_spec in Ef by assumption. destruct (mapM (fwd_c _) mid) as [ps|] eqn:Eps; [|discriminate]. injection Ef as <-.
  rewrite !map_app in Em.
  apply meta_step_spec in Em; rewrite ?map_length, <- ?map_app, ?map_length; auto.
  destruct Em as (nm'' & qs & [= -> ->] & Eq & -> & Hnm). rewrite !map_length in *.
  rewrite mapM_map in Eq. apply mapM_Forall2 in Eps, Eq.
  assert (K : Forall (fun p => chan_ok (fst p) /\ chan_ok (snd p)) ps /\ qs = map (fun p => (dims (fst p), dims (snd p))) ps /\
    Forall2 (fun o '(a, r) => inv_c simd (horizontal p) a r = Some o) mid ps).
  { assert (Hs' : (forall c a r, In c mid -> fwd_c (horizontal p) c = Some (a, r) -> inv_c simd (horizontal p) a r = Some c) \/ simd = false).
    { destruct Hs as [Hs|Hs]; [left|right; exact Hs]. intros c a r Hin. apply Hs. now rewrite mid_part. }
    clear - H2 Eps Eq Hs'. revert qs Eq. induction Eps as [|c [a r] l l' Ec _ IH]; intros qs Eq; inversion Eq as [|? q ? qs' Eqc Eqs]; subst.
    - cbn. auto.
    - inversion H2; subst. destruct (fwd_c_facts _ _ _ _ H1 Ec) as (Ha & Hr & Hi & Hd).
      destruct (IH H3) with (qs := qs') as (K1 & -> & K3); auto.
      { destruct Hs' as [Hs'|Hs']; [left|right; exact Hs']. intros. apply Hs'; cbn; auto. }
      rewrite (Hd _ Eqc). cbn [map fst snd]. repeat split; auto. constructor; auto.
      destruct Hs' as [Hs'| ->]; [apply Hs'; cbn; auto|exact Hi]. }
  destruct K as (K1 & -> & K3). rewrite !map_app, !map_map. cbn [fst snd]. split; [reflexivity|]. split.
  - rewrite !Forall_app. repeat split; auto; apply Forall_map; (eapply Forall_impl; [|exact K1]); cbn; tauto.
  - now apply inv_step_spec.
Qed.

Lemma squeeze_lossless ps : forall nm l nm' d' l', Forall sq_ok ps -> Forall chan_ok l ->
  meta_squeeze ps (nm, map dims l) = Some (nm', d') -> fwd_squeeze ps l = Some l' ->
  map dims l' = d' /\ inv_squeeze false ps (nm', l') = Some (nm, l).
Proof.
  induction ps as [|p ps IH]; intros nm l nm' d' l' Hps Hl Em Ef.
  - cbn in *. injection Em as <- <-. injection Ef as <-. auto.
  - inversion Hps as [|? ? Hp Hps']; subst. cbn [meta_squeeze fwd_squeeze inv_squeeze] in *.
    destruct (meta_step p (nm, map dims l)) as [[nm1 d1]|] eqn:Em1; [|discriminate].
    destruct (fwd_step p l) as [l1|] eqn:Ef1; [|discriminate].
    destruct (step_lossless false p nm l nm1 d1 l1 Hp Hl (or_intror eq_refl) Em1 Ef1) as (<- & Hl1 & Ei).
    destruct (IH nm1 l1 nm' d' l' Hps' Hl1 Em Ef) as (E1 & ->). auto.
Qed.

(* ---- vector code ---- *)
Section Agree.
Context {T : Type}.
Variables u1 u2 : nat -> T -> T -> T -> T -> T * T.
Variables good rgood : T -> Prop.
Hypothesis agree : forall x l v n r, good l -> good v -> good n -> rgood r -> u1 x l v n r = u2 x l v n r.
Lemma line_agree rs : forall x left avs, (forall v, left = Some v -> good v) -> Forall good avs -> Forall rgood rs ->
  Forall good (inv_line u2 x left avs rs) -> inv_line u1 x left avs rs = inv_line u2 x left avs rs.
Proof.
  induction rs as [|r rs IH]; intros x left avs Hleft Ha Hr Ho; [destruct avs as [|? []]; reflexivity|].
  destruct avs as [|av avs]; [reflexivity|]. cbn [inv_line] in *.
  inversion Ha as [|? ? Hav Ha']; inversion Hr; subst.
  rewrite agree; auto.
  - destruct (u2 _ _ _ _ _) as [A B]. inversion Ho as [|? ? HA Ho']; inversion Ho'; subst. f_equal. f_equal.
    apply IH; auto. intros v [= <-]. auto.
  - destruct left; auto.
  - destruct avs; auto. now inversion Ha'.
Qed.
End Agree.

Definition near (v : Z) : Prop := - 2 ^ 29 < v < 2 ^ 29.
Definition rnear (v : Z) : Prop := - 3 * 2 ^ 29 <= v <= 3 * 2 ^ 29.

Lemma step_agree f g x l v n r : near l -> near v -> near n -> rnear r -> step_at f x l v n r = step_at g x l v n r.
Proof. intros H1 H2 H3 H4. unfold step_at. destruct (f x), (g x); auto; [|symmetry]; now apply simd_scalar. Qed.

Lemma rows_agree f g top : forall x avg next r, Forall near top -> Forall near avg -> Forall near next -> Forall rnear r ->
  unsqueeze_rows (step_at f) x top avg next r = unsqueeze_rows (step_at g) x top avg next r.
Proof.
  induction top as [|t top IH]; intros x avg next r H1 H2 H3 H4; [reflexivity|].
  destruct avg, next, r; try reflexivity. cbn [unsqueeze_rows]. inversion H1; inversion H2; inversion H3; inversion H4; subst.
  rewrite (step_agree f g) by assumption. now rewrite IH by assumption.
Qed.

Lemma inv_h_agree simd a r o : samples near a -> samples rnear r -> samples near o ->
  inv_h false a r = Some o -> inv_h simd a r = Some o.
Proof.
  intros Ha Hr Ho. unfold inv_h. destruct (negb _); [discriminate|]. destruct (negb _); [discriminate|].
  destruct (cw r =? 0)%nat; [auto|]. intros [= <-]. do 2 f_equal. unfold samples in *. cbn [rows] in Ho.
  revert Ha Hr Ho. generalize (seq 0 (chh a)). generalize (rows a) (rows r). clear. intros la lr.
  revert lr. induction la as [|ra la IH]; intros lr ys Ha Hr Ho; [destruct ys; reflexivity|].
  destruct lr as [|rr lr]; [destruct ys; reflexivity|]. destruct ys as [|y ys]; [reflexivity|].
  cbn [combine map] in *. inversion Ha; inversion Hr; inversion Ho; subst. f_equal; [|now apply IH].
  apply line_agree with (good := near) (rgood := rnear); auto.
  - intros. now apply step_agree.
  - discriminate.
Qed.
Lemma inv_v_agree simd a r o : samples near a -> samples rnear r -> samples near o ->
  inv_v false a r = Some o -> inv_v simd a r = Some o.
Proof.
  intros Ha Hr Ho. unfold inv_v. destruct (negb _); [discriminate|]. destruct (negb _); [discriminate|].
  destruct (chh r =? 0)%nat; [auto|]. intros [= <-]. do 2 f_equal.
  apply line_agree with (good := Forall near) (rgood := Forall rnear); auto.
  - intros. now apply rows_agree.
  - discriminate.
Qed.
Lemma inv_c_agree simd h a r o : samples near a -> samples rnear r -> samples near o ->
  inv_c false h a r = Some o -> inv_c simd h a r = Some o.
Proof.
  intros Ha Hr Ho. unfold inv_c. destruct (_ || _); [discriminate|].
  destruct h; [now apply inv_h_agree|now apply inv_v_agree].
Qed.

(* ---- bounds ---- *)
Lemma within_samples M c : within M c <-> samples (bounded M) c.
Proof. reflexivity. Qed.

Lemma samples_impl (P Q : Z -> Prop) c : (forall x, P x -> Q x) -> samples P c -> samples Q c.
Proof. intros H. unfold samples. apply Forall_impl. intros row. now apply Forall_impl. Qed.

Lemma fwd_c_bounds h c M : chan_ok c -> within M c -> M < 2 ^ 29 ->
  exists a r, fwd_c h c = Some (a, r) /\ within M a /\ within (3 * M) r /\
    forall simd, inv_c simd h a r = Some c.
Proof.
  intros Hc HM H29. pose proof Hc as (S1 & S2 & _). assert (Hs : shape c) by (split; auto).
  assert (exists p, fwd_c h c = Some p) as ([a r] & E).
  { destruct h; [now apply (h_succeeds c M)|now apply (v_succeeds c M)]. }
  assert (AM : forall x y v, bounded M x -> bounded M y -> average x y = Some v -> bounded M v).
  { intros x y v Hx Hy Hv. exact (average_within _ _ _ _ Hv Hx Hy). }
  assert (RM : forall l v n x y r, bounded M l -> bounded M v -> bounded M n -> bounded M x -> bounded M y -> average x y = Some v -> residual l v n x y = Some r -> bounded (3 * M) r).
  { intros l v n x y d Hl Hv Hn Hx Hy Ev Er. destruct (residual_ok l v n x y M Hl Hv Hn Hx Hy H29) as (d' & Ed & Hd). assert (d' = d) as <- by congruence. exact Hd. }
  assert (W : within M a /\ within (3 * M) r).
  { destruct h; cbn [fwd_c] in E; [apply (fwd_h_shape _ _ AM RM) in E|apply (fwd_v_shape _ _ AM RM) in E]; auto;
      destruct E as (_ & _ & _ & _ & _ & _ & Wa & Wr); auto. }
  exists a, r. destruct W as [Wa Wr]. repeat split; auto. intros simd.
  destruct (fwd_c_facts _ _ _ _ Hc E) as (_ & _ & Hi & _).
  assert (HN : forall x, bounded M x -> near x) by (unfold bounded, near; lia).
  assert (HR : forall x, bounded (3 * M) x -> rnear x) by (unfold bounded, rnear; lia).
  apply inv_c_agree; auto.
  - exact (samples_impl _ _ _ HN Wa).
  - exact (samples_impl _ _ _ HR Wr).
  - exact (samples_impl _ _ _ HN HM).
Qed.

Lemma Forall2_app_inv {A B} (R : A -> B -> Prop) a b l : Forall2 R l (a ++ b) -> exists x y, l = x ++ y /\ Forall2 R x a /\ Forall2 R y b.
Proof.
  intros H. apply Forall2_app_inv_r in H as (x & y & Hx & Hy & ->). eauto.
Qed.

Lemma step_bounds p bs l b' : sq_ok p -> Forall chan_ok l -> Forall2 within bs l -> check_params p (length l) = true ->
  bound_squeeze [p] bs = Some b' ->
  exists l', fwd_step p l = Some l' /\ Forall2 within b' l' /\
    forall simd c a r, In c (firstn (Z.to_nat (num_c p)) (skipn (Z.to_nat (begin_c p)) l)) -> fwd_c (horizontal p) c = Some (a, r) -> inv_c simd (horizontal p) a r = Some c.
Proof.
  intros Hp Hl Hb Hc Eb.
  destruct (step_parts p l Hp Hc) as (pre & mid & gap & post & -> & L1 & L2 & L3 & Ho & _).
  apply Forall2_app_inv in Hb as (bpre & b1 & -> & B1 & Hb). apply Forall2_app_inv in Hb as (bmid & b2 & -> & B2 & Hb).
  apply Forall2_app_inv in Hb as (bgap & bpost & -> & B3 & B4).
  assert (LL : forall x (y : list chan), Forall2 within x y -> length x = length y).
  { intros x y H. induction H; cbn; congruence. }
  pose proof (LL _ _ B1) as N1. pose proof (LL _ _ B2) as N2. pose proof (LL _ _ B3) as N3. pose proof (LL _ _ B4) as N4.
  cbn [bound_squeeze] in Eb. fold (step_offset p (length (bpre ++ bmid ++ bgap ++ bpost))) in Eb.
  replace (length (bpre ++ bmid ++ bgap ++ bpost)) with (length (pre ++ mid ++ gap ++ post)) in Eb by (rewrite !app_length; congruence).
  rewrite Ho, bound_loop_split in Eb. rewrite <- L1, <- L2, <- N1, <- N2, <- N3 in Eb.
  pose proof (split_loop_spec bound_c bpre bgap bpost bmid [] [] (length bpre + length bmid + length bgap)) as S.
  cbn [app length] in S. rewrite Nat.add_0_r in S. rewrite S in Eb by lia. clear S.
  destruct (mapM bound_c bmid) as [qs|] eqn:Eq; [|discriminate]. injection Eb as <-.
  apply Forall_app_parts in Hl as (H1 & H2 & H3 & H4). apply mapM_Forall2 in Eq.
  assert (K : exists ps, mapM (fwd_c (horizontal p)) mid = Some ps /\ Forall2 within (map fst qs) (map fst ps) /\
    Forall2 within (map snd qs) (map snd ps) /\ forall simd c a r, In c mid -> fwd_c (horizontal p) c = Some (a, r) -> inv_c simd (horizontal p) a r = Some c).
  { clear - H2 B2 Eq. revert qs Eq. induction B2 as [|b c bm md Hw _ IH]; intros qs Eq; inversion Eq as [|? q ? qs' Ec Eqs]; subst.
    - exists []. cbn. repeat split; auto. tauto.
    - inversion H2; subst. destruct (IH H3 qs' Eqs) as (ps & Eps & K1 & K2 & K3).
      unfold bound_c in Ec. destruct (Z.ltb_spec b (2 ^ 29)); [|discriminate]. injection Ec as <-.
      destruct (fwd_c_bounds (horizontal p) c b H1 Hw H) as (a & r & E & Wa & Wr & Hi).
      exists ((a, r) :: ps). cbn [mapM]. rewrite E, Eps. cbn [map fst snd]. repeat split; auto.
      intros simd c' a' r' [<-|Hin] E'; [|eauto]. rewrite E in E'. injection E' as <- <-. apply Hi. }
  destruct K as (ps & Eps & K1 & K2 & K3).
  exists (pre ++ map fst ps ++ gap ++ map snd ps ++ post). rewrite fwd_step_spec by assumption. rewrite Eps. split; [reflexivity|].
  split; [repeat apply Forall2_app; auto|]. rewrite mid_part by assumption. exact K3.
Qed.

Lemma squeeze_any_cpu ps : forall nm l nm' d' bs bs', Forall sq_ok ps -> Forall chan_ok l -> Forall2 within bs l ->
  meta_squeeze ps (nm, map dims l) = Some (nm', d') -> bound_squeeze ps bs = Some bs' ->
  exists l', fwd_squeeze ps l = Some l' /\ map dims l' = d' /\ Forall2 within bs' l' /\
    forall simd, inv_squeeze simd ps (nm', l') = Some (nm, l).
Proof.
  induction ps as [|p ps IH]; intros nm l nm' d' bs bs' Hps Hl Hb Em Eb.
  - cbn in *. injection Em as <- <-. injection Eb as <-. exists l. auto.
  - inversion Hps as [|? ? Hp Hps']; subst. cbn [meta_squeeze] in Em.
    destruct (meta_step p (nm, map dims l)) as [[nm1 d1]|] eqn:Em1; [|discriminate].
    assert (exists b1, bound_squeeze [p] bs = Some b1 /\ bound_squeeze ps b1 = Some bs') as (b1 & Eb1 & Eb2).
    { cbn [bound_squeeze] in *. destruct (bound_loop _ _ _ _ bs) as [b1|]; [eauto|discriminate]. }
    assert (Hc : check_params p (length l) = true).
    { unfold meta_step in Em1. rewrite map_length in Em1. now destruct (check_params p (length l)). }
    destruct (step_bounds p bs l b1 Hp Hl Hb Hc Eb1) as (l1 & Ef1 & Hb1 & Hi).
    assert (S : forall simd, map dims l1 = d1 /\ Forall chan_ok l1 /\ inv_step simd p (nm1, l1) = Some (nm, l)).
    { intros simd. apply step_lossless; auto. }
    destruct (S false) as (<- & Hl1 & _).
    destruct (IH nm1 l1 nm' d' b1 bs' Hps' Hl1 Hb1 Em Eb2) as (l' & Ef & E1 & Hb' & Ei).
    exists l'. cbn [fwd_squeeze inv_squeeze]. rewrite Ef1. repeat split; auto. intros simd. rewrite Ei. apply S.
Qed.

(* ---- decoding arbitrary streams ---- *)
Lemma Forall2_nth_set {A} (P : A -> Prop) l i x : Forall P l -> P x -> Forall P (set_at i x l).
Proof.
  intros Hl Hx. unfold set_at. apply Forall_app. split.
  - rewrite <- (firstn_skipn i l), Forall_app in Hl. tauto.
  - constructor; [exact Hx|]. rewrite <- (firstn_skipn (S i) l), Forall_app in Hl. tauto.
Qed.

Definition all_near (l : list chan) : Prop := Forall (samples near) l.

Lemma nth_error_set {A} i (x : A) l : (i < length l)%nat -> nth_error (set_at i x l) i = Some x.
Proof. intros H. unfold set_at. apply nth_error_mid. rewrite firstn_length. lia. Qed.
Lemma nth_error_set_other {A} i j (x : A) l : i <> j -> (i < length l)%nat -> nth_error (set_at i x l) j = nth_error l j.
Proof.
  intros Hij Hi. destruct (nth_error l i) as [y|] eqn:E; [|apply nth_error_None in E; lia].
  apply nth_error_split in E as (p & q & -> & <-). rewrite set_app by reflexivity.
  destruct (Nat.lt_ge_cases j (length p)).
  - now rewrite !nth_error_app1 by lia.
  - rewrite !nth_error_app2 by lia. destruct (j - length p)%nat eqn:E; [lia|]. reflexivity.
Qed.

Lemma inv_loop_keeps simd h offset b k : forall c l l', inv_loop simd h offset b k c l = Some l' ->
  length l' = length l /\ forall j, (j < c \/ c + k <= j)%nat -> nth_error l' j = nth_error l j.
Proof.
  induction k as [|k IH]; intros c l l' E; cbn [inv_loop] in E; [injection E as <-; auto|].
  destruct (nth_error l c) as [a|] eqn:Ea; [|discriminate]. destruct (nth_error l (offset + c - b)) as [r|]; [|discriminate].
  destruct (_ || _); [discriminate|]. destruct (if h then _ else _) as [o|]; [|discriminate].
  apply IH in E as [L F]. assert (Hc : (c < length l)%nat) by (apply nth_error_Some; congruence). split.
  - rewrite L. unfold set_at. rewrite app_length. cbn [length]. rewrite firstn_length, skipn_length. lia.
  - intros j Hj. rewrite F by lia. rewrite nth_error_set_other by lia. reflexivity.
Qed.

Lemma inv_loop_agree simd h offset b k : forall c l l', all_near l -> all_near l' ->
  inv_loop false h offset b k c l = Some l' -> inv_loop simd h offset b k c l = Some l'.
Proof.
  induction k as [|k IH]; intros c l l' Hl Hl' E; cbn [inv_loop] in *; [exact E|].
  destruct (nth_error l c) as [a|] eqn:Ea; [|discriminate]. destruct (nth_error l (offset + c - b)) as [r|] eqn:Er; [|discriminate].
  destruct (_ || _); [discriminate|]. destruct (if h then _ else _) as [o|] eqn:Eo; [|discriminate].
  assert (Hc : (c < length l)%nat) by (apply nth_error_Some; congruence).
  pose proof (inv_loop_keeps _ _ _ _ _ _ _ _ E) as [L F].
  assert (Ho : samples near o).
  { assert (In o l'). { apply nth_error_In with c. rewrite F by lia. apply nth_error_set. exact Hc. }
    unfold all_near in Hl'. rewrite Forall_forall in Hl'. auto. }
  unfold all_near in Hl. rewrite Forall_forall in Hl.
  assert (Ha : samples near a) by (apply Hl; eapply nth_error_In, Ea).
  assert (Hr : samples rnear r).
  { apply nth_error_In in Er. apply Hl in Er. unfold samples in *. eapply Forall_impl; [|exact Er]. intros row Hrow.
    eapply Forall_impl; [|exact Hrow]. unfold near, rnear. lia. }
  assert (Es : (if h then inv_h simd a r else inv_v simd a r) = Some o).
  { destruct h; [now apply inv_h_agree|now apply inv_v_agree]. }
  rewrite Es. apply IH; auto. apply Forall2_nth_set; auto. now apply Forall_forall.
Qed.

Lemma nth_error_firstn {A} (l : list A) : forall n i, (i < n)%nat -> nth_error (firstn n l) i = nth_error l i.
Proof. induction l as [|x l IH]; intros [|n] [|i] H; cbn; auto; try lia. apply IH. lia. Qed.
Lemma nth_error_skipn {A} n : forall (l : list A) i, nth_error (skipn n l) i = nth_error l (n + i).
Proof. induction n as [|n IH]; intros [|x l] i; cbn; auto. now destruct i. Qed.

Lemma inv_step_length simd p nm l nm' l' : sq_ok p -> inv_step simd p (nm, l) = Some (nm', l') ->
  (Z.to_nat (begin_c p) + 2 * Z.to_nat (num_c p) <= length l)%nat -> (length l' + Z.to_nat (num_c p) = length l)%nat.
Proof.
  intros Hp E H. unfold inv_step in E. destruct (check_params p (length l)) eqn:Hc; [|discriminate]. cbn [negb] in E.
  pose proof (check_params_spec _ _ Hp Hc) as [H1 H2]. destruct Hp as [Hb Hn]. unfold is_u32 in *.
  set (b := Z.to_nat (begin_c p)) in *. set (n := Z.to_nat (num_c p)) in *.
  destruct (if (b <? nm)%nat then _ else _); [|discriminate].
  destruct (inv_loop _ _ _ _ _ _ _) as [l1|] eqn:El; [|discriminate]. injection E as <- <-.
  apply inv_loop_keeps in El as [L _]. rewrite app_length, firstn_length, skipn_length. destruct (in_place p); lia.
Qed.

Lemma inv_step_agree simd p nm l nm' l' : sq_ok p -> all_near l -> all_near l' ->
  (Z.to_nat (begin_c p) + 2 * Z.to_nat (num_c p) <= length l)%nat ->
  inv_step false p (nm, l) = Some (nm', l') -> inv_step simd p (nm, l) = Some (nm', l').
Proof.
  intros Hp Hl Hl' Hroom E. unfold inv_step in *. destruct (check_params p (length l)) eqn:Hc; [|discriminate]. cbn [negb] in *.
  pose proof (check_params_spec _ _ Hp Hc) as [H1 H2]. destruct Hp as [Hb Hn]. unfold is_u32 in *.
  set (b := Z.to_nat (begin_c p)) in *. set (n := Z.to_nat (num_c p)) in *.
  destruct (if (b <? nm)%nat then _ else _) as [nm1|]; [|discriminate].
  set (off := if in_place p then (b + n)%nat else (length l + b - (b + n - 1) - 1)%nat) in *.
  assert (Hoff : (b + n <= off)%nat /\ (off + n <= length l)%nat) by (unfold off; destruct (in_place p); lia).
  destruct (inv_loop false _ _ _ _ _ _) as [l1|] eqn:El; [|discriminate]. injection E as <- <-.
  pose proof (inv_loop_keeps _ _ _ _ _ _ _ _ El) as [L F].
  assert (N1 : all_near l1).
  { unfold all_near in *. apply Forall_app in Hl' as [N1 N2]. rewrite Forall_forall in Hl. apply Forall_forall. intros c Hin.
    apply In_nth_error in Hin as (j & Ej).
    destruct (Nat.lt_ge_cases j off).
    - rewrite Forall_forall in N1. apply N1. apply nth_error_In with j. rewrite nth_error_firstn by lia. exact Ej.
    - destruct (Nat.lt_ge_cases j (off + n)).
      + apply Hl. apply nth_error_In with j. rewrite <- F by lia. exact Ej.
      + rewrite Forall_forall in N2. apply N2. apply nth_error_In with (j - (off + n))%nat. rewrite nth_error_skipn.
        replace (off + n + (j - (off + n)))%nat with j by lia. exact Ej. }
  rewrite (inv_loop_agree simd _ _ _ _ _ _ _ Hl N1 El). reflexivity.
Qed.

Lemma meta_step_length p nm d nm' d' : sq_ok p -> meta_step p (nm, d) = Some (nm', d') ->
  (length d' = length d + Z.to_nat (num_c p))%nat /\ (Z.to_nat (begin_c p) + Z.to_nat (num_c p) <= length d)%nat.
Proof.
  intros Hp E. assert (Hc : check_params p (length d) = true).
  { unfold meta_step in E. now destruct (check_params p (length d)). }
  pose proof (check_params_spec _ _ Hp Hc) as [H1 H2].
  destruct (step_parts p d Hp Hc) as (pre & mid & gap & post & -> & L1 & L2 & L3 & Ho & _).
  apply meta_step_spec in E as (nm1 & ps & [= -> ->] & Em & _); auto. apply mapM_len in Em.
  destruct Hp as [Hb Hn]. unfold is_u32 in *. rewrite !app_length in *. rewrite !map_length. lia.
Qed.

Lemma inv_squeeze_agree simd ps : forall nm0 d0 nm d l, Forall sq_ok ps ->
  meta_squeeze ps (nm0, d0) = Some (nm, d) -> length d = length l -> 
  (forall ps1 ps2 im, ps = ps1 ++ ps2 -> inv_squeeze false ps2 (nm, l) = Some im -> all_near (snd im)) ->
  forall nm' l', inv_squeeze false ps (nm, l) = Some (nm', l') ->
    length l' = length d0 /\ inv_squeeze simd ps (nm, l) = Some (nm', l').
Proof.
  induction ps as [|p ps IH]; intros nm0 d0 nm d l Hps Em Hlen Hall nm' l' E.
  - cbn in *. injection Em as <- <-. injection E as <- <-. auto.
  - inversion Hps as [|? ? Hp Hps']; subst. cbn [meta_squeeze] in Em. pose proof E as E0. cbn [inv_squeeze] in E |- *.
    destruct (meta_step p (nm0, d0)) as [[nm1 d1]|] eqn:Em1; [|discriminate].
    destruct (inv_squeeze false ps (nm, l)) as [[nm2 l2]|] eqn:Ei; [|discriminate].
    destruct (IH nm1 d1 nm d l Hps' Em Hlen) with (nm' := nm2) (l' := l2) as [L2 Es]; auto.
    { intros ps1 ps2 im -> . apply (Hall (p :: ps1) ps2). reflexivity. }
    apply meta_step_length in Em1 as [L3 L4]; [|exact Hp].
    pose proof (inv_step_length _ _ _ _ _ _ Hp E ltac:(lia)) as L5. split; [lia|].
    rewrite Es. apply inv_step_agree; auto; try lia.
    + apply (Hall [p] ps (nm2, l2)); auto.
    + apply (Hall [] (p :: ps) (nm', l')); auto.
Qed.

Lemma inv_any_stream simd ps nm0 d0 nm l nm' l' : Forall sq_ok ps ->
  meta_squeeze ps (nm0, d0) = Some (nm, map dims l) ->
  (forall ps1 ps2 im, ps = ps1 ++ ps2 -> inv_squeeze false ps2 (nm, l) = Some im -> Forall (within (2 ^ 29 - 1)) (snd im)) ->
  inv_squeeze false ps (nm, l) = Some (nm', l') -> inv_squeeze simd ps (nm, l) = Some (nm', l').
Proof.
  intros Hps Em Hall E. apply (inv_squeeze_agree simd ps nm0 d0 nm (map dims l) l); auto.
  - apply map_length.
  - intros ps1 ps2 im H1 H2. specialize (Hall _ _ _ H1 H2). unfold all_near. eapply Forall_impl; [|exact Hall].
    intros c. apply samples_impl. unfold near. lia.
Qed.

Lemma simd_scalar_differ : exists top avg next r, is_i32 top /\ is_i32 avg /\ is_i32 next /\ is_i32 r /\
  unsqueeze_simd top avg next r <> unsqueeze_scalar top avg next r.
Proof.
  exists 2000000000, 0, (-2000000000), 0. unfold is_i32. repeat split; try lia. vm_compute. discriminate.
Qed.
