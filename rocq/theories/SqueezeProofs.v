(* Proofs about squeeze: lines, channels and images. *)
From Verif Require Import Base ListAux SqueezeModel SqueezeSpec SqueezeStep.

(* ---- lines ---- *)
Lemma two_ind {A} (P : list A -> Prop) : P [] -> (forall a, P [a]) -> (forall a b l, P l -> P (a :: b :: l)) -> forall l, P l.
Proof.
  intros H0 H1 H2. assert (forall n l, (length l <= n)%nat -> P l) as K.
  { induction n as [|n IH]; intros [|a [|b l]] Hl; cbn in Hl; auto; try lia. apply H2, IH. lia. }
  intros l. exact (K (length l) l (le_n _)).
Qed.

Section LineShape.
Context {T : Type}.
Variable avg2 : T -> T -> option T.
Variable res : T -> T -> T -> T -> T -> option T.

Lemma line_length l : forall left avs rs, fwd_line avg2 res left l = Some (avs, rs) ->
  length avs = ((length l + 1) / 2)%nat /\ length rs = (length l - (length l + 1) / 2)%nat.
Proof.
  induction l as [|a|a b l IH] using two_ind; intros left avs rs E; cbn [fwd_line] in E.
  - injection E as <- <-. auto.
  - injection E as <- <-. auto.
  - destruct (avg2 a b) as [av|]; [|discriminate].
    destruct (match l with [] => _ | _ => _ end) as [nx|]; [|discriminate].
    destruct (res _ av nx a b); [|discriminate].
    destruct (fwd_line avg2 res (Some b) l) as [[avs' rs']|] eqn:El; [|discriminate].
    injection E as <- <-. apply IH in El as [E1 E2]. cbn [length]. rewrite E1, E2.
    replace (S (S (length l)) + 1)%nat with (length l + 1 + 1 * 2)%nat by lia. rewrite Nat.div_add by lia.
    assert (H : (2 * ((length l + 1) / 2) <= length l + 1)%nat) by (apply Nat.mul_div_le; lia).
    revert H. generalize ((length l + 1) / 2)%nat. clear. intros k H. split; lia.
Qed.

(* averages and residuals satisfy what single ones do *)
Lemma line_Forall (P Q R : T -> Prop) l :
  (forall a b v, P a -> P b -> avg2 a b = Some v -> Q v) -> (forall a, P a -> Q a) ->
  (forall left av nx a b r, (P left \/ left = av) -> (Q nx) -> P a -> P b -> avg2 a b = Some av -> res left av nx a b = Some r -> R r) ->
  forall left avs rs, Forall P l -> (forall v, left = Some v -> P v) ->
  fwd_line avg2 res left l = Some (avs, rs) -> Forall Q avs /\ Forall R rs.
Proof.
  intros HQ PQ HR. induction l as [|a|a b l IH] using two_ind; intros left avs rs Hl Hleft E; cbn [fwd_line] in E.
  - injection E as <- <-. auto.
  - injection E as <- <-. inversion Hl; subst. auto.
  - inversion Hl as [|? ? Ha Hl']; subst. inversion Hl' as [|? ? Hb Hr]; subst.
    destruct (avg2 a b) as [av|] eqn:Ea; [|discriminate].
    set (nx := match l with [] => Some av | [c] => Some c | c :: d :: _ => avg2 c d end) in E.
    destruct nx as [next|] eqn:En; [|discriminate]. subst nx.
    assert (Hnext : Q next).
    { destruct l as [|c [|d l]]; [injection En as <-; eauto|injection En as <-; inversion Hr; auto|].
      inversion Hr as [|? ? Hc Hr']; subst. inversion Hr'; subst. eauto. }
    destruct (res _ av next a b) as [r|] eqn:Er; [|discriminate].
    destruct (fwd_line avg2 res (Some b) l) as [[avs' rs']|] eqn:El; [|discriminate].
    injection E as <- <-. apply IH in El as [E1 E2]; [|exact Hr|intros v [= <-]; exact Hb].
    split; constructor; [exact (HQ _ _ _ Ha Hb Ea)|exact E1| |exact E2].
    apply (HR _ _ _ _ _ _) with (5 := Ea) (6 := Er); auto. destruct left; auto.
Qed.

Lemma line_succeeds (P Q : T -> Prop) l :
  (forall a b, P a -> P b -> exists v, avg2 a b = Some v /\ Q v) -> (forall a, P a -> Q a) ->
  (forall left av nx a b, (P left \/ left = av) -> Q nx -> P a -> P b -> avg2 a b = Some av -> exists r, res left av nx a b = Some r) ->
  forall left, Forall P l -> (forall v, left = Some v -> P v) ->
  exists p, fwd_line avg2 res left l = Some p.
Proof.
  intros HA PQ HR. induction l as [|a|a b l IH] using two_ind; intros left Hl Hleft; cbn [fwd_line]; eauto.
  inversion Hl as [|? ? Ha Hl']; subst. inversion Hl' as [|? ? Hb Hr]; subst.
  destruct (HA a b Ha Hb) as (av & Ea & Qa). rewrite Ea.
  assert (exists next, match l with [] => Some av | [c] => Some c | c :: d :: _ => avg2 c d end = Some next /\ Q next) as (next & -> & Qn).
  { destruct l as [|c [|d l]]; [eauto|inversion Hr; eauto|].
    inversion Hr as [|? ? Hc Hr']; subst. inversion Hr'; subst. eauto. }
  destruct (HR (match left with Some l => l | None => av end) av next a b) as (r & ->); auto.
  { destruct left; auto. }
  destruct (IH (Some b)) as ([avs rs] & ->); auto. { intros v [= <-]. exact Hb. } eauto.
Qed.
End LineShape.

Section LineProofs.
Context {T : Type}.
Variable avg2 : T -> T -> option T.
Variable res : T -> T -> T -> T -> T -> option T.
Variable unres : nat -> T -> T -> T -> T -> T * T.
Variable good : T -> Prop.
Hypothesis avg_good : forall a b v, good a -> good b -> avg2 a b = Some v -> good v.
Hypothesis pair_ok : forall x left next a b av r, good left -> good next -> good a -> good b ->
  avg2 a b = Some av -> res left av next a b = Some r -> unres x left av next r = (a, b).


Lemma line_lossless l : forall x left avs rs, Forall good l -> (forall v, left = Some v -> good v) ->
  fwd_line avg2 res left l = Some (avs, rs) -> inv_line unres x left avs rs = l.
Proof.
  induction l as [|a|a b l IH] using two_ind; intros x left avs rs Hl Hleft E; cbn in E.
  - injection E as <- <-. reflexivity.
  - injection E as <- <-. reflexivity.
  - inversion Hl as [|? ? Ha Hl']; subst. inversion Hl' as [|? ? Hb Hr]; subst.
    destruct (avg2 a b) as [av|] eqn:Ea; [|discriminate].
    pose proof (avg_good _ _ _ Ha Hb Ea) as Hav.
    set (nx := match l with [] => Some av | [c] => Some c | c :: d :: _ => avg2 c d end) in E.
    destruct nx as [next|] eqn:En; [|discriminate]. subst nx.
    assert (Hnext : good next).
    { destruct l as [|c [|d l]]; [congruence|injection En as <-; now inversion Hr|].
      inversion Hr as [|? ? Hc Hr']; subst. inversion Hr'; subst. eauto. }
    destruct (res _ av next a b) as [r|] eqn:Er; [|discriminate].
    destruct (fwd_line avg2 res (Some b) l) as [[avs' rs']|] eqn:El; [|discriminate].
    injection E as <- <-. cbn [inv_line].
    assert (Hn : (match avs' with n :: _ => n | [] => av end) = next).
    { destruct l as [|c [|d l]]; cbn in El.
      - injection El as <- <-. congruence.
      - injection El as <- <-. congruence.
      - rewrite En in El. destruct (match l with [] => _ | _ => _ end); [|discriminate].
        destruct (res b next t c d); [|discriminate]. destruct (fwd_line avg2 res (Some d) l) as [[? ?]|]; [|discriminate].
        now injection El as <- _. }
    rewrite Hn. rewrite (pair_ok x _ next a b av r) with (5 := Ea) (6 := Er) by (auto; destruct left; auto).
    f_equal. f_equal. apply IH; auto. intros v [= <-]. exact Hb.
Qed.

End LineProofs.

(* ---- rows as items ---- *)
Definition row_good (w : nat) (P : Z -> Prop) (r : list Z) : Prop := length r = w /\ Forall P r.

Lemma average_rows_good w (P : Z -> Prop) : (forall a b v, P a -> P b -> average a b = Some v -> P v) ->
  forall a b v, row_good w P a -> row_good w P b -> average_rows a b = Some v -> row_good w P v.
Proof.
  intros HP. induction w as [|w IH]; intros [|x a] [|y b] v [La Ha] [Lb Hb] E; cbn in *; try discriminate.
  - injection E as <-. split; auto.
  - destruct (average x y) as [u|] eqn:Eu; [|discriminate].
    destruct (average_rows a b) as [us|] eqn:Eus; [|discriminate]. injection E as <-.
    inversion Ha; inversion Hb; subst.
    destruct (IH a b us) as [L F]; [split; auto|split; auto|exact Eus|]. split; cbn; [congruence|]. constructor; eauto.
Qed.

Lemma average_rows_ok w (P Q : Z -> Prop) : (forall a b, P a -> P b -> exists v, average a b = Some v /\ Q v) ->
  forall a b, row_good w P a -> row_good w P b -> exists v, average_rows a b = Some v /\ row_good w Q v.
Proof.
  intros HP. induction w as [|w IH]; intros [|x a] [|y b] [La Ha] [Lb Hb]; cbn in *; try discriminate.
  - exists []. repeat split; auto.
  - inversion Ha; inversion Hb; subst. destruct (HP x y) as (u & -> & Qu); auto.
    destruct (IH a b) as (us & -> & Lu & Fu); [split; auto|split; auto|]. exists (u :: us). repeat split; cbn; auto.
Qed.

Lemma rows_pair_lossless w x left next a b av r :
  row_good w is_i32 left -> row_good w is_i32 next -> row_good w is_i32 a -> row_good w is_i32 b ->
  average_rows a b = Some av -> residual_rows left av next a b = Some r ->
  unsqueeze_rows (step_at (v_fast false w)) x left av next r = (a, b).
Proof.
  generalize w at 5. intros w0. revert x left next a b av r.
  induction w as [|w IH]; intros x [|l left] [|n next] [|p a] [|q b] av r [Ll Hl] [Ln Hn] [La Ha] [Lb Hb] Ea Er;
    cbn in Ll, Ln, La, Lb; try discriminate.
  - reflexivity.
  - cbn in Ea. destruct (average p q) as [u|] eqn:Eu; [|discriminate].
    destruct (average_rows a b) as [us|] eqn:Eus; [|discriminate]. injection Ea as <-.
    cbn in Er. destruct (residual l u n p q) as [d|] eqn:Ed; [|discriminate].
    destruct (residual_rows left us next a b) as [ds|] eqn:Eds; [|discriminate]. injection Er as <-.
    inversion Hl; inversion Hn; inversion Ha; inversion Hb; subst.
    cbn [unsqueeze_rows]. unfold step_at at 1. cbn [v_fast andb].
    rewrite (pair_lossless l n p q u d) by assumption.
    rewrite (IH (S x) left next a b us ds) by (try (split; auto); assumption). reflexivity.
Qed.

Lemma residual_rows_good w (P Q R : Z -> Prop) :
  (forall l v n a b r, (P l \/ l = v) -> Q n -> P a -> P b -> average a b = Some v -> residual l v n a b = Some r -> R r) ->
  forall left av next a b r, (row_good w P left \/ left = av) -> row_good w Q next -> row_good w P a -> row_good w P b ->
  average_rows a b = Some av -> residual_rows left av next a b = Some r -> row_good w R r.
Proof.
  intros H. induction w as [|w IH]; intros left av [|n next] [|p a] [|q b] r Hl [Ln Hn] [La Ha] [Lb Hb] Ea Er;
    cbn in Ln, La, Lb; try discriminate.
  - cbn in Ea. injection Ea as <-. destruct left; cbn in Er; injection Er as <-; split; auto.
  - cbn in Ea. destruct (average p q) as [u|] eqn:Eu; [|discriminate].
    destruct (average_rows a b) as [us|] eqn:Eus; [|discriminate]. injection Ea as <-.
    destruct left as [|l left]; [destruct Hl as [[? ?]|?]; discriminate|].
    cbn in Er. destruct (residual l u n p q) as [d|] eqn:Ed; [|discriminate].
    destruct (residual_rows left us next a b) as [ds|] eqn:Eds; [|discriminate]. injection Er as <-.
    inversion Hn; inversion Ha; inversion Hb; subst.
    destruct (IH left us next a b ds) as [L F]; try (split; auto); auto.
    { destruct Hl as [[Ll Hl]|[= -> ->]]; [left; inversion Hl; subst; split; auto|right; reflexivity]. }
    { cbn. congruence. }
    constructor; auto. eapply H with (5 := Eu) (6 := Ed); auto.
    destruct Hl as [[Ll Hl]|[= -> ->]]; [left; now inversion Hl|now right].
Qed.

Lemma residual_rows_ok w (P Q : Z -> Prop) :
  (forall l v n a b, (P l \/ l = v) -> Q n -> P a -> P b -> average a b = Some v -> exists r, residual l v n a b = Some r) ->
  forall left av next a b, (row_good w P left \/ left = av) -> row_good w Q next -> row_good w P a -> row_good w P b ->
  average_rows a b = Some av -> exists r, residual_rows left av next a b = Some r.
Proof.
  intros H. induction w as [|w IH]; intros left av [|n next] [|p a] [|q b] Hl [Ln Hn] [La Ha] [Lb Hb] Ea;
    cbn in Ln, La, Lb; try discriminate.
  - cbn in Ea. injection Ea as <-. destruct left; cbn; eauto.
  - cbn in Ea. destruct (average p q) as [u|] eqn:Eu; [|discriminate].
    destruct (average_rows a b) as [us|] eqn:Eus; [|discriminate]. injection Ea as <-.
    destruct left as [|l left]; [destruct Hl as [[? ?]|?]; discriminate|].
    inversion Hn; inversion Ha; inversion Hb; subst.
    cbn [residual_rows]. destruct (H l u n p q) as (d & ->); auto.
    { destruct Hl as [[Ll Hl]|[= -> ->]]; [left; now inversion Hl|now right]. }
    destruct (IH left us next a b) as (ds & ->); try (split; auto); auto; [|eauto].
    destruct Hl as [[Ll Hl]|[= -> ->]]; [left; inversion Hl; subst; split; auto|right; reflexivity].
Qed.

(* ---- channels ---- *)
Definition samples (P : Z -> Prop) (c : chan) : Prop := Forall (Forall P) (rows c).
Definition shape (c : chan) : Prop := length (rows c) = chh c /\ Forall (fun r => length r = cw c) (rows c).

Lemma mapM_Forall2 {A B} (f : A -> option B) l l' : mapM f l = Some l' -> Forall2 (fun a b => f a = Some b) l l'.
Proof.
  revert l'. induction l as [|a l IH]; cbn; intros l' E.
  - injection E as <-. constructor.
  - destruct (f a) eqn:Ea; [|discriminate]. destruct (mapM f l); [|discriminate]. injection E as <-. constructor; auto.
Qed.
Lemma mapM_ok {A B} (f : A -> option B) l : Forall (fun a => exists b, f a = Some b) l -> exists l', mapM f l = Some l'.
Proof. induction 1 as [|a l (b & Eb) _ (l' & E)]; cbn; eauto. rewrite Eb, E. eauto. Qed.
Lemma mapM_len {A B} (f : A -> option B) l l' : mapM f l = Some l' -> length l' = length l.
Proof. intros H%mapM_Forall2. symmetry. induction H; cbn; congruence. Qed.

Section Average.
Variables P R : Z -> Prop.
Hypothesis avgP : forall a b v, P a -> P b -> average a b = Some v -> P v.
Hypothesis resR : forall l v n a b r, P l -> P v -> P n -> P a -> P b -> average a b = Some v -> residual l v n a b = Some r -> R r.

Lemma resR' : forall l v n a b r, (P l \/ l = v) -> P n -> P a -> P b -> average a b = Some v -> residual l v n a b = Some r -> R r.
Proof.
  intros l v n a b r Hl Hn Ha Hb Ev. pose proof (avgP _ _ _ Ha Hb Ev) as Hv.
  assert (P l) by (destruct Hl; congruence). now apply (resR l v n a b r).
Qed.

Lemma fwd_h_shape c a r : shape c -> samples P c -> fwd_h c = Some (a, r) ->
  cw a = ((cw c + 1) / 2)%nat /\ chh a = chh c /\ cw r = (cw c - (cw c + 1) / 2)%nat /\ chh r = chh c /\
  shape a /\ shape r /\ samples P a /\ samples R r.
Proof.
  intros [S1 S2] HP E. unfold fwd_h in E. destruct (mapM _ (rows c)) as [lines|] eqn:El; [|discriminate].
  injection E as <- <-. cbn [cw chh]. repeat (split; [reflexivity|]).
  pose proof (mapM_len _ _ _ El) as Ln. apply mapM_Forall2 in El.
  assert (K : Forall (fun p => length (fst p) = ((cw c + 1) / 2)%nat /\ length (snd p) = (cw c - (cw c + 1) / 2)%nat /\
                               Forall P (fst p) /\ Forall R (snd p)) lines).
  { unfold samples in HP. revert S2 HP. clear S1 Ln. induction El as [|row [avs rs] l l' Er _ IH]; intros S2 HP; constructor.
    - inversion S2; inversion HP; subst. cbn [fst snd]. pose proof (line_length _ _ _ _ _ _ Er) as [L1 L2].
      destruct (line_Forall average residual P P R row) with (left := @None Z) (avs := avs) (rs := rs) as [F1 F2]; auto.
      { exact resR'. }
      { discriminate. }
      repeat split; auto; congruence.
    - inversion S2; inversion HP; subst. apply IH; auto. }
  assert (Ln' : length lines = chh c) by congruence.
  repeat split; unfold samples; cbn [rows cw chh]; rewrite ?map_length; auto;
    apply Forall_map; (eapply Forall_impl; [|exact K]); cbn; tauto.
Qed.

Lemma rows_good c : shape c -> samples P c -> Forall (row_good (cw c) P) (rows c).
Proof.
  intros [_ S2] HP. unfold samples in HP. induction (rows c); constructor; inversion S2; inversion HP; subst.
  - split; auto.
  - auto.
Qed.

Lemma fwd_v_shape c a r : shape c -> samples P c -> fwd_v c = Some (a, r) ->
  cw a = cw c /\ chh a = ((chh c + 1) / 2)%nat /\ cw r = cw c /\ chh r = (chh c - (chh c + 1) / 2)%nat /\
  shape a /\ shape r /\ samples P a /\ samples R r.
Proof.
  intros [S1 S2] HP E. unfold fwd_v in E. destruct (fwd_line _ _ None (rows c)) as [[avs rs]|] eqn:El; [|discriminate].
  injection E as <- <-. cbn [cw chh]. repeat (split; [reflexivity|]).
  pose proof (line_length _ _ _ _ _ _ El) as [L1 L2].
  destruct (line_Forall average_rows residual_rows (row_good (cw c) P) (row_good (cw c) P) (row_good (cw c) R) (rows c))
    with (left := @None (list Z)) (avs := avs) (rs := rs) as [F1 F2]; auto.
  { apply average_rows_good. exact avgP. }
  { apply residual_rows_good. exact resR'. }
  { apply rows_good; [split|]; auto. }
  { discriminate. }
  rewrite S1 in L1, L2. unfold shape, samples. cbn [rows cw chh].
  split; [|split; [|split]]; [split; [exact L1|]|split; [exact L2|]| |];
    first [eapply Forall_impl; [|exact F1]; unfold row_good; cbn; tauto|eapply Forall_impl; [|exact F2]; unfold row_good; cbn; tauto].
Qed.
End Average.

(* ---- lossless channels ---- *)
Lemma step_scalar f x : (forall y, f y = false) -> step_at f x = unsqueeze_scalar.
Proof. intros H. unfold step_at. now rewrite H. Qed.

Lemma map_combine_rows {A B C} (f : nat -> A -> B -> C) (g : list (A * B)) n k : length g = n ->
  map (fun '(y, (a, d)) => f y a d) (combine (seq k n) (combine (map fst g) (map snd g))) =
  map (fun '(y, (a, d)) => f y a d) (combine (seq k n) g).
Proof. intros _. do 2 f_equal. induction g as [|[a b] g IH]; cbn; congruence. Qed.

Lemma half_le n : (2 * ((n + 1) / 2) <= n + 1)%nat /\ (n <= 2 * ((n + 1) / 2))%nat.
Proof. pose proof (Nat.div_mod (n + 1) 2 ltac:(lia)). pose proof (Nat.mod_upper_bound (n + 1) 2 ltac:(lia)). lia. Qed.

Lemma lines_lossless F l l' : (forall y x, F y x = false) -> Forall (Forall is_i32) l ->
  Forall2 (fun a b => fwd_line average residual None a = Some b) l l' ->
  forall k, map (fun '(y, (a, d)) => inv_line (step_at (F y)) 0 None a d) (combine (seq k (length l)) l') = l.
Proof.
  intros HF HP El. induction El as [|row [avs rs] l l' Ep _ IH]; intros k; [reflexivity|]. inversion HP; subst.
  cbn [length seq combine map]. f_equal; auto.
  apply line_lossless with (avg2 := average) (res := residual) (good := is_i32); auto.
  - intros x y v Hx Hy Hv. exact (average_i32 _ _ _ Hv Hx Hy).
  - intros x left next p q av d. rewrite step_scalar by apply HF. apply pair_lossless.
  - discriminate.
Qed.

Lemma h_lossless c a r : chan_ok c -> fwd_h c = Some (a, r) -> inv_h false a r = Some c.
Proof.
  intros (S1 & S2 & HP) E.
  destruct (fwd_h_shape is_i32 (fun _ => True)) with (c := c) (a := a) (r := r) as (E1 & E2 & E3 & E4 & _);
    try (split; assumption); auto.
  { intros x y v Hx Hy Hv. exact (average_i32 _ _ _ Hv Hx Hy). }
  unfold inv_h. pose proof (half_le (cw c)) as [H1 H2].
  replace (cw a + cw r)%nat with (cw c) by lia. rewrite E1, Nat.eqb_refl, E2, E4, Nat.eqb_refl. cbn [negb].
  unfold fwd_h in E. destruct (mapM _ (rows c)) as [lines|] eqn:El; [|discriminate].
  injection E as Ea Er. pose proof (mapM_len _ _ _ El) as Ln. apply mapM_Forall2 in El.
  destruct (Nat.eqb_spec (cw r) 0) as [Z0|NZ].
  - assert (W : (cw c <= 1)%nat) by lia. destruct c as [w h rws]. cbn in *. subst a. do 2 f_equal.
    + clear - W. destruct w as [|[|w]]; [reflexivity|reflexivity|lia].
    + clear - S2 W El. induction El as [|row p l l' Ep _ IH]; [reflexivity|]. inversion S2; subst. cbn [map]. f_equal; auto.
      destruct row as [|x [|y row]]; cbn in *; [injection Ep as <-; reflexivity|injection Ep as <-; reflexivity|lia].
  - destruct c as [w h rws]. cbn [cw chh rows] in *. subst a r. cbn [rows cw chh] in *. do 2 f_equal.
    rewrite map_combine_rows by congruence. replace (seq 0 h) with (seq 0 (length rws)) by congruence.
    apply (lines_lossless (fun y => h_fast false _ h y)); auto.
Qed.

Lemma v_lossless c a r : chan_ok c -> fwd_v c = Some (a, r) -> inv_v false a r = Some c.
Proof.
  intros (S1 & S2 & HP) E.
  assert (A32 : forall x y v, is_i32 x -> is_i32 y -> average x y = Some v -> is_i32 v).
  { intros x y v Hx Hy Hv. exact (average_i32 _ _ _ Hv Hx Hy). }
  destruct (fwd_v_shape is_i32 (fun _ => True)) with (c := c) (a := a) (r := r) as (E1 & E2 & E3 & E4 & _);
    try (split; assumption); auto.
  unfold inv_v. pose proof (half_le (chh c)) as [H1 H2].
  replace (chh a + chh r)%nat with (chh c) by lia. rewrite E2, Nat.eqb_refl, E1, E3, Nat.eqb_refl. cbn [negb].
  unfold fwd_v in E. destruct (fwd_line _ _ None (rows c)) as [[avs rs]|] eqn:El; [|discriminate].
  injection E as Ea Er.
  destruct (Nat.eqb_spec (chh r) 0) as [Z0|NZ].
  - assert (W : (chh c <= 1)%nat) by lia. destruct c as [w h rws]. cbn in *. subst a. do 2 f_equal.
    + clear - W. destruct h as [|[|w]]; [reflexivity|reflexivity|lia].
    + destruct rws as [|x [|y rws]]; cbn in *; [injection El as <- _; reflexivity|injection El as <- _; reflexivity|lia].
  - destruct c as [w h rws]. cbn [cw chh rows] in *. subst a r. cbn [rows cw chh] in *. do 2 f_equal.
    apply line_lossless with (avg2 := average_rows) (res := residual_rows) (good := row_good w is_i32); auto.
    + apply average_rows_good. exact A32.
    + intros x left next p q av d. apply rows_pair_lossless.
    + apply (rows_good is_i32 (Chan w h rws)); [split|]; auto.
    + discriminate.
Qed.

(* ---- bounded samples ---- *)
Definition bounded (M : Z) (v : Z) : Prop := - M <= v <= M.

Lemma h_succeeds c M : shape c -> samples (bounded M) c -> M < 2 ^ 29 -> exists p, fwd_h c = Some p.
Proof.
  intros [S1 S2] HP HM. unfold fwd_h.
  destruct (mapM_ok (fwd_line average residual None) (rows c)) as (l' & ->); [|eauto].
  unfold samples in HP. eapply Forall_impl; [|exact HP]. intros row Hrow.
  apply line_succeeds with (P := bounded M) (Q := bounded M); auto.
  - intros a b Ha Hb. destruct (average_ok a b M Ha Hb HM) as (v & Ev). exists v. split; [exact Ev|]. exact (average_within _ _ _ _ Ev Ha Hb).
  - intros l v n a b Hl Hn Ha Hb Ev. pose proof (average_within _ _ _ M Ev Ha Hb) as Hv.
    destruct (residual_ok l v n a b M) as (r & Er & _); eauto. destruct Hl as [Hl| ->]; auto.
  - discriminate.
Qed.
Lemma v_succeeds c M : shape c -> samples (bounded M) c -> M < 2 ^ 29 -> exists p, fwd_v c = Some p.
Proof.
  intros [S1 S2] HP HM. unfold fwd_v.
  destruct (line_succeeds average_rows residual_rows (row_good (cw c) (bounded M)) (row_good (cw c) (bounded M)) (rows c))
    with (left := @None (list Z)) as ([avs rs] & ->); eauto.
  - apply average_rows_ok. intros a b Ha Hb. destruct (average_ok a b M Ha Hb HM) as (v & Ev). exists v. split; [exact Ev|]. exact (average_within _ _ _ _ Ev Ha Hb).
  - apply residual_rows_ok. intros l v n a b Hl Hn Ha Hb Ev. pose proof (average_within _ _ _ M Ev Ha Hb) as Hv.
    destruct (residual_ok l v n a b M) as (r & Er & _); eauto. destruct Hl as [Hl| ->]; auto.
  - apply rows_good; [split|]; auto.
  - discriminate.
Qed.

(* ---- the images ---- *)
Lemma insert_app {A} (p q : list A) x i : i = length p -> insert_at i x (p ++ q) = p ++ x :: q.
Proof. intros ->. unfold insert_at. now rewrite firstn_app, Nat.sub_diag, firstn_all, skipn_app, Nat.sub_diag, skipn_all, app_nil_r. Qed.
Lemma set_app {A} (p q : list A) x y i : i = length p -> set_at i x (p ++ y :: q) = p ++ x :: q.
Proof.
  intros ->. unfold set_at. rewrite firstn_app, Nat.sub_diag, firstn_all, skipn_app, skipn_all2 by lia.
  replace (S (length p) - length p)%nat with 1%nat by lia. cbn. now rewrite app_nil_r.
Qed.
Lemma nth_error_mid {A} (p q : list A) y i : i = length p -> nth_error (p ++ y :: q) i = Some y.
Proof. intros ->. rewrite nth_error_app2, Nat.sub_diag by lia. reflexivity. Qed.

Section Split.
Context {A : Type}.
Variable f : A -> option (A * A).
Fixpoint split_loop (offset beginc k c : nat) (l : list A) : option (list A) :=
  match k with
  | O => Some l
  | S k' =>
      do x <- nth_error l c;
      do (a, r) <- f x;
      split_loop offset beginc k' (S c) (insert_at (offset + c - beginc) r (set_at c a l))
  end.

Lemma split_loop_spec pre gap post todo : forall da dr offset,
  length da = length dr -> offset = (length pre + length da + length todo + length gap)%nat ->
  split_loop offset (length pre) (length todo) (length pre + length da) (pre ++ da ++ todo ++ gap ++ dr ++ post) =
  do ps <- mapM f todo; Some (pre ++ da ++ map fst ps ++ gap ++ dr ++ map snd ps ++ post).
Proof.
  induction todo as [|x todo IH]; intros da dr offset Hl Ho; cbn [length split_loop mapM map].
  - reflexivity.
  - rewrite app_assoc. cbn [app]. rewrite nth_error_mid by (rewrite app_length; reflexivity).
    destruct (f x) as [[a r]|]; [|reflexivity].
    rewrite set_app by (rewrite app_length; reflexivity).
    replace ((pre ++ da) ++ a :: todo ++ gap ++ dr ++ post) with ((pre ++ (da ++ [a]) ++ todo ++ gap ++ dr) ++ post).
    2: { rewrite <- !app_assoc. reflexivity. }
    rewrite insert_app.
    2: { rewrite !app_length. cbn [length] in *. lia. }
    replace ((pre ++ (da ++ [a]) ++ todo ++ gap ++ dr) ++ r :: post) with (pre ++ (da ++ [a]) ++ todo ++ gap ++ (dr ++ [r]) ++ post).
    2: { rewrite <- !app_assoc. reflexivity. }
    replace (S (length pre + length da)) with (length pre + length (da ++ [a]))%nat by (rewrite app_length; cbn; lia).
    rewrite IH; [|rewrite !app_length; cbn; lia|rewrite !app_length in *; cbn [length] in *; lia].
    destruct (mapM f todo) as [ps|]; [|reflexivity]. cbn [map fst snd]. rewrite <- !app_assoc. reflexivity.
Qed.
End Split.

Definition fwd_c (h : bool) (c : chan) : option (chan * chan) := if h then fwd_h c else fwd_v c.
Lemma fwd_loop_split h o b k : forall c l, fwd_loop h o b k c l = split_loop (fwd_c h) o b k c l.
Proof.
  induction k as [|k IH]; intros c l; cbn; [reflexivity|]. destruct (nth_error l c); [|reflexivity].
  unfold fwd_c at 1. destruct (if h then fwd_h c0 else fwd_v c0) as [[a r]|]; [|reflexivity]. apply IH.
Qed.
Definition meta_c (h : bool) (d : nat * nat) : option ((nat * nat) * (nat * nat)) :=
  let '(w, hh) := d in
  if (w =? 0)%nat || (hh =? 0)%nat then None
  else Some (if h then (((w + 1) / 2)%nat, hh) else (w, ((hh + 1) / 2)%nat),
             if h then ((w - (w + 1) / 2)%nat, hh) else (w, (hh - (hh + 1) / 2)%nat)).
Lemma meta_loop_split h o b k : forall c l, meta_loop h o b k c l = split_loop (meta_c h) o b k c l.
Proof.
  induction k as [|k IH]; intros c l; cbn [meta_loop split_loop]; [reflexivity|]. destruct (nth_error l c) as [[w hh]|]; [|reflexivity].
  unfold meta_c at 1. destruct ((w =? 0)%nat || (hh =? 0)%nat); [reflexivity|]. apply IH.
Qed.
Definition bound_c (b : Z) : option (Z * Z) := if b <? 2 ^ 29 then Some (b, 3 * b) else None.
Lemma bound_loop_split o b k : forall c l, bound_loop o b k c l = split_loop bound_c o b k c l.
Proof.
  induction k as [|k IH]; intros c l; cbn [bound_loop split_loop]; [reflexivity|]. destruct (nth_error l c) as [v|] eqn:E; [|reflexivity].
  unfold bound_c at 1. destruct (v <? 2 ^ 29); [|reflexivity]. rewrite IH. f_equal. f_equal.
  apply nth_error_split in E as (p & q & -> & <-). symmetry. now apply set_app.
Qed.

(* the inverse loop *)
Definition inv_c (simd h : bool) (a r : chan) : option chan :=
  if (cw a <? cw r)%nat || (chh a <? chh r)%nat then None else if h then inv_h simd a r else inv_v simd a r.
Lemma inv_loop_spec simd h pre gap post : forall os as_ rs done dr offset,
  Forall2 (fun o '(a, r) => inv_c simd h a r = Some o) os (combine as_ rs) -> length as_ = length rs -> length os = length rs ->
  length done = length dr -> offset = (length pre + length done + length as_ + length gap)%nat ->
  inv_loop simd h offset (length pre) (length as_) (length pre + length done) (pre ++ done ++ as_ ++ gap ++ dr ++ rs ++ post) =
  Some (pre ++ done ++ os ++ gap ++ dr ++ rs ++ post).
Proof.
  induction os as [|o os IH]; intros [|a as_] [|r rs] done dr offset HF L1 L2 L3 Ho; cbn in L1, L2; try discriminate.
  - cbn. reflexivity.
  - cbn [combine] in HF. inversion HF as [|? ? ? ? Hc HF']; subst. cbn [length inv_loop].
    rewrite app_assoc. cbn [app]. rewrite nth_error_mid by (rewrite app_length; reflexivity).
    replace ((pre ++ done) ++ a :: as_ ++ gap ++ dr ++ r :: rs ++ post) with ((pre ++ done ++ a :: as_ ++ gap ++ dr) ++ r :: rs ++ post).
    2: { rewrite <- !app_assoc. cbn [app]. rewrite <- !app_assoc. reflexivity. }
    rewrite nth_error_mid.
    2: { rewrite !app_length. cbn [length]. rewrite !app_length. lia. }
    unfold inv_c in Hc. destruct ((cw a <? cw r)%nat || (chh a <? chh r)%nat); [discriminate|]. rewrite Hc.
    replace ((pre ++ done ++ a :: as_ ++ gap ++ dr) ++ r :: rs ++ post) with ((pre ++ done) ++ a :: as_ ++ gap ++ dr ++ r :: rs ++ post).
    2: { rewrite <- !app_assoc. cbn [app]. rewrite <- !app_assoc. reflexivity. }
    rewrite set_app by (rewrite app_length; reflexivity).
    replace ((pre ++ done) ++ o :: as_ ++ gap ++ dr ++ r :: rs ++ post) with (pre ++ (done ++ [o]) ++ as_ ++ gap ++ (dr ++ [r]) ++ rs ++ post).
    2: { rewrite <- !app_assoc. reflexivity. }
    replace (S (length pre + length done)) with (length pre + length (done ++ [o]))%nat by (rewrite app_length; cbn; lia).
    rewrite (IH as_ rs (done ++ [o]) (dr ++ [r])); auto; rewrite ?app_length; cbn; try lia.
    rewrite <- !app_assoc. reflexivity.
Qed.

Definition step_offset (p : sq) (n : nat) : nat :=
  if in_place p then (Z.to_nat (begin_c p) + Z.to_nat (num_c p))%nat else n.

Lemma check_params_spec p n : sq_ok p -> check_params p n = true ->
  1 <= num_c p /\ begin_c p + num_c p <= Z.of_nat n.
Proof.
  intros [Hb Hn] H. unfold is_u32 in *. unfold check_params in H. apply negb_true_iff in H.
  rewrite !orb_false_iff in H. destruct H as ((((H1 & H2) & H3) & H4) & H5).
  apply Z.ltb_ge in H1, H3, H5. apply Z.leb_gt in H2, H4. unfold s32, w32 in *. lia.
Qed.
Lemma check_params_mono p n m : check_params p n = true -> (n <= m)%nat -> check_params p m = true.
Proof.
  unfold check_params. rewrite !negb_true_iff, !orb_false_iff, !Z.leb_gt, !Z.ltb_ge. intros ((((H1 & H2) & H3) & H4) & H5) H.
  repeat split; lia.
Qed.

Lemma step_parts {A} p (l : list A) : sq_ok p -> check_params p (length l) = true ->
  exists pre mid gap post, l = pre ++ mid ++ gap ++ post /\ length pre = Z.to_nat (begin_c p) /\
    length mid = Z.to_nat (num_c p) /\ (1 <= length mid)%nat /\
    step_offset p (length l) = (length pre + length mid + length gap)%nat /\
    (if in_place p then gap = [] else post = []).
Proof.
  intros Hp Hc. pose proof (check_params_spec _ _ Hp Hc) as [H1 H2]. destruct Hp as [Hb Hn]. unfold is_u32 in *.
  set (b := Z.to_nat (begin_c p)). set (n := Z.to_nat (num_c p)).
  assert (Hl : (b + n <= length l)%nat) by lia.
  exists (firstn b l), (firstn n (skipn b l)).
  exists (if in_place p then [] else skipn (b + n) l), (if in_place p then skipn (b + n) l else []).
  assert (L1 : length (firstn b l) = b) by (rewrite firstn_length; lia).
  assert (L2 : length (firstn n (skipn b l)) = n) by (rewrite firstn_length, skipn_length; lia).
  rewrite L1, L2. repeat split; try lia.
  - rewrite <- (firstn_skipn b l) at 1. f_equal. rewrite <- (firstn_skipn n (skipn b l)) at 1. f_equal.
    rewrite skipn_skipn. replace (n + b)%nat with (b + n)%nat by lia. destruct (in_place p); cbn; now rewrite ?app_nil_r.
  - unfold step_offset. fold b n. destruct (in_place p); cbn [length]; [lia|]. rewrite skipn_length. lia.
  - now destruct (in_place p).
Qed.

Lemma fwd_step_spec p pre mid gap post :
  check_params p (length (pre ++ mid ++ gap ++ post)) = true -> length pre = Z.to_nat (begin_c p) -> length mid = Z.to_nat (num_c p) ->
  step_offset p (length (pre ++ mid ++ gap ++ post)) = (length pre + length mid + length gap)%nat ->
  fwd_step p (pre ++ mid ++ gap ++ post) =
  do ps <- mapM (fwd_c (horizontal p)) mid; Some (pre ++ map fst ps ++ gap ++ map snd ps ++ post).
Proof.
  intros Hc L1 L2 Ho. unfold fwd_step. rewrite Hc. cbn [negb]. fold (step_offset p (length (pre ++ mid ++ gap ++ post))).
  rewrite fwd_loop_split, <- L1, <- L2. rewrite Ho.
  pose proof (split_loop_spec (fwd_c (horizontal p)) pre gap post mid [] [] (length pre + length mid + length gap)) as S.
  cbn [app length] in S. rewrite Nat.add_0_r in S. apply S; [reflexivity|lia].
Qed.

Lemma meta_step_spec p nm pre mid gap post r :
  length pre = Z.to_nat (begin_c p) -> length mid = Z.to_nat (num_c p) ->
  step_offset p (length (pre ++ mid ++ gap ++ post)) = (length pre + length mid + length gap)%nat ->
  meta_step p (nm, pre ++ mid ++ gap ++ post) = Some r ->
  exists nm' ps, r = (nm', pre ++ map fst ps ++ gap ++ map snd ps ++ post) /\ mapM (meta_c (horizontal p)) mid = Some ps /\
    nm' = (if (length pre <? nm)%nat then nm + length mid else nm)%nat /\
    ((length pre < nm)%nat -> (length pre + length mid - 1 < nm)%nat).
Proof.
  intros L1 L2 Ho E. unfold meta_step in E. destruct (negb (check_params _ _)); [discriminate|].
  fold (step_offset p (length (pre ++ mid ++ gap ++ post))) in E. rewrite meta_loop_split, <- L1, <- L2, Ho in E.
  pose proof (split_loop_spec (meta_c (horizontal p)) pre gap post mid [] [] (length pre + length mid + length gap)) as S.
  cbn [app length] in S. rewrite Nat.add_0_r in S. rewrite S in E by lia. clear S.
  destruct (Nat.ltb_spec (length pre) nm).
  - destruct (Nat.leb_spec nm (length pre + length mid - 1)); [discriminate|].
    destruct (in_place p); [|discriminate]. cbn [negb] in E.
    destruct (mapM _ mid) as [ps|] eqn:Em; [|discriminate]. injection E as <-. exists (nm + length mid)%nat, ps. repeat split; auto.
  - destruct (mapM _ mid) as [ps|] eqn:Em; [|discriminate]. injection E as <-. exists nm, ps. repeat split; auto. lia.
Qed.

Lemma inv_step_spec simd p nm pre mid gap post ps :
  sq_ok p -> check_params p (length (pre ++ mid ++ gap ++ post)) = true -> length pre = Z.to_nat (begin_c p) -> length mid = Z.to_nat (num_c p) ->
  (1 <= length mid)%nat ->
  step_offset p (length (pre ++ mid ++ gap ++ post)) = (length pre + length mid + length gap)%nat ->
  ((length pre < nm)%nat -> (length pre + length mid - 1 < nm)%nat) ->
  Forall2 (fun o '(a, r) => inv_c simd (horizontal p) a r = Some o) mid ps ->
  inv_step simd p ((if (length pre <? nm)%nat then nm + length mid else nm)%nat, pre ++ map fst ps ++ gap ++ map snd ps ++ post) =
  Some (nm, pre ++ mid ++ gap ++ post).
Proof.
  intros Hp Hc L1 L2 L3 Ho Hnm HF. unfold inv_step.
  assert (L4 : length ps = length mid) by (clear - HF; induction HF; cbn; congruence).
  rewrite (check_params_mono _ _ _ Hc) by (rewrite !app_length, !map_length; lia). cbn [negb].
  rewrite <- L1, <- L2.
  assert (Eo : (if in_place p then length pre + length mid
     else length (pre ++ map fst ps ++ gap ++ map snd ps ++ post) + length pre - (length pre + length mid - 1) - 1)%nat =
     (length pre + length mid + length gap)%nat).
  { unfold step_offset in Ho. rewrite <- L1, <- L2 in Ho. destruct (in_place p); [exact Ho|].
    rewrite !app_length in *. rewrite !map_length. lia. }
  rewrite Eo. 
  assert (En : (if (length pre <? (if (length pre <? nm)%nat then nm + length mid else nm))%nat
     then if (length mid <? (if (length pre <? nm)%nat then nm + length mid else nm))%nat
       then Some ((if (length pre <? nm)%nat then nm + length mid else nm) - length mid)%nat else None
     else Some (if (length pre <? nm)%nat then (nm + length mid)%nat else nm)) = Some nm).
  { destruct (Nat.ltb_spec (length pre) nm).
    - replace (length pre <? nm + length mid)%nat with true by (symmetry; apply Nat.ltb_lt; lia).
      replace (length mid <? nm + length mid)%nat with true by (symmetry; apply Nat.ltb_lt; lia). f_equal. lia.
    - replace (length pre <? nm)%nat with false by (symmetry; apply Nat.ltb_ge; lia). reflexivity. }
  rewrite En.
  pose proof (inv_loop_spec simd (horizontal p) pre gap post mid (map fst ps) (map snd ps) [] [] (length pre + length mid + length gap)%nat) as S.
  cbn [app length] in S. rewrite Nat.add_0_r, !map_length, L4 in S. rewrite S; clear S; auto.
  2: { replace (combine (map fst ps) (map snd ps)) with ps; [exact HF|]. clear. induction ps as [|[a b] ps IH]; cbn; congruence. }
  f_equal. f_equal.
  replace (pre ++ mid ++ gap ++ map snd ps ++ post) with ((pre ++ mid ++ gap) ++ map snd ps ++ post) by (rewrite <- !app_assoc; reflexivity).
  assert (L5 : length (pre ++ mid ++ gap) = (length pre + length mid + length gap)%nat) by (rewrite !app_length; lia).
  rewrite <- L5 at 1. rewrite firstn_app, Nat.sub_diag, firstn_all, firstn_O, app_nil_r.
  rewrite (app_assoc _ (map snd ps) post). rewrite (skipn_app _ ((pre ++ mid ++ gap) ++ map snd ps)), skipn_all2 by (rewrite app_length, map_length; lia).
  replace (_ + length mid - length ((pre ++ mid ++ gap) ++ map snd ps))%nat with 0%nat by (rewrite app_length, map_length; lia).
  cbn [app skipn]. rewrite <- !app_assoc. reflexivity.
Qed.

(* ---- what one channel does ---- *)
Lemma fwd_c_facts h c a r : chan_ok c -> fwd_c h c = Some (a, r) ->
  chan_ok a /\ chan_ok r /\ inv_c false h a r = Some c /\
  (forall d, meta_c h (dims c) = Some d -> d = (dims a, dims r)).
Proof.
  intros Hc E. pose proof Hc as (S1 & S2 & HP).
  assert (A32 : forall x y v, is_i32 x -> is_i32 y -> average x y = Some v -> is_i32 v).
  { intros x y v Hx Hy Hv. exact (average_i32 _ _ _ Hv Hx Hy). }
  assert (R32 : forall l v n x y r, is_i32 l -> is_i32 v -> is_i32 n -> is_i32 x -> is_i32 y -> average x y = Some v -> residual l v n x y = Some r -> is_i32 r).
  { intros l v n x y d _ _ _ _ _ _ Er. unfold residual in Er. destruct (int_ (x - y)); [|discriminate].
    apply int_some in Er as [-> H]. exact H. }
  assert (Hs : shape c) by (split; auto).
  destruct h; cbn [fwd_c] in E.
  - destruct (fwd_h_shape is_i32 is_i32 A32 R32 c a r Hs HP E) as (E1 & E2 & E3 & E4 & [Sa1 Sa2] & [Sr1 Sr2] & Pa & Pr).
    repeat split; auto.
    + unfold inv_c. pose proof (half_le (cw c)). rewrite E1, E2, E3, E4.
      replace (((cw c + 1) / 2 <? cw c - (cw c + 1) / 2)%nat) with false by (symmetry; apply Nat.ltb_ge; lia).
      rewrite Nat.ltb_irrefl. cbn [orb]. now apply h_lossless.
    + intros d. unfold dims. cbn [meta_c]. destruct (_ || _); [discriminate|]. rewrite E1, E2, E3, E4. now intros [= <-].
  - destruct (fwd_v_shape is_i32 is_i32 A32 R32 c a r Hs HP E) as (E1 & E2 & E3 & E4 & [Sa1 Sa2] & [Sr1 Sr2] & Pa & Pr).
    repeat split; auto.
    + unfold inv_c. pose proof (half_le (chh c)). rewrite E1, E2, E3, E4.
      replace (((chh c + 1) / 2 <? chh c - (chh c + 1) / 2)%nat) with false by (symmetry; apply Nat.ltb_ge; lia).
      rewrite Nat.ltb_irrefl. cbn [orb]. now apply v_lossless.
    + intros d. unfold dims. cbn [meta_c]. destruct (_ || _); [discriminate|]. rewrite E1, E2, E3, E4. now intros [= <-].
Qed.
