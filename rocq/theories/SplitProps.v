(** * C59: passes add up to the coefficients *)
From Coq Require Import ZArith List Bool Lia.
From Verif Require Import Base SplitModel SplitSpec.
Import ListNotations.
Local Open Scope Z_scope.
Ltac Zify.zify_post_hook ::= idtac.

Lemma round0_quot v s : is_i32 v -> 0 <= s -> round0 v s = Z.quot v (2 ^ s).
Proof.
  intros Hv Hs. unfold round0, is_i32 in *. cbv zeta.
  assert (Hp : 0 < 2 ^ s) by (apply Z.pow_pos_nonneg; lia).
  rewrite !Z.shiftr_div_pow2, Z.shiftl_mul_pow2 by lia. unfold w32.
  destruct (Z_lt_le_dec v 0) as [Hn|Hn].
  - replace (v mod 2 ^ 32) with (v + 2 ^ 32) by (apply (Z.mod_unique_pos v (2 ^ 32) (-1)); lia).
    replace ((v + 2 ^ 32) / 2 ^ 31) with 1 by (apply (Z.div_unique_pos _ _ _ (v + 2 ^ 31)); lia).
    replace v with (- (- v)) at 2 by lia. rewrite Z.quot_opp_l, Z.quot_div_nonneg by lia.
    pose proof (Z.div_mod (- v) (2 ^ s) ltac:(lia)) as Hd. pose proof (Z.mod_pos_bound (- v) (2 ^ s) Hp).
    symmetry. apply (Z.div_unique_pos _ _ _ (2 ^ s - 1 - (- v) mod 2 ^ s)); lia.
  - rewrite (Z.mod_small v) by lia. rewrite (Z.div_small v (2 ^ 31)) by lia.
    rewrite Z.quot_div_nonneg by lia. f_equal. lia.
Qed.

Lemma quot_refine v s t : 0 <= t <= s ->
  Z.quot v (2 ^ s) * 2 ^ s + Z.quot (v - Z.quot v (2 ^ s) * 2 ^ s) (2 ^ t) * 2 ^ t = Z.quot v (2 ^ t) * 2 ^ t.
Proof.
  intros H. assert (Hs : 0 < 2 ^ s) by (apply Z.pow_pos_nonneg; lia).
  assert (Ht : 0 < 2 ^ t) by (apply Z.pow_pos_nonneg; lia).
  pose proof (Z.quot_rem v (2 ^ s) ltac:(lia)) as Hqr.
  pose proof (Z.rem_sign_mul v (2 ^ s) ltac:(lia)) as Hsg.
  set (r := Z.rem v (2 ^ s)) in *. set (q := Z.quot v (2 ^ s)) in *.
  replace (v - q * 2 ^ s) with r by lia.
  assert (E : 2 ^ s = 2 ^ (s - t) * 2 ^ t) by (rewrite <- Z.pow_add_r by lia; f_equal; lia).
  assert (Ev : v = r + (q * 2 ^ (s - t)) * 2 ^ t) by (rewrite <- Z.mul_assoc, <- E; lia).
  assert (Hq : Z.quot v (2 ^ t) = Z.quot r (2 ^ t) + q * 2 ^ (s - t)).
  { rewrite Ev at 1. apply Z.quot_add; [lia|]. rewrite <- Ev. rewrite Z.mul_comm. exact Hsg. }
  rewrite Hq, E. ring.
Qed.

Lemma quot_between v s : 0 <= s -> let w := Z.quot v (2 ^ s) * 2 ^ s in
  (0 <= w <= v \/ v <= w <= 0) /\ Z.abs (v - w) < 2 ^ s.
Proof.
  intros Hs w. assert (Hp : 0 < 2 ^ s) by (apply Z.pow_pos_nonneg; lia).
  pose proof (Z.quot_rem v (2 ^ s) ltac:(lia)) as Hqr.
  destruct (Z_lt_le_dec v 0) as [Hn|Hn].
  - pose proof (Z.rem_bound_pos (- v) (2 ^ s) ltac:(lia) Hp) as Hb.
    rewrite Z.rem_opp_l in Hb by lia.
    assert (Z.quot v (2 ^ s) <= 0).
    { replace v with (- (- v)) by lia. rewrite Z.quot_opp_l by lia.
      pose proof (Z.quot_pos (- v) (2 ^ s) ltac:(lia) Hp). lia. }
    subst w. nia.
  - pose proof (Z.rem_bound_pos v (2 ^ s) Hn Hp) as Hb.
    pose proof (Z.quot_pos v (2 ^ s) Hn Hp). subst w. nia.
Qed.

Lemma quot_i32 v s : is_i32 v -> 0 <= s -> is_i32 (v - Z.quot v (2 ^ s) * 2 ^ s).
Proof. intros Hv Hs. destruct (quot_between v s Hs) as [H _]. unfold is_i32 in *. lia. Qed.

(** What the decoder has of a coefficient when the last pass was [n], [s] and [done] is complete *)
Definition known (X Y done n s : Z) (block : Z -> Z) (pos : Z) : Z :=
  if inside X Y 1 pos then 0
  else if inside X Y done pos then block pos
  else if inside X Y n pos then Z.quot (block pos) (2 ^ s) * 2 ^ s
  else 0.

Lemma inside_mono X Y a b pos : 0 < X -> 0 < Y -> a <= b -> inside X Y a pos = true -> inside X Y b pos = true.
Proof.
  unfold inside. intros HX HY Hab H. apply andb_prop in H. destruct H as [H1 H2].
  apply Z.ltb_lt in H1, H2. apply andb_true_intro. split; apply Z.ltb_lt; nia.
Qed.

Lemma step X Y block done n s p pos : 0 < X -> 0 < Y -> is_i32 (block pos) -> 1 <= done <= n -> 0 <= s ->
  (s = 0 -> done = n) -> 1 <= ncoef p <= 8 -> 0 <= pshift p ->
  ((s = 0 /\ n <= ncoef p) \/ (0 < s /\ ncoef p = n /\ pshift p < s)) ->
  known X Y done n s block pos + split_pass X Y block p done s pos * 2 ^ pshift p =
  known X Y (if pshift p =? 0 then ncoef p else done) (ncoef p) (pshift p) block pos.
Proof.
  intros HX HY Hv Hd Hs Hsd Hp Hps Hcase.
  unfold known, split_pass.
  destruct (inside X Y 1 pos) eqn:E1.
  { rewrite (inside_mono X Y 1 done) by (assumption || lia).
    destruct (inside X Y (ncoef p) pos); cbn [negb]; lia. }
  destruct (inside X Y done pos) eqn:E2.
  { assert (Hn : done <= ncoef p) by lia.
    rewrite (inside_mono X Y done (ncoef p)) by (assumption || lia). cbn [negb].
    destruct (pshift p =? 0); [rewrite (inside_mono X Y done (ncoef p)) by (assumption || lia) | rewrite E2]; lia. }
  destruct Hcase as [[-> Hn] | (Hs0 & Hn & Hlt)].
  - rewrite <- (Hsd eq_refl), E2. cbn [Z.eqb]. rewrite (round0_quot _ _ Hv Hps).
    destruct (inside X Y (ncoef p) pos) eqn:E3; cbn [negb].
    + destruct (pshift p =? 0) eqn:E4; [|rewrite E2; lia].
      apply Z.eqb_eq in E4. rewrite E3, E4. change (2 ^ 0) with 1. rewrite Z.quot_1_r. lia.
    + destruct (pshift p =? 0); rewrite ?E2, ?E3; lia.
  - rewrite Hn. destruct (inside X Y n pos) eqn:E3; cbn [negb].
    + replace (s =? 0) with false by lia. rewrite (round0_quot _ s Hv) by lia.
      rewrite round0_quot by (try apply quot_i32; auto; lia).
      rewrite quot_refine by lia.
      destruct (pshift p =? 0) eqn:E4; [|rewrite E2; reflexivity].
      apply Z.eqb_eq in E4. rewrite E3, E4. change (2 ^ 0) with 1. rewrite Z.quot_1_r. lia.
    + destruct (pshift p =? 0); rewrite ?E2, ?E3; lia.
Qed.

Lemma header_cons p q r : header_shifts (p :: q :: r) = pshift p :: header_shifts (q :: r).
Proof. reflexivity. Qed.

Lemma last_shift n s p r : refining n s (p :: r) -> header_shifts (p :: r) = map pshift (p :: r).
Proof.
  revert n s p. induction r as [|q r IH]; intros n s p H.
  - cbn in *. destruct H as (_ & _ & _ & _ & ->). reflexivity.
  - rewrite header_cons. cbn [refining] in H. destruct H as (_ & _ & _ & H).
    cbn [map]. f_equal. apply (IH _ _ _ H).
Qed.

(** The state (complete square, last pass) after some passes *)
Fixpoint after (done n s : Z) (ps : list pass) : Z * Z * Z :=
  match ps with
  | [] => (done, n, s)
  | p :: r => after (if pshift p =? 0 then ncoef p else done) (ncoef p) (pshift p) r
  end.

Lemma prefix X Y block pos : 0 < X -> 0 < Y -> is_i32 (block pos) ->
  forall ps rest done n s, 1 <= done <= n -> 0 <= s -> (s = 0 -> done = n) -> refining n s (ps ++ rest) ->
  let '(d', n', s') := after done n s ps in
  known X Y done n s block pos + add_up (map pshift ps) (split_passes X Y block (ps ++ rest) done s) pos =
  known X Y d' n' s' block pos /\ 1 <= d' <= n' /\ 0 <= s' /\ (s' = 0 -> d' = n') /\ refining n' s' rest.
Proof.
  intros HX HY Hv. induction ps as [|p ps IH]; intros rest done n s Hd Hs Hsd Hr.
  - cbn [after map add_up app]. split; [lia|]. auto.
  - cbn [app refining] in Hr. destruct Hr as (Hp & Hps & Hcase & Hr).
    assert (Hd' : 1 <= (if pshift p =? 0 then ncoef p else done) <= ncoef p) by (destruct (pshift p =? 0); lia).
    assert (Hz : pshift p = 0 -> (if pshift p =? 0 then ncoef p else done) = ncoef p) by (intros ->; reflexivity).
    pose proof (step X Y block done n s p pos HX HY Hv Hd Hs Hsd Hp Hps Hcase) as Hstep.
    specialize (IH rest _ _ _ Hd' Hps Hz Hr). cbn [after].
    destruct (after _ _ _ ps) as [[d' n'] s']. destruct IH as (IH & Hrest). split; [|exact Hrest].
    cbn [map app split_passes add_up]. rewrite Z.add_assoc, Hstep. exact IH.
Qed.

Lemma known_start X Y block pos : known X Y 1 1 0 block pos = 0.
Proof. unfold known. destruct (inside X Y 1 pos); reflexivity. Qed.

Lemma after_last n s ps p done : exists d', after done n s (ps ++ [p]) = (d', ncoef p, pshift p).
Proof.
  revert done n s. induction ps as [|q ps IH]; intros done n s; cbn [app after]; [eexists; reflexivity | apply IH].
Qed.

Lemma inside_spec X Y n pos : inside X Y n pos = true <-> in_square X Y n pos.
Proof. unfold inside, in_square, row, col. rewrite andb_true_iff, !Z.ltb_lt. tauto. Qed.

(** C59: for every mode with refining passes, every block and every coefficient of it, what
    the decoder adds up from all the passes is the coefficient; the lowest frequencies,
    which are coded elsewhere, are zero. *)
Theorem C59_all_passes : forall X Y ps block pos, 0 < X -> 0 < Y -> (2 <= length ps)%nat -> refining 1 0 ps ->
  is_i32 (block pos) -> 0 <= pos < X * Y * 64 ->
  (in_square X Y 1 pos -> add_up (header_shifts ps) (split X Y ps block) pos = 0) /\
  (~ in_square X Y 1 pos -> add_up (header_shifts ps) (split X Y ps block) pos = block pos).
Proof.
  intros X Y ps block pos HX HY Hl Hr Hv Hpos.
  destruct ps as [|p [|q r]]; cbn [length] in Hl; try lia.
  rewrite (last_shift 1 0 p (q :: r) Hr). unfold split.
  pose proof (prefix X Y block pos HX HY Hv (p :: q :: r) [] 1 1 0 ltac:(lia) ltac:(lia) ltac:(lia)) as H.
  rewrite app_nil_r in H. specialize (H Hr).
  destruct (after 1 1 0 (p :: q :: r)) as [[d n] s].
  rewrite known_start, Z.add_0_l in H. destruct H as (H & Hd & Hs & Hsd & Hn & Hs0).
  rewrite H. unfold known. split; intros Hq.
  - apply inside_spec in Hq. rewrite Hq. reflexivity.
  - destruct (inside X Y 1 pos) eqn:E1; [exfalso; apply Hq, inside_spec, E1|].
    rewrite (Hsd Hs0), Hn.
    assert (E8 : inside X Y 8 pos = true).
    { apply inside_spec. unfold in_square, row, col. split.
      - apply Z.mod_pos_bound. lia.
      - apply Z.div_lt_upper_bound; lia. }
    rewrite E8. reflexivity.
Qed.
Print Assumptions C59_all_passes.

(** Any prefix of the passes: a decoder that stops after a pass has values between zero and
    the coefficient, that miss it by less than the unit of this pass inside of the square of
    the pass, and zero outside of it. *)
Theorem C59_every_prefix : forall X Y ps p rest block pos, 0 < X -> 0 < Y -> (2 <= length (ps ++ p :: rest))%nat ->
  refining 1 0 (ps ++ p :: rest) -> is_i32 (block pos) ->
  let shown := add_up (map pshift (ps ++ [p])) (split X Y (ps ++ p :: rest) block) pos in
  (0 <= shown <= block pos \/ block pos <= shown <= 0) /\
  (~ in_square X Y 1 pos -> in_square X Y (ncoef p) pos -> Z.abs (block pos - shown) < 2 ^ pshift p) /\
  (~ in_square X Y (ncoef p) pos -> shown = 0).
Proof.
  intros X Y ps p rest block pos HX HY Hl Hr Hv shown.
  assert (Hsp : split X Y (ps ++ p :: rest) block = split_passes X Y block (ps ++ p :: rest) 1 0).
  { destruct (ps ++ p :: rest) as [|a [|b r]]; cbn [length] in Hl; try lia. reflexivity. }
  subst shown. rewrite Hsp.
  replace (ps ++ p :: rest) with ((ps ++ [p]) ++ rest) in * by (rewrite <- app_assoc; reflexivity).
  pose proof (prefix X Y block pos HX HY Hv (ps ++ [p]) rest 1 1 0 ltac:(lia) ltac:(lia) ltac:(lia) Hr) as H.
  destruct (after_last 1 0 ps p 1) as (d & E). rewrite E in H.
  rewrite known_start, Z.add_0_l in H. destruct H as (H & Hd & Hs & Hsd & _).
  rewrite H. unfold known.
  destruct (quot_between (block pos) (pshift p) Hs) as (Hb & Ha).
  assert (Hp : 0 < 2 ^ pshift p) by (apply Z.pow_pos_nonneg; lia).
  split; [|split].
  - destruct (inside X Y 1 pos); [lia|]. destruct (inside X Y d pos); [lia|].
    destruct (inside X Y (ncoef p) pos); [exact Hb | lia].
  - intros H1 Hn. rewrite <- inside_spec in H1, Hn. apply not_true_is_false in H1. rewrite H1, Hn.
    destruct (inside X Y d pos); [|exact Ha].
    replace (block pos - block pos) with 0 by lia. cbn [Z.abs]. exact Hp.
  - intros Hn. rewrite <- inside_spec in Hn. apply not_true_is_false in Hn.
    destruct (inside X Y 1 pos) eqn:E1; [reflexivity|].
    destruct (inside X Y d pos) eqn:E2; [|rewrite Hn; reflexivity].
    rewrite (inside_mono X Y d (ncoef p)) in Hn by (assumption || lia). discriminate.
Qed.
Print Assumptions C59_every_prefix.

(** The modes that the settings of the encoder choose: progressive, quantization-progressive
    (both refine) and the default with one pass, which is coded as it is. *)
Theorem C59_settings : refining 1 0 mode_progressive /\ refining 1 0 mode_qprogressive /\
  (forall X Y block pos, add_up (header_shifts mode_default) (split X Y mode_default block) pos = block pos).
Proof.
  split; [|split].
  - unfold mode_progressive. cbn. lia.
  - unfold mode_qprogressive. cbn. lia.
  - intros. cbn. lia.
Qed.
Print Assumptions C59_settings.

(** A block with a negative coefficient in quantization-progressive mode: -7 is -3 in the
    first pass (shown as -6) and -1 in the second. *)
Example C59_met :
  map (fun o => o 9) (split 1 1 mode_qprogressive (fun i => if i =? 9 then -7 else 0)) = [-3; -1] /\
  add_up (header_shifts mode_qprogressive) (split 1 1 mode_qprogressive (fun i => if i =? 9 then -7 else 0)) 9 = -7 /\
  refining 1 0 [Pass 2 0; Pass 8 3; Pass 8 1; Pass 8 0].
Proof. split; [reflexivity|]. split; [reflexivity|]. cbn. lia. Qed.

(** What the constructor of a mode asserts is not enough: if a pass with a shift is followed by
    one with more coefficients, the high bits of the new ones are lost. *)
Theorem C59_asserted_modes_refuted : ~ (forall ps block pos, asserted 1 0 ps = true ->
  Forall (fun p => 1 < ncoef p <= 8 /\ 0 <= pshift p <= 3) ps -> last ps (Pass 0 1) = Pass 8 0 ->
  is_i32 (block pos) -> 0 <= pos < 64 -> ~ in_square 1 1 1 pos ->
  add_up (header_shifts ps) (split 1 1 ps block) pos = block pos).
Proof.
  intros H. specialize (H [Pass 3 1; Pass 8 0] (fun _ => 5) 7 eq_refl).
  assert (E : add_up (header_shifts [Pass 3 1; Pass 8 0]) (split 1 1 [Pass 3 1; Pass 8 0] (fun _ => 5)) 7 = 1) by reflexivity.
  rewrite E in H. assert (1 = 5); [|lia]. apply H.
  - repeat constructor; cbn; lia.
  - reflexivity.
  - unfold is_i32. lia.
  - lia.
  - unfold in_square. intros [H1 _]. vm_compute in H1. discriminate.
Qed.
Print Assumptions C59_asserted_modes_refuted.
