(* The run-length code of code lengths. *)
From Verif Require Import Base ListAux Wrap BitProg BitProgProofs HuffTreeModel HuffSpec HuffSort HuffRoot.
Ltac Zify.zify_post_hook ::= idtac.

Definition weight (l : Z) : Z := if l =? 0 then 0 else 2 ^ (15 - l).
Definition kraft (ls : list Z) : Z := zsum (map weight ls).

Lemma weight_nonneg l : 0 <= weight l.
Proof. unfold weight. destruct (Z.eqb_spec l 0); [lia|]. apply Z.pow_nonneg. lia. Qed.
Lemma weight_pos l : 0 <= l <= 15 -> l <> 0 -> 0 < weight l.
Proof. intros H N. unfold weight. replace (l =? 0) with false by lia. apply Z.pow_pos_nonneg; lia. Qed.
Lemma kraft_nonneg ls : 0 <= kraft ls.
Proof. unfold kraft. induction ls as [|x ls IH]; cbn; [lia|]. pose proof (weight_nonneg x). unfold zsum in IH. lia. Qed.
Lemma kraft_cons x ls : kraft (x :: ls) = weight x + kraft ls.
Proof. reflexivity. Qed.
Lemma kraft_app a b : kraft (a ++ b) = kraft a + kraft b.
Proof. induction a as [|x a IH]; [reflexivity|]. cbn [app]. rewrite !kraft_cons, IH. lia. Qed.
Lemma kraft_repeat v n : kraft (repeat v n) = Z.of_nat n * weight v.
Proof. induction n as [|n IH]; [reflexivity|]. cbn [repeat]. rewrite kraft_cons, IH. lia. Qed.
Lemma kraft_rev ls : kraft (rev ls) = kraft ls.
Proof. induction ls as [|x ls IH]; [reflexivity|]. cbn [rev]. rewrite kraft_app, IH, !kraft_cons. unfold kraft. cbn. lia. Qed.

(* one code of the run-length code *)
Definition rle_apply (n : Z) (r : rle) (e : Z * Z) : option rle :=
  if fst e <? 16 then (if zlen (lens r) <? n then Some (rle_literal r (fst e)) else None) else rle_repeat n r (fst e) (snd e).
Fixpoint rle_run (n : Z) (r : rle) (es : list (Z * Z)) : option rle :=
  match es with
  | [] => Some r
  | e :: es' => do r' <- rle_apply n r e; rle_run n r' es'
  end.

Lemma rle_run_app n es1 : forall r es2, rle_run n r (es1 ++ es2) = do r' <- rle_run n r es1; rle_run n r' es2.
Proof.
  induction es1 as [|e es1 IH]; intros r es2; [reflexivity|]. cbn [app rle_run]. destruct (rle_apply n r e); [apply IH|reflexivity].
Qed.

Definition code_ok (e : Z * Z) : Prop := 0 <= fst e <= 17 /\ (fst e < 16 -> snd e = 0 /\ fst e <= 15) /\ (fst e = 16 -> 0 <= snd e < 4) /\ (fst e = 17 -> 0 <= snd e < 8).

(* what is known of the reader's variables *)
Definition rle_ok (n : Z) (r : rle) : Prop :=
  zlen (lens r) <= n /\ Forall (fun l => 0 <= l <= 15) (lens r) /\ 0 < prev_code_len r <= 15 /\
  (repeat_ r = 0 \/ 3 <= repeat_ r) /\ repeat_ r <= zlen (lens r) /\ 0 <= repeat_code_len r <= 15 /\ space r = 32768 - kraft (lens r).

Lemma rle_ok_init n : 0 <= n -> rle_ok n (Rle [] 8 0 0 32768).
Proof. intros. unfold rle_ok. cbn [lens prev_code_len repeat_ repeat_code_len space]. change (zlen (@nil Z)) with 0. change (kraft []) with 0. split; [lia|]. split; [constructor|]. lia. Qed.

Lemma shiftr_weight l : 1 <= l <= 15 -> Z.shiftr 32768 l = weight l.
Proof.
  intros H. rewrite Z.shiftr_div_pow2 by lia. unfold weight. replace (l =? 0) with false by lia.
  change 32768 with (2 ^ 15). replace (2 ^ 15) with (2 ^ (15 - l) * 2 ^ l). { apply Z.div_mul. apply Z.pow_nonzero; lia. }
  rewrite <- Z.pow_add_r by lia. f_equal. lia.
Qed.

Lemma Some_eq {A} (a b : A) : Some a = Some b -> a = b.
Proof. congruence. Qed.

Lemma zlen_repeat {A} (x : A) n : zlen (repeat x n) = Z.of_nat n.
Proof. unfold zlen. now rewrite repeat_length. Qed.

Lemma Forall_repeat {A} (P : A -> Prop) x n : P x -> Forall P (repeat x n).
Proof. intros H. induction n; constructor; assumption. Qed.

(* every accepted code adds at least one length *)
Lemma rle_apply_ok n r e r' : rle_ok n r -> code_ok e -> rle_apply n r e = Some r' ->
  rle_ok n r' /\ exists new, new <> [] /\ lens r' = new ++ lens r.
Proof.
  intros (H1 & H2 & H3 & H4 & H4' & H5 & H6) (C1 & C2 & C3 & C4). unfold rle_apply. destruct (Z.ltb_spec (fst e) 16) as [L|L].
  - destruct (Z.ltb_spec (zlen (lens r)) n) as [Ln|]; [|discriminate]. intros E. injection E as <-. destruct (C2 L) as (_ & C5).
    unfold rle_literal. destruct (Z.eqb_spec (fst e) 0) as [Z0|Z0].
    + split; [|exists [0]; split; [discriminate|reflexivity]]. unfold rle_ok. cbn [lens prev_code_len repeat_ repeat_code_len space].
      rewrite zlen_cons, kraft_cons. change (weight 0) with 0. split; [lia|]. split; [constructor; [lia|assumption]|]. pose proof (zlen_nonneg (lens r)). lia.
    + split; [|exists [fst e]; split; [discriminate|reflexivity]]. unfold rle_ok. cbn [lens prev_code_len repeat_ repeat_code_len space].
      rewrite zlen_cons, kraft_cons, shiftr_weight by lia. split; [lia|]. split; [constructor; [lia|assumption]|]. pose proof (zlen_nonneg (lens r)). lia.
  - unfold rle_repeat. set (new_len := if fst e =? 16 then prev_code_len r else 0).
    assert (Hnl : 0 <= new_len <= 15) by (unfold new_len; destruct (fst e =? 16); lia).
    set (old := if repeat_code_len r =? new_len then repeat_ r else 0).
    assert (Ho : old = 0 \/ 3 <= old <= zlen (lens r)) by (unfold old; destruct (repeat_code_len r =? new_len); lia).
    set (rp := (if 0 <? old then Z.shiftl (old - 2) (fst e - 14) else old) + (snd e + 3)).
    assert (He : 2 <= fst e - 14 <= 3 /\ 0 <= snd e) by lia. destruct He as (He & He').
    assert (Hrp : old + 3 <= rp).
    { unfold rp. destruct (Z.ltb_spec 0 old); [|lia]. rewrite Z.shiftl_mul_pow2 by lia.
      pose proof (Z.pow_le_mono_r 2 2 (fst e - 14) ltac:(lia) ltac:(lia)) as P. change (2 ^ 2) with 4 in P. nia. }
    destruct (Z.ltb_spec n (zlen (lens r) + (rp - old))) as [|Ln]; [discriminate|]. intros E. apply Some_eq in E. subst r'.
    split; [|exists (repeat new_len (Z.to_nat (rp - old))); split; [|reflexivity]].
    2: { intros E. apply (f_equal (@length Z)) in E. rewrite repeat_length in E. cbn in E. lia. }
    unfold rle_ok. cbn [lens prev_code_len repeat_ repeat_code_len space]. rewrite zlen_app, zlen_repeat, kraft_app, kraft_repeat, Z2Nat.id by lia.
    split; [lia|]. split; [apply Forall_app; split; [now apply Forall_repeat|assumption]|]. split; [lia|]. split; [lia|]. split; [lia|]. split; [lia|].
    unfold weight. destruct (Z.eqb_spec new_len 0); [lia|]. rewrite Z.shiftl_mul_pow2 by lia. lia.
Qed.

Lemma rle_run_ok n es : forall r r', rle_ok n r -> Forall code_ok es -> rle_run n r es = Some r' ->
  rle_ok n r' /\ exists new, zlen es <= zlen new /\ lens r' = new ++ lens r.
Proof.
  induction es as [|e es IH]; intros r r' Hok Hes E.
  - injection E as <-. split; [assumption|]. exists []. split; [reflexivity|reflexivity].
  - inversion Hes as [|? ? He Hes']; subst. cbn [rle_run] in E. destruct (rle_apply n r e) as [r1|] eqn:E1; [|discriminate].
    destruct (rle_apply_ok n r e r1 Hok He E1) as (Hok1 & new1 & N1 & L1). destruct (IH r1 r' Hok1 Hes' E) as (Hok' & new & N & L).
    split; [assumption|]. exists (new ++ new1). rewrite zlen_app, zlen_cons, L, L1, app_assoc. split; [|reflexivity].
    destruct new1; [contradiction|]. rewrite zlen_cons. pose proof (zlen_nonneg new1). lia.
Qed.

(* ---- the digits of a repetition count ---- *)

(* the reader's state after [k] more lengths [v], all of them repetitions *)
Definition after_rep (r : rle) (v k : Z) : rle :=
  Rle (repeat v (Z.to_nat k) ++ lens r) (prev_code_len r) k v (space r - k * weight v).

Definition fresh (r : rle) (v : Z) : Prop := repeat_ r = 0 \/ repeat_code_len r <> v.

Lemma rep_step n r v k nbits code x : 2 <= nbits -> code = 14 + nbits -> (if code =? 16 then v = prev_code_len r else v = 0) ->
  0 <= v <= 15 -> 0 <= k -> 0 <= x -> let k' := 2 ^ nbits * (k + 1) + x in zlen (lens r) + k' + 3 <= n ->
  rle_apply n (after_rep r v (k + 3)) (code, x) = Some (after_rep r v (k' + 3)).
Proof.
  intros Hb Hcode Hv Hv15 Hk Hx k' Hn. unfold rle_apply. cbn [fst snd]. replace (code <? 16) with false by lia.
  unfold rle_repeat. cbn [after_rep lens prev_code_len repeat_ repeat_code_len space].
  replace (if code =? 16 then prev_code_len r else 0) with v by (destruct (code =? 16); congruence).
  rewrite Z.eqb_refl. replace (0 <? k + 3) with true by lia. rewrite Z.shiftl_mul_pow2 by lia.
  replace (code - 14) with nbits by lia. replace ((k + 3 - 2) * 2 ^ nbits + (x + 3)) with (k' + 3) by (unfold k'; lia).
  pose proof (Z.pow_le_mono_r 2 2 nbits ltac:(lia) ltac:(lia)) as P4. change (2 ^ 2) with 4 in P4.
  assert (Hkk : k <= k') by (unfold k'; nia).
  rewrite zlen_app, zlen_repeat, Z2Nat.id by lia. replace (n <? k + 3 + zlen (lens r) + (k' + 3 - (k + 3))) with false by lia.
  f_equal. unfold after_rep. f_equal.
  - rewrite app_assoc, <- repeat_app. do 2 f_equal. lia.
  - unfold weight. destruct (Z.eqb_spec v 0) as [->|N]; [lia|]. rewrite Z.shiftl_mul_pow2 by lia. lia.
Qed.

Lemma rep_first n r v nbits code x : 2 <= nbits -> code = 14 + nbits -> (if code =? 16 then v = prev_code_len r else v = 0) ->
  0 <= v <= 15 -> fresh r v -> 0 <= x -> zlen (lens r) + x + 3 <= n ->
  rle_apply n r (code, x) = Some (after_rep r v (x + 3)).
Proof.
  intros Hb Hcode Hv Hv15 Hf Hx Hn. unfold rle_apply. cbn [fst snd]. replace (code <? 16) with false by lia.
  unfold rle_repeat. replace (if code =? 16 then prev_code_len r else 0) with v by (destruct (code =? 16); congruence).
  replace (if repeat_code_len r =? v then repeat_ r else 0) with 0.
  2: { destruct (Z.eqb_spec (repeat_code_len r) v); [|reflexivity]. destruct Hf; congruence. }
  cbn [Z.ltb Z.compare]. rewrite Z.add_0_l, Z.sub_0_r. replace (n <? zlen (lens r) + (x + 3)) with false by lia.
  f_equal. unfold after_rep. f_equal. unfold weight. destruct (Z.eqb_spec v 0) as [->|N]; [lia|]. rewrite Z.shiftl_mul_pow2 by lia. lia.
Qed.

Lemma rep_codes_ok code nbits v n r : 2 <= nbits -> code = 14 + nbits -> (if code =? 16 then v = prev_code_len r else v = 0) -> 0 <= v <= 15 -> fresh r v ->
  forall fuel reps, 0 <= reps < 2 ^ Z.of_nat fuel -> zlen (lens r) + reps + 3 <= n ->
  exists ds, rep_codes (S fuel) code nbits reps = Some ds /\ Forall (fun e => fst e = code /\ 0 <= snd e < 2 ^ nbits) ds /\
    zlen ds <= reps + 1 /\ rle_run n r (rev ds) = Some (after_rep r v (reps + 3)).
Proof.
  intros Hb Hcode Hv Hv15 Hf. pose proof (Z.pow_le_mono_r 2 2 nbits ltac:(lia) ltac:(lia)) as P4. change (2 ^ 2) with 4 in P4.
  assert (Hland : forall reps, Z.land reps (Z.shiftl 1 nbits - 1) = reps mod 2 ^ nbits).
  { intros. rewrite Z.shiftl_mul_pow2, Z.mul_1_l by lia. replace (2 ^ nbits - 1) with (Z.ones nbits) by (rewrite Z.ones_equiv; lia). apply Z.land_ones. lia. }
  induction fuel as [|fuel IH]; intros reps Hr Hn.
  - change (2 ^ Z.of_nat 0) with 1 in Hr. assert (reps = 0) by lia. subst reps. cbn [rep_codes]. rewrite Z.shiftr_0_l. cbn [Z.eqb].
    eexists. split; [reflexivity|]. rewrite Hland. rewrite Z.mod_0_l by lia. split; [constructor; [cbn; lia|constructor]|].
    split; [reflexivity|]. cbn [rev app rle_run]. rewrite (rep_first n r v nbits) by (assumption || lia). reflexivity.
  - replace (Z.of_nat (S fuel)) with (Z.of_nat fuel + 1) in Hr by lia. rewrite Z.pow_add_r in Hr by lia. change (2 ^ 1) with 2 in Hr.
    set (fu := S fuel) in *. cbn [rep_codes]. rewrite Hland, Z.shiftr_div_pow2 by lia.
    pose proof (Z.div_mod reps (2 ^ nbits) ltac:(lia)) as Hd. pose proof (Z.mod_pos_bound reps (2 ^ nbits) ltac:(lia)) as Hm.
    pose proof (Z.div_pos reps (2 ^ nbits) ltac:(lia) ltac:(lia)) as Hq.
    destruct (Z.eqb_spec (reps / 2 ^ nbits) 0) as [Q0|Q0].
    + eexists. split; [reflexivity|]. split; [constructor; [cbn; lia|constructor]|]. split; [change (zlen [(code, reps mod 2 ^ nbits)]) with 1; lia|].
      cbn [rev app rle_run]. assert (Er : reps mod 2 ^ nbits = reps) by nia. rewrite Er. rewrite (rep_first n r v nbits) by (assumption || lia). reflexivity.
    + destruct (IH (reps / 2 ^ nbits - 1)) as (ds & E & F & Hz & Hrun); [nia|nia|].
      rewrite E. eexists. split; [reflexivity|]. split; [constructor; [cbn; lia|assumption]|]. split; [rewrite zlen_cons; nia|].
      cbn [rev]. rewrite rle_run_app, Hrun. cbn [rle_run].
      rewrite (rep_step n r v _ nbits) by (assumption || nia).
      do 3 f_equal. lia.
Qed.

(* the state after a run of [k] lengths [v]; the last code may have been a literal *)
Definition after_run (r : rle) (v k : Z) (r' : rle) : Prop :=
  lens r' = repeat v (Z.to_nat k) ++ lens r /\ prev_code_len r' = (if v =? 0 then prev_code_len r else v) /\
  space r' = space r - k * weight v /\ (repeat_ r' = 0 \/ repeat_code_len r' = v).

Lemma after_run_trans r v k1 k2 r1 r2 : 0 <= k1 -> 0 <= k2 -> after_run r v k1 r1 -> after_run r1 v k2 r2 -> after_run r v (k1 + k2) r2.
Proof.
  intros H1 H2 (L1 & P1 & S1 & _) (L2 & P2 & S2 & R2). split; [|split; [|split]].
  - rewrite L2, L1, app_assoc, <- repeat_app. do 2 f_equal. lia.
  - rewrite P2, P1. destruct (v =? 0); reflexivity.
  - rewrite S2, S1. lia.
  - exact R2.
Qed.

Lemma literal_run n r v : 0 <= v <= 15 -> zlen (lens r) + 1 <= n ->
  exists r', rle_apply n r (v, 0) = Some r' /\ after_run r v 1 r' /\ repeat_ r' = 0.
Proof.
  intros Hv Hn. unfold rle_apply. cbn [fst snd]. replace (v <? 16) with true by lia. replace (zlen (lens r) <? n) with true by lia.
  eexists. split; [reflexivity|]. unfold rle_literal, after_run. destruct (Z.eqb_spec v 0) as [->|N]; cbn [lens prev_code_len repeat_ repeat_code_len space].
  - change (weight 0) with 0. change (Z.to_nat 1) with 1%nat. cbn [repeat app]. split; [|reflexivity]. split; [reflexivity|]. split; [reflexivity|]. split; [lia|]. now left.
  - rewrite shiftr_weight by lia. change (Z.to_nat 1) with 1%nat. cbn [repeat app]. split; [|reflexivity]. split; [reflexivity|]. split; [reflexivity|]. split; [lia|]. now left.
Qed.

Lemma after_run_0 r v : (v = 0 \/ v = prev_code_len r) -> (repeat_ r = 0 \/ repeat_code_len r = v) -> after_run r v 0 r.
Proof.
  intros Hv Hr. split; [reflexivity|]. split. { destruct (Z.eqb_spec v 0); [reflexivity|]. lia. } split; [lia|exact Hr].
Qed.

Lemma literals_run n v : 0 <= v <= 15 -> forall k r, (v = 0 \/ v = prev_code_len r) -> (repeat_ r = 0 \/ repeat_code_len r = v \/ (0 < k)%nat) -> zlen (lens r) + Z.of_nat k <= n ->
  exists r', rle_run n r (repeat (v, 0) k) = Some r' /\ after_run r v (Z.of_nat k) r'.
Proof.
  intros Hv. induction k as [|k IH]; intros r Hp Hr Hn.
  - exists r. split; [reflexivity|]. apply after_run_0; [assumption|]. lia.
  - destruct (literal_run n r v Hv ltac:(lia)) as (r1 & E & A & R). cbn [repeat rle_run]. rewrite E.
    assert (L1 : zlen (lens r1) = zlen (lens r) + 1). { destruct A as (-> & _). rewrite zlen_app, zlen_repeat. lia. }
    destruct (IH r1) as (r' & E' & A'); [|now left|lia|].
    { destruct A as (_ & -> & _). destruct (Z.eqb_spec v 0); [now left|now right]. }
    exists r'. split; [assumption|]. replace (Z.of_nat (S k)) with (1 + Z.of_nat k) by lia. eapply after_run_trans; eauto; lia.
Qed.

Lemma after_rep_run r v k : (v = 0 \/ v = prev_code_len r) -> after_run r v k (after_rep r v k).
Proof.
  intros Hv. unfold after_rep, after_run. cbn [lens prev_code_len repeat_ repeat_code_len space].
  split; [reflexivity|]. split; [destruct (Z.eqb_spec v 0); lia|]. split; [reflexivity|]. now right.
Qed.

Lemma codes_ok_repeat v k : 0 <= v <= 15 -> Forall code_ok (repeat (v, 0) k).
Proof. intros H. apply Forall_repeat. unfold code_ok. cbn. lia. Qed.

Lemma codes_ok_rep code nbits ds : 2 <= nbits <= 3 -> code = 14 + nbits -> Forall (fun e => fst e = code /\ 0 <= snd e < 2 ^ nbits) ds -> Forall code_ok (rev ds).
Proof.
  intros Hn Hc F. apply Forall_rev. revert F. apply Forall_impl. intros (a & b). cbn [fst snd]. intros (-> & H). unfold code_ok. cbn [fst snd].
  assert (nbits = 2 \/ nbits = 3) as [->| ->] by lia; [change (2 ^ 2) with 4 in *|change (2 ^ 3) with 8 in *]; lia.
Qed.

Lemma zlen_rev {A} (l : list A) : zlen (rev l) = zlen l.
Proof. unfold zlen. now rewrite rev_length. Qed.

Definition runs_to (n : Z) (r : rle) (es : list (Z * Z)) (v k : Z) : Prop :=
  Forall code_ok es /\ zlen es <= k /\ exists r', rle_run n r es = Some r' /\ after_run r v k r'.

Lemma runs_cons n r es v k : 0 <= v <= 15 -> 0 <= k -> zlen (lens r) + 1 + k <= n ->
  (forall r1, after_run r v 1 r1 -> repeat_ r1 = 0 -> zlen (lens r1) + k <= n -> runs_to n r1 es v k) -> runs_to n r ((v, 0) :: es) v (k + 1).
Proof.
  intros Hv Hk Hn H. destruct (literal_run n r v Hv ltac:(lia)) as (r1 & E & A & R).
  assert (L1 : zlen (lens r1) = zlen (lens r) + 1). { destruct A as (-> & _). rewrite zlen_app, zlen_repeat. lia. }
  destruct (H r1 A R ltac:(lia)) as (F & Hz & r' & Hrun & A'). split; [constructor; [unfold code_ok; cbn; lia|assumption]|].
  split; [rewrite zlen_cons; lia|]. exists r'. split; [cbn [rle_run]; now rewrite E|].
  replace (k + 1) with (1 + k) by lia. eapply after_run_trans; eauto; lia.
Qed.

Definition rep_tail (v code nbits reps : Z) : option (list (Z * Z)) :=
  if reps <? 3 then Some (repeat (v, 0) (Z.to_nat reps)) else do l <- rep_codes 64 code nbits (reps - 3); Some (rev l).

Lemma tail_ok n r v code nbits reps : 2 <= nbits <= 3 -> code = 14 + nbits -> (if code =? 16 then v = prev_code_len r else v = 0) -> 0 <= v <= 15 ->
  0 <= reps < 2 ^ 63 -> fresh r v -> (repeat_ r = 0 \/ 1 <= reps) -> zlen (lens r) + reps <= n ->
  exists es, rep_tail v code nbits reps = Some es /\ runs_to n r es v reps.
Proof.
  intros Hb Hc Hv Hv15 Hr Hf Hg Hn. unfold rep_tail. assert (Hv' : v = 0 \/ v = prev_code_len r) by (destruct (code =? 16); auto). destruct (Z.ltb_spec reps 3) as [L|L].
  - destruct (literals_run n v Hv15 (Z.to_nat reps) r Hv' ltac:(lia) ltac:(lia)) as (r' & E & A). rewrite Z2Nat.id in A by lia.
    eexists. split; [reflexivity|]. split; [apply codes_ok_repeat; lia|]. split; [rewrite zlen_repeat; lia|]. eauto.
  - destruct (rep_codes_ok code nbits v n r ltac:(lia) Hc Hv Hv15 Hf 63 (reps - 3)) as (ds & E & F & Hz & Hrun); [change (Z.of_nat 63) with 63; lia|lia|].
    rewrite E. eexists. split; [reflexivity|]. split; [apply (codes_ok_rep code nbits); assumption|].
    split; [rewrite zlen_rev; lia|]. eexists. split; [exact Hrun|]. replace (reps - 3 + 3) with reps by lia. now apply after_rep_run.
Qed.

Lemma tail_app v code nbits reps out : (if reps <? 3 then Some (out ++ repeat (v, 0) (Z.to_nat reps)) else do l <- rep_codes 64 code nbits (reps - 3); Some (out ++ rev l))
  = option_map (app out) (rep_tail v code nbits reps).
Proof. unfold rep_tail. destruct (reps <? 3); [reflexivity|]. destruct (rep_codes 64 code nbits (reps - 3)); reflexivity. Qed.

(* 179-208 *)
Lemma zeros_ok n r reps : 1 <= reps < 2 ^ 63 -> fresh r 0 -> zlen (lens r) + reps <= n ->
  exists es, write_repetitions_zeros reps = Some es /\ runs_to n r es 0 reps.
Proof.
  intros Hr Hf Hn. unfold write_repetitions_zeros. destruct (Z.eqb_spec reps 11) as [->|N]; rewrite tail_app.
  - assert (H : forall r1, repeat_ r1 = 0 -> zlen (lens r1) + 10 <= n -> exists es, rep_tail 0 17 3 10 = Some es /\ runs_to n r1 es 0 10).
    { intros r1 R Hn1. apply tail_ok; try lia; [reflexivity|now left]. }
    change (11 - 1) with 10. destruct (rep_tail 0 17 3 10) as [es|] eqn:E.
    + eexists. split; [reflexivity|]. change 11 with (10 + 1). apply runs_cons; try lia. intros r1 _ R Hn1. destruct (H r1 R Hn1) as (es' & E' & Hes). now injection E' as <-.
    + exfalso. destruct (literal_run n r 0 ltac:(lia) ltac:(lia)) as (r1 & _ & (L & _) & R).
      destruct (H r1 R) as (es & E' & _); [rewrite L, zlen_app, zlen_repeat; lia|discriminate].
  - destruct (tail_ok n r 0 17 3 reps) as (es & E & Hes); try lia; [reflexivity|assumption|]. rewrite E. cbn [option_map app]. eauto.
Qed.

(* 142-177 *)
Lemma reps_ok n r v reps : 1 <= reps < 2 ^ 63 -> 1 <= v <= 15 -> fresh r v -> zlen (lens r) + reps <= n ->
  exists es, write_repetitions (prev_code_len r) v reps = Some es /\ runs_to n r es v reps.
Proof.
  intros Hr Hv Hf Hn. unfold write_repetitions.
  (* after the optional first literal *)
  assert (Step : forall out reps, 0 <= reps < 2 ^ 63 ->
    exists es, (let (out', reps') := if reps =? 7 then (out ++ [(v, 0)], reps - 1) else (out, reps) in
       if reps' <? 3 then Some (out' ++ repeat (v, 0) (Z.to_nat reps')) else do l <- rep_codes 64 16 2 (reps' - 3); Some (out' ++ rev l)) = Some (out ++ es) /\
      forall r, prev_code_len r = v -> fresh r v -> (repeat_ r = 0 \/ 1 <= reps) -> zlen (lens r) + reps <= n -> runs_to n r es v reps).
  { clear r reps Hr Hf Hn. intros out reps Hr. destruct (Z.eqb_spec reps 7) as [->|N]; rewrite tail_app.
    - change (7 - 1) with 6. change (rep_tail v 16 2 6) with (Some [(16, 3)]). cbn [option_map]. exists ((v, 0) :: [(16, 3)]).
      split; [now rewrite <- app_assoc|]. intros r P Hf Hg Hn. change 7 with (6 + 1). apply runs_cons; try lia. intros r1 A R Hn1.
      destruct (tail_ok n r1 v 16 2 6) as (es & E & Hes); try lia; [destruct A as (_ & -> & _); cbn; replace (v =? 0) with false by lia; reflexivity|now left|].
      change (rep_tail v 16 2 6) with (Some [(16, 3)]) in E. now injection E as <-.
    - destruct (rep_tail v 16 2 reps) as [es|] eqn:E.
      + exists es. split; [reflexivity|]. intros r P Hf Hg Hn. destruct (tail_ok n r v 16 2 reps) as (es' & E' & Hes); try lia; [cbn; congruence|assumption|]. rewrite E in E'. now injection E' as <-.
      + exfalso. destruct (tail_ok (reps + 5) (Rle [] v 0 0 0) v 16 2 reps) as (es' & E' & Hes); try (cbn; lia); [now left|]. congruence. }
  destruct (Z.eqb_spec (prev_code_len r) v) as [P|P].
  - destruct (Step [] reps ltac:(lia)) as (es & E & H). exists es. split; [exact E|]. apply H; try assumption. lia.
  - destruct (Step [(v, 0)] (reps - 1) ltac:(lia)) as (es & E & H). exists ((v, 0) :: es). split; [exact E|].
    replace reps with (reps - 1 + 1) by lia. apply runs_cons; try lia. intros r1 A R Hn1. apply H; [|now left|now left|assumption].
    destruct A as (_ & -> & _). replace (v =? 0) with false by lia. reflexivity.
Qed.

(* ---- whole sequences ---- *)

Lemma run_length_spec v l : exists l', l = repeat v (Z.to_nat (run_length v l)) ++ l' /\ (match l' with x :: _ => x <> v | [] => True end) /\ 0 <= run_length v l.
Proof.
  induction l as [|x l (l' & E & N & Hn)]; [exists []; cbn; auto with zarith|]. cbn [run_length]. destruct (Z.eqb_spec x v) as [->|D].
  - exists l'. split; [|split; [assumption|lia]]. replace (Z.to_nat (1 + run_length v l)) with (S (Z.to_nat (run_length v l))) by lia. cbn [repeat app]. congruence.
  - exists (x :: l). split; [reflexivity|]. split; [assumption|lia].
Qed.

Lemma zlen_run_length v l : 0 <= run_length v l <= zlen l.
Proof. induction l as [|x l IH]; [cbn; lia|]. rewrite zlen_cons. cbn [run_length]. destruct (x =? v); lia. Qed.

Lemma repeat_snoc {A} (x : A) n : repeat x n ++ [x] = x :: repeat x n.
Proof. induction n as [|n IH]; [reflexivity|]. cbn [repeat app]. now rewrite IH. Qed.
Lemma rev_repeat {A} (x : A) n : rev (repeat x n) = repeat x n.
Proof. induction n as [|n IH]; [reflexivity|]. cbn [repeat rev]. rewrite IH. apply repeat_snoc. Qed.

Lemma write_runs_ok n nz z fuel : forall r depth, (length depth <= fuel)%nat -> Forall (fun l => 0 <= l <= 15) depth -> zlen depth < 2 ^ 63 ->
  zlen (lens r) + zlen depth <= n ->
  (repeat_ r = 0 \/ match depth with v :: _ => repeat_code_len r <> v | [] => True end) ->
  exists es r', write_runs fuel nz z (prev_code_len r) depth = Some es /\ Forall code_ok es /\ zlen es <= zlen depth /\
    rle_run n r es = Some r' /\ lens r' = rev depth ++ lens r.
Proof.
  induction fuel as [|fuel IH]; intros r [|v depth] Hfuel Hd H63 Hn Hf; try (cbn in Hfuel; lia);
    try (exists [], r; split; [reflexivity|]; split; [constructor|]; split; [unfold zlen; cbn; lia|]; split; reflexivity).
  inversion Hd as [|? ? Hv Hd']; subst. rewrite zlen_cons in Hn. pose proof (zlen_nonneg depth) as Hz.
  cbn [write_runs]. set (use := (negb (v =? 0) && nz) || ((v =? 0) && z)).
  set (reps := if use then 1 + run_length v depth else 1).
  pose proof (zlen_run_length v depth) as Hrl.
  assert (Hreps : 1 <= reps <= 1 + zlen depth) by (unfold reps; destruct use; lia).
  (* what follows the run *)
  assert (Hsplit : exists rest, v :: depth = repeat v (Z.to_nat reps) ++ rest /\ (use = true -> match rest with x :: _ => x <> v | [] => True end)).
  { unfold reps. destruct use.
    - destruct (run_length_spec v depth) as (l' & E & N & _). exists l'. split; [|auto].
      replace (Z.to_nat (1 + run_length v depth)) with (S (Z.to_nat (run_length v depth))) by lia. cbn [repeat app]. congruence.
    - exists depth. split; [reflexivity|discriminate]. }
  destruct Hsplit as (rest & Esplit & Hrest).
  assert (Hskip : skipn (Z.to_nat reps) (v :: depth) = rest). { rewrite Esplit. rewrite skipn_app, repeat_length, Nat.sub_diag, skipn_all2 by (rewrite repeat_length; lia). reflexivity. }
  rewrite zlen_cons in H63.
  assert (Hlen : zlen rest = 1 + zlen depth - reps). { pose proof (f_equal zlen Esplit) as EL. rewrite zlen_cons, zlen_app, zlen_repeat in EL. lia. }
  assert (Hfr : fresh r v). { destruct Hf as [Hf|Hf]; [now left|now right]. }
  assert (Hhere : exists es, (if v =? 0 then write_repetitions_zeros reps else write_repetitions (prev_code_len r) v reps) = Some es /\ runs_to n r es v reps).
  { destruct (Z.eqb_spec v 0) as [->|N]; [apply zeros_ok|apply reps_ok]; try assumption; lia. }
  destruct Hhere as (es1 & E1 & F1 & Z1 & r1 & R1 & A1). rewrite E1, Hskip.
  destruct A1 as (L1 & P1 & _ & G1).
  assert (F2 : Forall (fun l => 0 <= l <= 15) rest). { rewrite Esplit in Hd. now apply Forall_app in Hd. }
  destruct (IH r1 rest) as (es2 & r2 & E2 & F2' & Z2 & R2 & L2); try assumption.
  { pose proof (f_equal (@length Z) Esplit) as EL. rewrite app_length, repeat_length in EL. cbn [length] in EL, Hfuel. lia. }
  { lia. }
  { rewrite L1, zlen_app, zlen_repeat. lia. }
  { destruct use eqn:U.
    - destruct G1 as [G1|G1]; [now left|]. right. specialize (Hrest eq_refl). destruct rest; [trivial|congruence].
    - (* a single literal *)
      left. unfold reps in R1, E1. destruct (Z.eqb_spec v 0) as [->|N].
      + change (write_repetitions_zeros 1) with (Some [(0, 0)]) in E1. injection E1 as <-. cbn [rle_run] in R1.
        destruct (literal_run n r 0 ltac:(lia) ltac:(lia)) as (r1' & E & _ & R). rewrite E in R1. injection R1 as <-. exact R.
      + assert (Ees : es1 = [(v, 0)]).
        { unfold write_repetitions in E1. change (1 - 1) with 0 in E1. change (Z.to_nat reps) with 1%nat in *. destruct (prev_code_len r =? v); apply Some_eq in E1; subst es1; reflexivity. }
        subst es1. cbn [rle_run] in R1.
        destruct (literal_run n r v ltac:(lia) ltac:(lia)) as (r1' & E & _ & R). rewrite E in R1. injection R1 as <-. exact R. }
  replace (prev_code_len r1) with (if v =? 0 then prev_code_len r else v) in E2 by (rewrite P1; reflexivity).
  rewrite E2. exists (es1 ++ es2), r2. split; [reflexivity|]. split; [apply Forall_app; now split|]. split; [rewrite zlen_app, zlen_cons; lia|].
  split; [rewrite rle_run_app, R1; exact R2|]. rewrite L2, L1, app_assoc. f_equal. rewrite Esplit, rev_app_distr, rev_repeat. reflexivity.
Qed.

Lemma decide_ok fuel : forall d tz tnz cz cnz, (length d <= fuel)%nat -> exists b, decide_over_rle_use fuel d tz tnz cz cnz = Some b.
Proof.
  induction fuel as [|fuel IH]; intros [|v d] tz tnz cz cnz H; try (cbn in H; lia); try (cbn; eauto; fail).
  cbn [decide_over_rle_use]. pose proof (zlen_run_length v d). apply IH. rewrite skipn_length. cbn [length] in *. lia.
Qed.

Lemma drop_zeros_spec l : exists k, l = repeat 0 k ++ drop_zeros l /\ match drop_zeros l with x :: _ => x <> 0 | [] => True end.
Proof.
  induction l as [|x l (k & E & N)]; [exists O; cbn; auto|]. destruct x; try (exists O; cbn; split; [reflexivity|discriminate]).
  exists (S k). cbn [drop_zeros repeat app]. split; [congruence|assumption].
Qed.
Lemma trim_spec l : exists k, l = trim l ++ repeat 0 k /\ match rev (trim l) with x :: _ => x <> 0 | [] => True end.
Proof.
  unfold trim. destruct (drop_zeros_spec (rev l)) as (k & E & N). exists k. rewrite rev_involutive. split; [|assumption].
  transitivity (rev (rev l)); [now rewrite rev_involutive|]. rewrite E at 1. rewrite rev_app_distr, rev_repeat. reflexivity.
Qed.

Lemma zlen_trim l : zlen (trim l) <= zlen l.
Proof. destruct (trim_spec l) as (k & E & _). rewrite E at 2. rewrite zlen_app, zlen_repeat. lia. Qed.

(* the writer's codes, applied one after the other, give the lengths without the trailing zeros *)
Theorem write_tree_ok depth : Forall (fun l => 0 <= l <= 15) depth -> zlen depth < 2 ^ 63 ->
  exists es r, write_huffman_tree depth = Some es /\ Forall code_ok es /\ zlen es <= zlen (trim depth) /\
    rle_run (zlen depth) (Rle [] 8 0 0 32768) es = Some r /\ lens r = rev (trim depth).
Proof.
  intros Hd H63. pose proof (zlen_trim depth) as Ht. destruct (trim_spec depth) as (k & E & N).
  assert (Hl : (length (trim depth) <= length depth)%nat) by (unfold zlen in Ht; lia).
  assert (Hb : exists b, (if 50 <? zlen depth then decide_over_rle_use (length depth) (trim depth) 0 0 1 1 else Some (false, false)) = Some b).
  { destruct (50 <? zlen depth); [now apply decide_ok|eauto]. }
  unfold write_huffman_tree. destruct Hb as ((nz & z) & ->).
  assert (Hd' : Forall (fun l => 0 <= l <= 15) (trim depth)) by (rewrite E in Hd; now apply Forall_app in Hd).
  destruct (write_runs_ok (zlen depth) nz z (length depth) (Rle [] 8 0 0 32768) (trim depth)) as (es & r & E1 & F & Hz & R & L); try assumption; try lia.
  { now left. }
  exists es, r. split; [exact E1|]. split; [exact F|]. split; [exact Hz|]. split; [exact R|]. rewrite L. apply app_nil_r.
Qed.
