(* Canonical codes by number of words per length, and bit reversal. *)
From Verif Require Import Base HuffModel HuffSpec.

(* ---- bit reversal ---- *)
Definition rv (n x : Z) : Z := of_bits (rev (to_bits (Z.to_nat n) x)).

Lemma rv_range n x : 0 <= n -> 0 <= rv n x < 2 ^ n.
Proof.
  intros H. unfold rv. pose proof (of_bits_range (rev (to_bits (Z.to_nat n) x))) as R.
  unfold zlen in R. rewrite rev_length, length_to_bits, Z2Nat.id in R by lia. exact R.
Qed.
Lemma rv_bits n x : 0 <= n -> to_bits (Z.to_nat n) (rv n x) = rev (to_bits (Z.to_nat n) x).
Proof.
  intros H. unfold rv. rewrite <- (to_bits_of_bits (rev (to_bits (Z.to_nat n) x))) at 2.
  rewrite rev_length, length_to_bits. reflexivity.
Qed.
Lemma rv_rv n x : 0 <= n -> 0 <= x < 2 ^ n -> rv n (rv n x) = x.
Proof.
  intros H Hx. unfold rv at 1. rewrite rv_bits by lia. rewrite rev_involutive. apply of_bits_to_bits. rewrite Z2Nat.id by lia. exact Hx.
Qed.
Lemma rv_inj n x y : 0 <= n -> 0 <= x < 2 ^ n -> 0 <= y < 2 ^ n -> rv n x = rv n y -> x = y.
Proof. intros H Hx Hy E. rewrite <- (rv_rv n x), <- (rv_rv n y) by assumption. now rewrite E. Qed.

Lemma rv_split n m x : 0 <= n -> 0 <= m -> rv (n + m) x = rv n (x / 2 ^ m) + 2 ^ n * rv m x.
Proof.
  intros Hn Hm. unfold rv. replace (Z.to_nat (n + m)) with (Z.to_nat m + Z.to_nat n)%nat by lia.
  rewrite to_bits_app, rev_app_distr, of_bits_app. rewrite Z2Nat.id by lia. unfold zlen. rewrite rev_length, length_to_bits, Z2Nat.id by lia. reflexivity.
Qed.
Lemma rv_prefix n m x : 0 <= n -> 0 <= m -> rv (n + m) x mod 2 ^ n = rv n (x / 2 ^ m).
Proof.
  intros Hn Hm. rewrite rv_split by lia. rewrite (Z.mul_comm (2 ^ n)), Z.mod_add by (pose proof (Z.pow_pos_nonneg 2 n); lia).
  apply Z.mod_small. now apply rv_range.
Qed.
Lemma rv_high n m x : 0 <= n -> 0 <= m -> rv (n + m) x / 2 ^ n = rv m x.
Proof.
  intros Hn Hm. rewrite rv_split by lia. rewrite (Z.mul_comm (2 ^ n)), Z.div_add by (pose proof (Z.pow_pos_nonneg 2 n); lia).
  rewrite Z.div_small by (now apply rv_range). lia.
Qed.
Lemma rv_zero m : rv m 0 = 0.
Proof.
  unfold rv. assert (forall n, rev (to_bits n 0) = repeat false n) as ->.
  { induction n as [|n IH]; [reflexivity|]. cbn [to_bits rev]. change (Z.odd 0) with false. change (Z.div2 0) with 0. rewrite IH.
    clear. induction n as [|n IH]; [reflexivity|]. cbn. now rewrite IH. }
  generalize (Z.to_nat m). induction n as [|n IH]; [reflexivity|]. cbn [repeat of_bits]. rewrite IH. reflexivity.
Qed.
Lemma rv_shift n m x : 0 <= n -> 0 <= m -> rv (n + m) (x * 2 ^ m) = rv n x.
Proof.
  intros Hn Hm. rewrite rv_split by lia. rewrite Z.div_mul by (pose proof (Z.pow_pos_nonneg 2 m); lia).
  assert (rv m (x * 2 ^ m) = 0) as ->; [|lia]. unfold rv.
  assert (to_bits (Z.to_nat m) (x * 2 ^ m) = to_bits (Z.to_nat m) 0) as ->.
  { rewrite <- (to_bits_of_bits (to_bits (Z.to_nat m) (x * 2 ^ m))), <- (to_bits_of_bits (to_bits (Z.to_nat m) 0)).
    rewrite !length_to_bits, !of_bits_to_bits_mod, Z2Nat.id by lia. rewrite Z.mod_mul by (pose proof (Z.pow_pos_nonneg 2 m); lia).
    now rewrite Z.mod_0_l by (pose proof (Z.pow_pos_nonneg 2 m); lia). }
  apply rv_zero.
Qed.

(* the two functions of the code that reverse bits, checked on their finite domains *)
Lemma check2 (f : Z -> Z -> bool) (n : Z -> nat) :
  forallb (fun l => forallb (f l) (zseq 0 (n l))) (zseq 1 15) = true ->
  forall l c, 1 <= l <= 15 -> 0 <= c < Z.of_nat (n l) -> f l c = true.
Proof.
  intros H l c Hl Hc. rewrite forallb_forall in H. specialize (H l (in_zseq 15 1 l ltac:(lia))). cbv beta in H.
  rewrite forallb_forall in H. apply H. apply in_zseq. lia.
Qed.
Definition is_some_z (o : option Z) (v : Z) : bool := match o with Some k => k =? v | None => false end.
Lemma is_some_z_eq o v : is_some_z o v = true -> o = Some v.
Proof. destruct o; cbn; intros H; [f_equal; lia|discriminate]. Qed.
Definition next_key_test (l c : Z) : bool := is_some_z (get_next_key (rv l c) l) (rv l (c + 1)).
Definition next_key_count (l : Z) : nat := Z.to_nat (2 ^ l - 1).
Lemma next_key_checked : forallb (fun l => forallb (next_key_test l) (zseq 0 (next_key_count l))) (zseq 1 15) = true.
Proof. vm_cast_no_check (eq_refl true). Qed.
Lemma next_key_ok l c : 1 <= l <= 15 -> 0 <= c -> c + 1 < 2 ^ l -> get_next_key (rv l c) l = Some (rv l (c + 1)).
Proof.
  intros Hl Hc Hc1. apply is_some_z_eq. apply (check2 next_key_test next_key_count next_key_checked l c Hl).
  unfold next_key_count. lia.
Qed.
(* the last key of a complete code *)
Definition last_key_test (l c : Z) : bool := match get_next_key (rv l (2 ^ l - 1)) l with Some k => true | None => false end.
Lemma last_key_checked : forallb (fun l => forallb (last_key_test l) (zseq 0 1)) (zseq 1 15) = true.
Proof. vm_cast_no_check (eq_refl true). Qed.
Lemma last_key_ok l : 1 <= l <= 15 -> exists k, get_next_key (rv l (2 ^ l - 1)) l = Some k.
Proof.
  intros Hl. pose proof (check2 last_key_test (fun _ => 1%nat) last_key_checked l 0 Hl ltac:(cbv beta; lia)) as H. unfold last_key_test in H.
  destruct (get_next_key (rv l (2 ^ l - 1)) l) as [k|]; [eauto|discriminate].
Qed.
Definition reverse_test (l c : Z) : bool := is_some_z (reverse_bits l c) (rv l c).
Definition reverse_count (l : Z) : nat := Z.to_nat (2 ^ l).
Lemma reverse_checked : forallb (fun l => forallb (reverse_test l) (zseq 0 (reverse_count l))) (zseq 1 15) = true.
Proof. vm_cast_no_check (eq_refl true). Qed.
Lemma reverse_ok l c : 1 <= l <= 15 -> 0 <= c < 2 ^ l -> reverse_bits l c = Some (rv l c).
Proof.
  intros Hl Hc. apply is_some_z_eq. apply (check2 reverse_test reverse_count reverse_checked l c Hl).
  unfold reverse_count. lia.
Qed.

(* ---- canonical codes by counts ---- *)
Section Canon.
Variable cnt : Z -> Z.

Fixpoint CN (n : nat) : Z := match n with O => 0 | S n' => 2 * (CN n' + cnt (Z.of_nat n')) end.
Fixpoint ON (n : nat) : Z := match n with O => 0 | S n' => ON n' + cnt (Z.of_nat n') end.
Definition C (l : Z) : Z := CN (Z.to_nat l).
Definition off (l : Z) : Z := ON (Z.to_nat l).

Lemma C_succ l : 0 <= l -> C (l + 1) = 2 * (C l + cnt l).
Proof. intros H. unfold C. replace (Z.to_nat (l + 1)) with (S (Z.to_nat l)) by lia. cbn [CN]. now rewrite Z2Nat.id. Qed.
Lemma off_succ l : 0 <= l -> off (l + 1) = off l + cnt l.
Proof. intros H. unfold off. replace (Z.to_nat (l + 1)) with (S (Z.to_nat l)) by lia. cbn [ON]. now rewrite Z2Nat.id. Qed.

Hypothesis Hcnt : forall l, 0 <= cnt l.
Hypothesis H0 : cnt 0 = 0.
Hypothesis Hkraft : C 15 + cnt 15 = 2 ^ 15.

Lemma C_nonneg l : 0 <= l -> 0 <= C l.
Proof. intros Hl. unfold C. induction (Z.to_nat l) as [|n IH]; [cbn; lia|]. cbn [CN]. specialize (Hcnt (Z.of_nat n)). lia. Qed.
Lemma off_nonneg l : 0 <= l -> 0 <= off l.
Proof. intros Hl. unfold off. induction (Z.to_nat l) as [|n IH]; [cbn; lia|]. cbn [ON]. specialize (Hcnt (Z.of_nat n)). lia. Qed.

(* positions: the i-th word of length l; the strings before it (in units of 1/2^15) *)
Definition st (l i : Z) : Z := (C l + i) * 2 ^ (15 - l).
Definition idx (l i : Z) : Z := off l + i.

Lemma st_next l : 0 <= l <= 14 -> st (l + 1) 0 = st l (cnt l).
Proof. intros H. unfold st. rewrite C_succ by lia. replace (15 - l) with (15 - (l + 1) + 1) by lia. rewrite Z.pow_add_r by lia. lia. Qed.
Lemma idx_next l : 0 <= l -> idx (l + 1) 0 = idx l (cnt l).
Proof. intros H. unfold idx. rewrite off_succ by lia. lia. Qed.

(* words are in order *)
Lemma st_idx l i l' i' : 0 <= l <= l' -> l' <= 15 -> 0 <= i <= cnt l -> 0 <= i' -> (l = l' -> i <= i') ->
  0 <= idx l' i' - idx l i <= st l' i' - st l i.
Proof.
  intros Hl Hl' Hi Hi' E.
  assert (G : forall d : nat, l + Z.of_nat d <= 15 -> forall i', 0 <= i' -> (d = O -> i <= i') ->
            0 <= idx (l + Z.of_nat d) i' - idx l i <= st (l + Z.of_nat d) i' - st l i).
  { induction d as [|d IH]; intros B j Hj Ej.
    - replace (l + Z.of_nat 0) with l by lia. unfold idx, st. specialize (Ej eq_refl).
      assert (1 <= 2 ^ (15 - l)) by (pose proof (Z.pow_pos_nonneg 2 (15 - l)); lia).
      assert ((j - i) * 1 <= (j - i) * 2 ^ (15 - l)) by (apply Z.mul_le_mono_nonneg_l; lia). lia.
    - replace (l + Z.of_nat (S d)) with (l + Z.of_nat d + 1) in * by lia.
      assert (X : 0 <= idx (l + Z.of_nat d) (cnt (l + Z.of_nat d)) - idx l i <= st (l + Z.of_nat d) (cnt (l + Z.of_nat d)) - st l i).
      { apply IH; [lia|apply Hcnt|]. intros ->. replace (l + Z.of_nat 0) with l by lia. lia. }
      rewrite <- st_next in X by lia. rewrite <- idx_next in X by lia.
      assert (Y : 0 <= idx (l + Z.of_nat d + 1) j - idx (l + Z.of_nat d + 1) 0 <= st (l + Z.of_nat d + 1) j - st (l + Z.of_nat d + 1) 0).
      { unfold idx, st. assert (1 <= 2 ^ (15 - (l + Z.of_nat d + 1))) by (pose proof (Z.pow_pos_nonneg 2 (15 - (l + Z.of_nat d + 1))); lia).
        assert (j * 1 <= j * 2 ^ (15 - (l + Z.of_nat d + 1))) by (apply Z.mul_le_mono_nonneg_l; lia). lia. }
      lia. }
  specialize (G (Z.to_nat (l' - l))). rewrite Z2Nat.id in G by lia. replace (l + (l' - l)) with l' in G by lia. apply G; lia.
Qed.

Lemma st_end : st 15 (cnt 15) = 2 ^ 15.
Proof. unfold st. rewrite Hkraft. reflexivity. Qed.
Lemma st_le l i : 0 <= l <= 15 -> 0 <= i <= cnt l -> 0 <= st l i <= 2 ^ 15.
Proof.
  intros Hl Hi. split.
  - unfold st. pose proof (C_nonneg l ltac:(lia)). apply Z.mul_nonneg_nonneg; [lia|]. apply Z.pow_nonneg. lia.
  - rewrite <- st_end. pose proof (st_idx l i 15 (cnt 15) ltac:(lia) ltac:(lia) Hi (Hcnt 15)) as G.
    assert (l = 15 -> i <= cnt 15) as E by (intros ->; lia). specialize (G E). lia.
Qed.
(* a word fits its length *)
Lemma code_range l i : 0 <= l <= 15 -> 0 <= i <= cnt l -> 0 <= C l + i <= 2 ^ l.
Proof.
  intros Hl Hi. pose proof (C_nonneg l ltac:(lia)). split; [lia|].
  pose proof (st_le l i Hl Hi) as (_ & B). unfold st in B.
  apply Z.mul_le_mono_pos_r with (2 ^ (15 - l)); [apply Z.pow_pos_nonneg; lia|]. rewrite <- Z.pow_add_r by lia.
  replace (l + (15 - l)) with 15 by lia. exact B.
Qed.
Lemma code_range_lt l i : 0 <= l <= 15 -> 0 <= i < cnt l -> 0 <= C l + i < 2 ^ l.
Proof. intros Hl Hi. pose proof (code_range l (i + 1) Hl ltac:(lia)). pose proof (code_range l i Hl ltac:(lia)). lia. Qed.

(* before: strictly earlier positions *)
Definition before (l i l' i' : Z) : Prop := l < l' \/ (l = l' /\ i < i').
Lemma before_st l i l' i' : 0 <= l <= 15 -> 0 <= l' <= 15 -> 0 <= i < cnt l -> 0 <= i' ->
  before l i l' i' -> st l i + 2 ^ (15 - l) <= st l' i'.
Proof.
  intros Hl Hl' Hi Hi' B. pose proof (st_idx l (i + 1) l' i') as G. unfold st in G at 2. unfold st at 1.
  destruct B as [B|(-> & B)]; [specialize (G ltac:(lia) ltac:(lia) ltac:(lia) Hi' ltac:(lia))|specialize (G ltac:(lia) ltac:(lia) ltac:(lia) Hi' ltac:(lia))]; lia.
Qed.

(* codes of different words are not prefixes of each other *)
Lemma prefix_free l i l' i' x : 1 <= l <= 15 -> 1 <= l' <= 15 -> 0 <= i < cnt l -> 0 <= i' < cnt l' -> before l i l' i' ->
  x mod 2 ^ l = rv l (C l + i) -> x mod 2 ^ l' = rv l' (C l' + i') -> False.
Proof.
  intros Hl Hl' Hi Hi' B E E'. assert (l <= l') as L by (destruct B; lia).
  assert (X : x mod 2 ^ l = rv l ((C l' + i') / 2 ^ (l' - l))).
  { rewrite <- rv_prefix by lia. replace (l + (l' - l)) with l' by lia. rewrite <- E'.
    replace l' with (l + (l' - l)) at 1 by lia. rewrite Z.pow_add_r by lia.
    rewrite Z.rem_mul_r by (try apply Z.pow_nonzero; try apply Z.pow_pos_nonneg; lia).
    rewrite (Z.mul_comm (2 ^ l)), Z.mod_add by (apply Z.pow_nonzero; lia). rewrite Z.mod_mod by (apply Z.pow_nonzero; lia). reflexivity. }
  pose proof (code_range_lt l i ltac:(lia) Hi). pose proof (code_range_lt l' i' ltac:(lia) Hi') as Hc'.
  rewrite E in X. apply rv_inj in X; [|lia|assumption|].
  2:{ split; [apply Z.div_pos; [lia|apply Z.pow_pos_nonneg; lia]|]. apply Z.div_lt_upper_bound; [apply Z.pow_pos_nonneg; lia|].
      rewrite <- Z.pow_add_r by lia. replace (l' - l + l) with l' by lia. lia. }
  pose proof (before_st l i l' i' ltac:(lia) ltac:(lia) Hi ltac:(lia) B) as S. unfold st in S.
  assert (P : 2 ^ (15 - l) = 2 ^ (l' - l) * 2 ^ (15 - l')) by (rewrite <- Z.pow_add_r by lia; f_equal; lia).
  assert (D : C l' + i' < 2 ^ (l' - l) * ((C l' + i') / 2 ^ (l' - l) + 1)).
  { pose proof (Z.div_mod (C l' + i') (2 ^ (l' - l)) ltac:(apply Z.pow_nonzero; lia)).
    pose proof (Z.mod_pos_bound (C l' + i') (2 ^ (l' - l)) ltac:(apply Z.pow_pos_nonneg; lia)). lia. }
  rewrite <- X in D. assert (0 < 2 ^ (15 - l')) by (apply Z.pow_pos_nonneg; lia).
  assert ((C l' + i') * 2 ^ (15 - l') < (2 ^ (l' - l) * (C l + i + 1)) * 2 ^ (15 - l')) by (apply Z.mul_lt_mono_pos_r; lia).
  rewrite P in S. lia.
Qed.
End Canon.
