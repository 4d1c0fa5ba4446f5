(* Facts about two's complement wraparound. *)
From Verif Require Import Base.

Lemma s32_range x : is_i32 (s32 x).
Proof. unfold is_i32, s32. pose proof (Z.mod_pos_bound (x + 2 ^ 31) (2 ^ 32) ltac:(lia)). lia. Qed.

Lemma s32_id x : is_i32 x -> s32 x = x.
Proof. unfold is_i32, s32. intros. rewrite Z.mod_small; lia. Qed.

Lemma s32_mod x y : x mod 2 ^ 32 = y mod 2 ^ 32 -> s32 x = s32 y.
Proof.
  intros H. unfold s32. f_equal. rewrite (Z.add_mod x), (Z.add_mod y) by lia. rewrite H. reflexivity.
Qed.

Lemma s32_cong x : (s32 x) mod 2 ^ 32 = x mod 2 ^ 32.
Proof.
  unfold s32. rewrite Zminus_mod_idemp_l. f_equal. lia.
Qed.

Lemma s32_add_l a b : s32 (s32 a + b) = s32 (a + b).
Proof. apply s32_mod. rewrite Z.add_mod, s32_cong, <- Z.add_mod by lia. reflexivity. Qed.
Lemma s32_add_r a b : s32 (a + s32 b) = s32 (a + b).
Proof. rewrite Z.add_comm, s32_add_l, Z.add_comm. reflexivity. Qed.
Lemma s32_sub_l a b : s32 (s32 a - b) = s32 (a - b).
Proof. apply s32_mod. rewrite Zminus_mod, s32_cong, <- Zminus_mod. reflexivity. Qed.
Lemma s32_sub_r a b : s32 (a - s32 b) = s32 (a - b).
Proof. apply s32_mod. rewrite Zminus_mod, s32_cong, <- Zminus_mod. reflexivity. Qed.
Lemma s32_idem a : s32 (s32 a) = s32 a.
Proof. apply s32_id, s32_range. Qed.

Lemma w32_range x : is_u32 (w32 x).
Proof. unfold is_u32, w32. apply Z.mod_pos_bound. lia. Qed.
Lemma w32_id x : is_u32 x -> w32 x = x.
Proof. unfold is_u32, w32. intros. apply Z.mod_small. lia. Qed.
Lemma s32_w32 x : s32 (w32 x) = s32 x.
Proof. apply s32_mod. unfold w32. rewrite Z.mod_mod by lia. reflexivity. Qed.

Lemma shiftr1_range a : is_i32 a -> - 2 ^ 30 <= Z.shiftr a 1 < 2 ^ 30.
Proof. unfold is_i32. intros. rewrite Z.shiftr_div_pow2 by lia. change (2 ^ 1) with 2. lia. Qed.
