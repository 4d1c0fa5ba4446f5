(* Lemmas about reading arrays and numbers in the transform of ICC profiles *)
From Verif Require Import Base OMap IccModel.
Ltac Zify.zify_post_hook ::= idtac.

Definition safe {A} (p : res A) (Q : A -> Prop) : Prop := match p with Ok a => Q a | Fail => True | _ => False end.
Lemma safe_bind {A B} (p : res A) (f : A -> res B) (Q : A -> Prop) (R : B -> Prop) : safe p Q -> (forall a, Q a -> safe (f a) R) -> safe (bind p f) R.
Proof. unfold safe. intros H K. destruct p; cbn; [apply K; exact H|exact I|destruct H|destruct H]. Qed.
Lemma safe_weaken {A} (p : res A) (Q R : A -> Prop) : safe p Q -> (forall a, Q a -> R a) -> safe p R.
Proof. unfold safe. destruct p; auto. Qed.
Lemma safe_ok {A} (p : res A) Q a : safe p Q -> p = Ok a -> Q a.
Proof. intros H ->. exact H. Qed.
Lemma ok_bind {A B} (p : res A) (f : A -> res B) b : bind p f = Ok b -> exists a, p = Ok a /\ f a = Ok b.
Proof. destruct p; cbn; try discriminate. eauto. Qed.

Lemma bytes_znth l i b : bytes_ok l -> znth l i = Some b -> is_u8 b.
Proof. intros H E. unfold bytes_ok in H. rewrite Forall_forall in H. apply H. unfold znth in E. destruct (i <? 0); [discriminate|]. eapply nth_error_In; eassumption. Qed.
Lemma at_safe l i : bytes_ok l -> 0 <= i < zlen l -> exists b, at_ l i = Ok b /\ znth l i = Some b /\ is_u8 b.
Proof. intros H R. destruct (znth_ex l i R) as [b E]. exists b. unfold at_. rewrite E. split; [reflexivity|]. split; [reflexivity|]. eapply bytes_znth; eassumption. Qed.
Lemma at_inv l i b : at_ l i = Ok b -> znth l i = Some b.
Proof. unfold at_. destruct (znth l i); [intros H; injection H as ->; reflexivity|discriminate]. Qed.
Lemma at_intro l i b : znth l i = Some b -> at_ l i = Ok b.
Proof. unfold at_. intros ->. reflexivity. Qed.

(* the bytes from i to i + n *)
Definition slice (l : list Z) (i n : Z) : list Z := firstn (Z.to_nat n) (skipn (Z.to_nat i) l).
Lemma slice_len l i n : 0 <= i -> 0 <= n -> i + n <= zlen l -> zlen (slice l i n) = n.
Proof. unfold slice, zlen. intros. rewrite firstn_length, skipn_length. lia. Qed.
Lemma Forall_firstn {A} (P : A -> Prop) n l : Forall P l -> Forall P (firstn n l).
Proof. intros H. revert n. induction H; intros [|n]; cbn; constructor; auto. Qed.
Lemma Forall_skipn {A} (P : A -> Prop) n l : Forall P l -> Forall P (skipn n l).
Proof. intros H. revert n. induction H; intros [|n]; cbn; auto. Qed.
Lemma slice_bytes l i n : bytes_ok l -> bytes_ok (slice l i n).
Proof. intros H. apply Forall_firstn. apply Forall_skipn. exact H. Qed.
Lemma slice_0 l i : slice l i 0 = [].
Proof. reflexivity. Qed.
Lemma slice_all l : slice l 0 (zlen l) = l.
Proof. unfold slice, zlen. rewrite Nat2Z.id. cbn. apply firstn_all. Qed.
Lemma skipn_nth {A} (l : list A) n b : nth_error l n = Some b -> skipn n l = b :: skipn (Datatypes.S n) l.
Proof. revert l. induction n as [|n IH]; intros [|a l] E; try discriminate; cbn in *; [injection E as ->; reflexivity|]. apply IH. exact E. Qed.
Lemma slice_cons l i n b : 0 <= i -> 0 < n -> znth l i = Some b -> slice l i n = b :: slice l (i + 1) (n - 1).
Proof.
  intros I N E. unfold slice. unfold znth in E. destruct (Z.ltb_spec i 0); [lia|]. rewrite (skipn_nth _ _ _ E). replace (Z.to_nat n) with (Datatypes.S (Z.to_nat (n - 1))) by lia.
  replace (Z.to_nat (i + 1)) with (Datatypes.S (Z.to_nat i)) by lia. reflexivity.
Qed.
Lemma firstn_add {A} (l : list A) n m : firstn (n + m) l = firstn n l ++ firstn m (skipn n l).
Proof. revert l. induction n as [|n IH]; intros l; [reflexivity|]. destruct l; cbn; [rewrite firstn_nil; reflexivity|]. rewrite IH. reflexivity. Qed.
Lemma skipn_add {A} (l : list A) n m : skipn (n + m) l = skipn m (skipn n l).
Proof. revert l. induction n as [|n IH]; intros l; [reflexivity|]. destruct l; cbn; [rewrite skipn_nil; reflexivity|]. apply IH. Qed.
Lemma slice_app l i n m : 0 <= i -> 0 <= n -> 0 <= m -> slice l i (n + m) = slice l i n ++ slice l (i + n) m.
Proof. intros. unfold slice. rewrite !Z2Nat.inj_add by lia. rewrite firstn_add, skipn_add. reflexivity. Qed.
Lemma slice_mid (a b c : list Z) n : n = zlen b -> slice (a ++ b ++ c) (zlen a) n = b.
Proof. intros ->. unfold slice, zlen. rewrite !Nat2Z.id. rewrite skipn_app, Nat.sub_diag, skipn_all. cbn. rewrite firstn_app, Nat.sub_diag, firstn_all. cbn. apply app_nil_r. Qed.
Lemma znth_slice l i n k : 0 <= i -> 0 <= k < n -> znth (slice l i n) k = znth l (i + k).
Proof.
  intros I K. unfold znth, slice. destruct (Z.ltb_spec k 0); [lia|]. destruct (Z.ltb_spec (i + k) 0); [lia|].
  rewrite nth_error_firstn by lia. rewrite nth_error_skipn. f_equal. lia.
Qed.
Lemma slice_prefix l i n m : 0 <= i -> 0 <= n <= m -> slice l i n = slice (slice l i m) 0 n.
Proof. intros. unfold slice. change (Z.to_nat 0) with O. cbn [skipn]. rewrite firstn_firstn. f_equal. lia. Qed.
Lemma znth_ext (a b : list Z) : zlen a = zlen b -> (forall i, 0 <= i < zlen a -> znth a i = znth b i) -> a = b.
Proof.
  revert b. induction a as [|x a IH]; intros [|y b] L H; unfold zlen in L; cbn in L; try lia; [reflexivity|].
  assert (E := H 0). rewrite !znth_0 in E. assert (x = y) as -> by (assert (K : Some x = Some y) by (apply E; unfold zlen; cbn; lia); congruence).
  f_equal. apply IH; [unfold zlen; lia|]. intros i I. assert (E2 := H (i + 1)). rewrite !znth_succ in E2 by lia. replace (i + 1 - 1) with i in E2 by lia. apply E2. unfold zlen in *; cbn; lia.
Qed.

Lemma mapr_at l : forall n i, 0 <= i -> i + Z.of_nat n <= zlen l -> mapr (at_ l) (zseq i n) = Ok (slice l i (Z.of_nat n)).
Proof.
  induction n as [|n IH]; intros i I L; [reflexivity|]. cbn [zseq mapr]. destruct (znth_ex l i) as [b E]; [lia|]. rewrite (at_intro _ _ _ E). cbn [bind].
  rewrite IH by lia. cbn [bind]. rewrite (slice_cons l i _ b) by (assumption || lia). do 3 f_equal. lia.
Qed.
Lemma reads_ok l i n : 0 <= i -> 0 <= n -> i + n <= zlen l -> reads l i n = Ok (slice l i n).
Proof. intros. unfold reads. rewrite mapr_at by lia. do 2 f_equal. lia. Qed.

Lemma is_u8_lt b : is_u8 b -> 0 <= b < 256. Proof. exact (fun h => h). Qed.
Lemma be32_range a b c d : is_u8 a -> is_u8 b -> is_u8 c -> is_u8 d -> is_u32 (be32 a b c d).
Proof. unfold is_u8, is_u32, be32. change (2 ^ 8) with 256. change (2 ^ 16) with 65536. change (2 ^ 24) with 16777216. change (2 ^ 32) with 4294967296. lia. Qed.
Lemma w8_of x r : is_u8 r -> (exists q, x = q * 256 + r) -> w8 x = r.
Proof. intros H [q ->]. unfold w8. rewrite Z.add_comm, Z.mod_add by lia. apply Z.mod_small. exact H. Qed.
Lemma be_bytes_be32 a b c d : is_u8 a -> is_u8 b -> is_u8 c -> is_u8 d -> be_bytes (be32 a b c d) = [a; b; c; d].
Proof.
  intros A B C D. unfold be_bytes, be32. assert (A' := is_u8_lt _ A). assert (B' := is_u8_lt _ B). assert (C' := is_u8_lt _ C). assert (D' := is_u8_lt _ D).
  change (2 ^ 24) with 16777216. change (2 ^ 16) with 65536. change (2 ^ 8) with 256.
  f_equal; [|f_equal; [|f_equal; [|f_equal]]].
  - apply w8_of; [exact A|]. exists 0. symmetry. apply Z.div_unique with (b * 65536 + c * 256 + d); lia.
  - apply w8_of; [exact B|]. exists a. symmetry. apply Z.div_unique with (c * 256 + d); lia.
  - apply w8_of; [exact C|]. exists (a * 256 + b). symmetry. apply Z.div_unique with d; lia.
  - apply w8_of; [exact D|]. exists (a * 65536 + b * 256 + c). lia.
Qed.
Lemma be32_be_bytes v : is_u32 v -> match be_bytes v with [a; b; c; d] => be32 a b c d = v | _ => False end.
Proof.
  unfold is_u32, be_bytes, be32, w8. intros H. change (2 ^ 24) with 16777216. change (2 ^ 16) with 65536. change (2 ^ 8) with 256. change (2 ^ 32) with 4294967296 in H. Z.div_mod_to_equations. lia.
Qed.
Lemma be_bytes_len v : zlen (be_bytes v) = 4. Proof. reflexivity. Qed.
Lemma w8_range x : is_u8 (w8 x). Proof. apply Z.mod_pos_bound. reflexivity. Qed.
Lemma be_bytes_ok v : bytes_ok (be_bytes v). Proof. repeat constructor; apply w8_range. Qed.

Lemma slice4 l i a b c d : 0 <= i -> slice l i 4 = [a; b; c; d] -> znth l i = Some a /\ znth l (i + 1) = Some b /\ znth l (i + 2) = Some c /\ znth l (i + 3) = Some d.
Proof.
  intros I E. assert (forall k, 0 <= k < 4 -> znth l (i + k) = znth [a; b; c; d] k) as K by (intros k R; rewrite <- E; symmetry; apply znth_slice; lia).
  split; [rewrite <- (Z.add_0_r i) at 1|split; [|split]]; rewrite K by lia; reflexivity.
Qed.
Lemma slice4_ex l i : 0 <= i -> i + 4 <= zlen l -> exists a b c d, slice l i 4 = [a; b; c; d].
Proof.
  intros I L. assert (H := slice_len l i 4 I ltac:(lia) L). unfold zlen in H. destruct (slice l i 4) as [|a [|b [|c [|d [|e r]]]]]; cbn in H; try lia. eauto 6.
Qed.
(* DecodeUint32 reads the number whose bytes are there *)
Lemma decode_u32_ok l i : bytes_ok l -> 0 <= i -> i + 4 <= zlen l -> exists v, decode_u32 l (zlen l) i = Ok v /\ is_u32 v /\ be_bytes v = slice l i 4.
Proof.
  intros B I L. destruct (slice4_ex l i I L) as (a & b & c & d & E). destruct (slice4 _ _ _ _ _ _ I E) as (A1 & A2 & A3 & A4). unfold decode_u32.
  destruct (Z.ltb_spec (zlen l) (i + 4)); [lia|]. rewrite (at_intro _ _ _ A1), (at_intro _ _ _ A2), (at_intro _ _ _ A3), (at_intro _ _ _ A4). cbn [bind]. eexists. split; [reflexivity|].
  assert (is_u8 a /\ is_u8 b /\ is_u8 c /\ is_u8 d) as (U1 & U2 & U3 & U4) by (repeat split; (eapply bytes_znth; [exact B|eassumption])).
  split; [apply be32_range; assumption|]. rewrite E. apply be_bytes_be32; assumption.
Qed.
Lemma decode_u32_safe l size i : bytes_ok l -> 0 <= i -> size <= zlen l -> exists v, decode_u32 l size i = Ok v /\ is_u32 v.
Proof.
  intros B I L. unfold decode_u32. destruct (Z.ltb_spec size (i + 4)); [exists 0; split; [reflexivity|]; unfold is_u32; lia|].
  destruct (at_safe l i B ltac:(lia)) as (a & -> & _ & A). destruct (at_safe l (i + 1) B ltac:(lia)) as (b & -> & _ & A2). destruct (at_safe l (i + 2) B ltac:(lia)) as (c & -> & _ & A3). destruct (at_safe l (i + 3) B ltac:(lia)) as (d & -> & _ & A4).
  cbn [bind]. eexists. split; [reflexivity|]. apply be32_range; assumption.
Qed.
Lemma decode_keyword_ok l i : 0 <= i -> i + 4 <= zlen l -> decode_keyword l (zlen l) i = Ok (slice l i 4).
Proof. intros. unfold decode_keyword. destruct (Z.ltb_spec (zlen l) (i + 4)); [lia|]. apply reads_ok; lia. Qed.
Lemma decode_keyword_safe l i : 0 <= i -> exists t, decode_keyword l (zlen l) i = Ok t.
Proof. intros. unfold decode_keyword. destruct (Z.ltb_spec (zlen l) (i + 4)); [eauto|]. rewrite reads_ok by lia. eauto. Qed.
Lemma tag_eq_true a b : tag_eq a b = true -> a = b.
Proof. unfold tag_eq. destruct (list_eq_dec Z.eq_dec a b); [auto|discriminate]. Qed.
Lemma tag_eq_refl a : tag_eq a a = true.
Proof. unfold tag_eq. destruct (list_eq_dec Z.eq_dec a a); [reflexivity|contradiction]. Qed.

Lemma check_bounds_safe a b size : 0 <= a <= size -> size < 2 ^ 64 -> is_u64 b -> safe (check_bounds a b size) (fun _ => a + b <= size).
Proof.
  unfold is_u64, check_bounds, w64. intros A S B. change (2 ^ 64) with 18446744073709551616 in *. destruct (Z.ltb_spec size ((a + b) mod 18446744073709551616)) as [H|H]; [exact I|].
  destruct (Z.ltb_spec ((a + b) mod 18446744073709551616) a) as [H2|H2]; [exact I|]. cbn. destruct (Z.lt_ge_cases (a + b) 18446744073709551616) as [K|K]; [rewrite Z.mod_small in H by lia; lia|].
  exfalso. replace (a + b) with (a + b - 18446744073709551616 + 1 * 18446744073709551616) in H2 by lia. rewrite Z.mod_add, Z.mod_small in H2 by lia. lia.
Qed.
Lemma check_bounds_ok a b size : 0 <= a -> 0 <= b -> a + b <= size -> size < 2 ^ 64 -> check_bounds a b size = Ok tt.
Proof.
  intros. unfold check_bounds, w64. rewrite Z.mod_small by lia. destruct (Z.ltb_spec size (a + b)); [lia|]. destruct (Z.ltb_spec (a + b) a); [lia|]. reflexivity.
Qed.
Lemma check_32_safe v : safe (check_32 v) (fun _ => v < 2 ^ 32).
Proof. unfold check_32. destruct (Z.ltb_spec v (2 ^ 32)); cbn; auto. Qed.
Lemma check_32_ok v : v < 2 ^ 32 -> check_32 v = Ok tt.
Proof. intros. unfold check_32. destruct (Z.ltb_spec v (2 ^ 32)); [reflexivity|lia]. Qed.

Lemma lor_shift ret b k : 0 <= k -> 0 <= ret < 2 ^ k -> Z.lor ret (Z.shiftl b k) = ret + b * 2 ^ k.
Proof. intros K R. rewrite lor_shiftl_add by assumption. lia. Qed.
Lemma land_127 b : Z.land b 127 = b mod 128.
Proof. change 127 with (Z.ones 7). rewrite Z.land_ones by lia. reflexivity. Qed.
Lemma testbit_7 b : is_u8 b -> Z.testbit b 7 = (128 <=? b).
Proof.
  intros H. apply is_u8_lt in H. assert (K : b / 128 = if 128 <=? b then 1 else 0).
  { destruct (Z.leb_spec 128 b); [symmetry; apply Z.div_unique with (b - 128); lia|apply Z.div_small; lia]. }
  rewrite Z.testbit_odd, Z.shiftr_div_pow2 by lia. change (2 ^ 7) with 128. rewrite K. destruct (128 <=? b); reflexivity.
Qed.
