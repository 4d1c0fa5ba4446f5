(* Proofs about the Lehmer code. *)
From Verif Require Import Base ListAux Wrap HybridUintModel HybridUintProofs LehmerModel LehmerSpec.

(* ---- lowest set bit ---- *)
(* i is an odd multiple of 2^k *)
Definition low (i k : Z) : Prop := 0 <= k /\ exists q, i = (2 * q + 1) * 2 ^ k.

Lemma low_exists i : 0 < i -> exists k, low i k.
Proof.
  intros Hi. assert (K : forall n : nat, forall i, 0 < i < Z.of_nat n -> exists k, low i k).
  { clear. induction n as [|n IH]; intros i Hi; [lia|].
    pose proof (Z.div_mod i 2 ltac:(lia)) as E. pose proof (Z.mod_pos_bound i 2 ltac:(lia)).
    destruct (Z.eq_dec (i mod 2) 1) as [O|O].
    - exists 0. split; [lia|]. exists (i / 2). change (2 ^ 0) with 1. lia.
    - destruct (IH (i / 2)) as (k & Hk & q & Hq); [lia|]. exists (k + 1). split; [lia|]. exists q.
      rewrite Z.pow_add_r by lia. change (2 ^ 1) with 2. nia. }
  apply (K (Z.to_nat (i + 1))). lia.
Qed.

Lemma land_wrap i x n : 0 <= i < 2 ^ n -> 0 <= n -> Z.land i (x mod 2 ^ n) = Z.land i x.
Proof.
  intros Hi Hn. rewrite <- Z.land_ones by lia. rewrite (Z.land_comm x), Z.land_assoc, Z.land_ones by lia.
  now rewrite Z.mod_small.
Qed.

Lemma land_odd q : Z.land (2 * q + 1) (- (2 * q + 1)) = 1.
Proof.
  replace (- (2 * q + 1)) with (Z.lnot (2 * q)) by (unfold Z.lnot; lia).
  apply Z.bits_inj'. intros n Hn. rewrite Z.land_spec, Z.lnot_spec by lia.
  destruct (Z.eq_dec n 0) as [->|].
  - rewrite Z.testbit_odd_0, Z.testbit_even_0. reflexivity.
  - replace n with (Z.succ (n - 1)) by lia. rewrite Z.testbit_odd_succ, Z.testbit_even_succ by lia.
    change 1 with (2 * 0 + 1) at 3. rewrite Z.testbit_odd_succ, Z.testbit_0_l by lia. now destruct (Z.testbit q (n - 1)).
Qed.

Lemma land_neg i k : low i k -> Z.land i (- i) = 2 ^ k.
Proof.
  intros [Hk (q & ->)]. replace (- ((2 * q + 1) * 2 ^ k)) with ((- (2 * q + 1)) * 2 ^ k) by lia.
  rewrite <- !Z.shiftl_mul_pow2 by lia. rewrite <- Z.shiftl_land, land_odd. now rewrite Z.shiftl_1_l.
Qed.

Lemma lowest1_low i k : 0 < i < 2 ^ 32 -> low i k -> lowest1 i = 2 ^ k.
Proof. intros Hi Hl. unfold lowest1, w32. rewrite land_wrap by lia. now apply land_neg. Qed.
Lemma lowest64_low i k : 0 < i < 2 ^ 64 -> low i k -> Z.land i (w64 (- i)) = 2 ^ k.
Proof. intros Hi Hl. unfold w64. rewrite land_wrap by lia. now apply land_neg. Qed.

Lemma clear_low i k : 0 < i < 2 ^ 32 -> low i k -> Z.land i (w32 (i - 1)) = i - 2 ^ k.
Proof.
  intros Hi Hl. unfold w32. rewrite land_wrap by lia. rewrite <- (land_neg _ _ Hl).
  replace (i - 1) with (Z.lnot (- i)) by (unfold Z.lnot; lia). rewrite <- Z.ldiff_land.
  rewrite Z.sub_nocarry_ldiff.
  - apply Z.bits_inj'. intros n Hn. rewrite !Z.ldiff_spec, Z.land_spec. now destruct (Z.testbit i n), (Z.testbit (- i) n).
  - apply Z.bits_inj'. intros n Hn. rewrite Z.ldiff_spec, Z.land_spec, Z.testbit_0_l. now destruct (Z.testbit i n), (Z.testbit (- i) n).
Qed.

(* ---- which tree nodes cover which positions ---- *)
Lemma pow_split a b : 0 <= a <= b -> exists m, 2 ^ b = m * 2 ^ a /\ 1 <= m /\ (a < b -> exists m', m = 2 * m').
Proof.
  intros H. exists (2 ^ (b - a)). rewrite <- Z.pow_add_r by lia. replace (b - a + a) with b by lia. repeat split.
  - pose proof (Z.pow_pos_nonneg 2 (b - a) ltac:(lia) ltac:(lia)). lia.
  - intros. exists (2 ^ (b - a - 1)). rewrite <- Z.pow_succ_r by lia. f_equal. lia.
Qed.

Lemma low_unique i k k' : low i k -> low i k' -> k = k'.
Proof.
  intros [Hk (q & E)] [Hk' (q' & E')].
  destruct (Z.lt_trichotomy k k') as [H|[H|H]]; auto; exfalso.
  - destruct (pow_split k k' ltac:(lia)) as (m & Em & _ & (m' & ->)); [lia|]. rewrite Em in E'.
    assert (P : 0 < 2 ^ k) by (apply Z.pow_pos_nonneg; lia). assert ((2 * q + 1) = (2 * q' + 1) * (2 * m')) by nia. lia.
  - destruct (pow_split k' k ltac:(lia)) as (m & Em & _ & (m' & ->)); [lia|]. rewrite Em in E.
    assert (P : 0 < 2 ^ k') by (apply Z.pow_pos_nonneg; lia). assert ((2 * q' + 1) = (2 * q + 1) * (2 * m')) by nia. lia.
Qed.

(* the next node on the path of j covers exactly the nodes that cover j, other than j *)
Lemma chain_step i j ki kj : 0 < j -> j < i -> low i ki -> low j kj ->
  (i - 2 ^ ki < j <-> (j + 2 ^ kj <= i /\ i - 2 ^ ki < j + 2 ^ kj)).
Proof.
  intros Hj Hij [Hki (qi & Ei)] [Hkj (qj & Ej)].
  assert (Pi : 0 < 2 ^ ki) by (apply Z.pow_pos_nonneg; lia). assert (Pj : 0 < 2 ^ kj) by (apply Z.pow_pos_nonneg; lia).
  destruct (Z.le_gt_cases ki kj) as [H|H].
  - destruct (pow_split ki kj ltac:(lia)) as (m & Em & Hm & Hm'). rewrite Em in *. rewrite Ei, Ej in *.
    set (p := 2 ^ ki) in *. split.
    + intros H1. exfalso. assert (2 * qi < (2 * qj + 1) * m) by nia. assert ((2 * qj + 1) * m < 2 * qi + 1) by nia. lia.
    + intros [H1 H2]. assert ((2 * qj + 1) * m + m <= 2 * qi + 1) by nia. assert (2 * qi < (2 * qj + 1) * m + m) by nia.
      assert ((2 * qj + 1) * m + m = 2 * ((qj + 1) * m)) by lia. lia.
  - destruct (pow_split kj ki ltac:(lia)) as (m & Em & Hm & Hm'). rewrite Em in *. rewrite Ei, Ej in *.
    destruct Hm' as (m' & ->); [lia|]. set (p := 2 ^ kj) in *. split.
    + intros H1. assert ((2 * qi) * (2 * m') < 2 * qj + 1) by nia. assert (2 * qj + 1 < (2 * qi + 1) * (2 * m')) by nia. split; nia.
    + intros [H1 H2]. assert (2 * qj + 2 <= (2 * qi + 1) * (2 * m')) by nia. assert (2 * qi * (2 * m') < 2 * qj + 2) by nia.
      assert (2 * qi * (2 * m') < 2 * qj + 1) by lia. nia.
Qed.

Lemma low_le i k : 0 < i -> low i k -> 2 ^ k <= i.
Proof. intros Hi [Hk (q & E)]. assert (P : 0 < 2 ^ k) by (apply Z.pow_pos_nonneg; lia).
  assert (0 <= q) by nia. nia. Qed.

Lemma low_next i k k' : 0 < i -> low i k -> low (i + 2 ^ k) k' -> k < k'.
Proof.
  intros Hi Hl Hl'. destruct (Z.lt_ge_cases k k') as [|H]; auto. exfalso.
  destruct Hl as [Hk (q & E)], Hl' as [Hk' (q' & E')].
  destruct (pow_split k' k ltac:(lia)) as (m & Em & Hm & _). rewrite E, Em in E'.
  assert (P : 0 < 2 ^ k') by (apply Z.pow_pos_nonneg; lia). assert ((2 * q + 1) * m + m = 2 * q' + 1) by nia. lia.
Qed.

(* ---- counting ---- *)
Definition cnt (used : list Z) (a b : Z) : Z := zlen (filter (fun u => (a <? u) && (u <=? b)) used).

Lemma cnt_nil a b : cnt [] a b = 0.
Proof. reflexivity. Qed.
Lemma cnt_cons u used a b : cnt (u :: used) a b = (if (a <? u) && (u <=? b) then 1 else 0) + cnt used a b.
Proof. unfold cnt, zlen. cbn [filter]. destruct (_ && _); cbn [length]; lia. Qed.
Lemma cnt_split used a b c : a <= b <= c -> cnt used a c = cnt used a b + cnt used b c.
Proof.
  intros H. induction used as [|u used IH]; [reflexivity|]. rewrite !cnt_cons, IH.
  destruct (Z.ltb_spec a u), (Z.leb_spec u c), (Z.leb_spec u b), (Z.ltb_spec b u); cbn [andb]; lia.
Qed.
Lemma cnt_range used a b : 0 <= cnt used a b <= zlen used.
Proof. induction used as [|u used IH]; [cbn; lia|]. rewrite cnt_cons, zlen_cons. destruct (_ && _); lia. Qed.
Lemma cnt_one used m : NoDup used -> cnt used (m - 1) m = if in_dec Z.eq_dec m used then 1 else 0.
Proof.
  induction 1 as [|u used Hn Hd IH]; [reflexivity|]. rewrite cnt_cons, IH.
  destruct (Z.eq_dec u m) as [->|N].
  - replace ((m - 1 <? m) && (m <=? m)) with true by lia.
    destruct (in_dec Z.eq_dec m used); [contradiction|]. destruct (in_dec Z.eq_dec m (m :: used)) as [|H]; [reflexivity|].
    exfalso. apply H. now left.
  - replace ((m - 1 <? u) && (u <=? m)) with false by lia.
    destruct (in_dec Z.eq_dec m used) as [I|I], (in_dec Z.eq_dec m (u :: used)) as [J|J]; try reflexivity.
    + exfalso. apply J. now right.
    + exfalso. destruct J; [congruence|contradiction].
Qed.
Lemma cnt_at_most used a b : NoDup used -> a <= b -> cnt used a b <= b - a.
Proof.
  intros Hd H. replace b with (a + Z.of_nat (Z.to_nat (b - a))) by lia. generalize (Z.to_nat (b - a)). clear H b.
  induction n as [|n IH]; [rewrite Z.add_0_r|].
  - replace (cnt used a a) with 0; [lia|]. induction used as [|u used IH]; [reflexivity|]. rewrite cnt_cons.
    inversion Hd; subst. rewrite <- IH by assumption. replace ((a <? u) && (u <=? a)) with false by lia. reflexivity.
  - rewrite (cnt_split used a (a + Z.of_nat n) (a + Z.of_nat (S n))) by lia.
    replace (a + Z.of_nat n) with (a + Z.of_nat (S n) - 1) at 2 by lia. rewrite cnt_one by assumption.
    destruct (in_dec _ _ _); lia.
Qed.
Lemma cnt_all used n : Forall (fun u => 1 <= u <= n) used -> cnt used 0 n = zlen used.
Proof.
  induction 1 as [|u used Hu _ IH]; [reflexivity|]. rewrite cnt_cons, zlen_cons, IH.
  replace ((0 <? u) && (u <=? n)) with true by lia. reflexivity.
Qed.

(* the number of unused positions up to m *)
Definition free (used : list Z) (m : Z) : Z := m - cnt used 0 m.
Lemma free_mono used a b : NoDup used -> 0 <= a <= b -> free used a <= free used b.
Proof. intros Hd H. unfold free. rewrite (cnt_split used 0 a b) by lia. pose proof (cnt_at_most used a b Hd). lia. Qed.
Lemma free_succ used m : NoDup used -> 0 <= m -> free used (m + 1) = free used m + (if in_dec Z.eq_dec (m + 1) used then 0 else 1).
Proof.
  intros Hd H. unfold free. rewrite (cnt_split used 0 m (m + 1)) by lia.
  replace (cnt used m (m + 1)) with (cnt used (m + 1 - 1) (m + 1)) by (f_equal; lia).
  rewrite cnt_one by assumption. destruct (in_dec _ _ _); lia.
Qed.
Lemma free_inj used a b : NoDup used -> 0 <= a -> 0 <= b -> ~ In (a + 1) used -> ~ In (b + 1) used ->
  free used a = free used b -> a = b.
Proof.
  intros Hd Ha Hb Na Nb E.
  assert (K : forall x y, 0 <= x < y -> ~ In (x + 1) used -> free used x < free used y).
  { intros x y Hxy Hn. pose proof (free_mono used (x + 1) y Hd ltac:(lia)). rewrite free_succ in H by (auto; lia).
    destruct (in_dec _ _ _); [contradiction|lia]. }
  destruct (Z.lt_trichotomy a b) as [H|[H|H]]; auto; [pose proof (K a b)|pose proof (K b a)]; intuition lia.
Qed.

(* ---- the encoder's tree ---- *)
Definition tree (n : Z) (t : Z -> Z) (used : list Z) : Prop :=
  forall i k, 1 <= i <= n -> low i k -> t i = cnt used (i - 2 ^ k) i.

Lemma fen_sum_spec n t used F : n < 2 ^ 31 -> tree n t used -> zlen used < 2 ^ 31 ->
  forall fuel m i acc q, 0 <= i <= n -> i < 2 ^ F -> 0 <= m -> i = q * 2 ^ m -> F - m <= Z.of_nat fuel ->
  0 <= acc -> acc + cnt used 0 i < 2 ^ 32 ->
  fen_sum fuel (n + 1) t i acc = Some (acc + cnt used 0 i).
Proof.
  intros Hn Ht Hu. induction fuel as [|fuel IH]; intros m i acc q Hi HF Hm Eq Hfuel Ha Hb; cbn [fen_sum].
  - destruct (Z.eqb_spec i 0) as [->|NZ].
    + replace (cnt used 0 0) with 0; [f_equal; lia|]. clear. induction used as [|u l IH]; [reflexivity|]. rewrite cnt_cons, <- IH.
      replace ((0 <? u) && (u <=? 0)) with false by lia. reflexivity.
    + exfalso. assert (2 ^ F <= 2 ^ m) by (apply Z.pow_le_mono_r; lia).
      assert (0 < 2 ^ m) by (apply Z.pow_pos_nonneg; lia). assert (1 <= q) by nia. nia.
  - destruct (Z.eqb_spec i 0) as [->|NZ].
    + replace (cnt used 0 0) with 0; [f_equal; lia|]. clear. induction used as [|u l IH]; [reflexivity|]. rewrite cnt_cons, <- IH.
      replace ((0 <? u) && (u <=? 0)) with false by lia. reflexivity.
    + destruct (low_exists i ltac:(lia)) as (k & Hl). pose proof (low_le i k ltac:(lia) Hl) as Hk.
      assert (P : 0 < 2 ^ k) by (destruct Hl; apply Z.pow_pos_nonneg; lia).
      rewrite get_ok by lia. rewrite (clear_low i k) by (auto; lia).
      rewrite (Ht i k) by (auto; lia). rewrite (cnt_split used 0 (i - 2 ^ k) i) in Hb |- * by lia.
      pose proof (cnt_range used 0 (i - 2 ^ k)). pose proof (cnt_range used (i - 2 ^ k) i).
      rewrite (w32_id (acc + _)) by (unfold is_u32; lia).
      assert (Hmk : m <= k).
      { destruct (Z.le_gt_cases m k); auto. exfalso. destruct Hl as [Hk0 (r & Er)].
        destruct (pow_split k m ltac:(lia)) as (w & Ew & Hw & (w' & ->)); [lia|]. rewrite Er, Ew in Eq.
        assert (2 * r + 1 = q * (2 * w')) by nia. lia. }
      destruct Hl as [Hk0 (r & Er)].
      rewrite (IH (k + 1) (i - 2 ^ k) (acc + cnt used (i - 2 ^ k) i) r); try lia.
      * f_equal. lia.
      * rewrite Z.pow_add_r by lia. change (2 ^ 1) with 2. nia.
Qed.

Lemma fen_add_spec n : n < 2 ^ 31 ->
  forall fuel k i t, 0 < i -> low i k -> 32 <= Z.of_nat fuel + k ->
  (forall j, i <= j <= n -> 0 <= t j < 2 ^ 31) ->
  exists t', fen_add fuel n (n + 1) t i = Some t' /\
    forall j kj, 1 <= j <= n -> low j kj -> t' j = t j + (if (i <=? j) && (j - 2 ^ kj <? i) then 1 else 0).
Proof.
  intros Hn. induction fuel as [|fuel IH]; intros k i t Hi Hl Hf Ht; cbn [fen_add].
  - destruct (Z.ltb_spec i (n + 1)) as [H|H].
    + exfalso. pose proof (low_le i k Hi Hl). assert (2 ^ 31 <= 2 ^ k) by (apply Z.pow_le_mono_r; lia). lia.
    + exists t. split; [reflexivity|]. intros j kj Hj _. replace (i <=? j) with false by lia. cbn [andb]. lia.
  - destruct (Z.ltb_spec i (n + 1)) as [H|H].
    + rewrite get_ok, set_ok by lia. pose proof (low_le i k Hi Hl) as Hk. 
      assert (P : 0 < 2 ^ k) by (destruct Hl; apply Z.pow_pos_nonneg; lia).
      rewrite (lowest1_low i k) by (auto; lia). rewrite (w32_id (i + 2 ^ k)) by (unfold is_u32; lia).
      destruct (low_exists (i + 2 ^ k) ltac:(lia)) as (k' & Hl'). pose proof (low_next i k k' Hi Hl Hl') as Hkk.
      pose proof (Ht i ltac:(lia)) as Hti. rewrite (w32_id (t i + 1)) by (unfold is_u32; lia).
      destruct (IH k' (i + 2 ^ k) (fun j => if j =? i then t i + 1 else t j)) as (t' & E & S); auto; try lia.
      { intros j Hj. replace (j =? i) with false by lia. apply Ht. lia. }
      exists t'. split; [exact E|]. intros j kj Hj Hlj. rewrite (S j kj Hj Hlj).
      assert (Pj : 0 < 2 ^ kj) by (destruct Hlj; apply Z.pow_pos_nonneg; lia).
      destruct (Z.eqb_spec j i) as [->|N].
      * replace (i + 2 ^ k <=? i) with false by lia. replace (i <=? i) with true by lia. replace (i - 2 ^ kj <? i) with true by lia.
        cbn [andb]. lia.
      * destruct (Z.lt_ge_cases j i).
        -- replace (i + 2 ^ k <=? j) with false by lia. replace (i <=? j) with false by lia. reflexivity.
        -- pose proof (chain_step j i kj k Hi ltac:(lia) Hlj Hl) as C. replace (i <=? j) with true by lia. cbn [andb].
           destruct (Z.leb_spec (i + 2 ^ k) j), (Z.ltb_spec (j - 2 ^ kj) (i + 2 ^ k)), (Z.ltb_spec (j - 2 ^ kj) i); cbn [andb]; lia.
    + exists t. split; [reflexivity|]. intros j kj Hj _. replace (i <=? j) with false by lia. cbn [andb]. lia.
Qed.

(* ---- the decoder's tree ---- *)
Definition dtree (padded : Z) (t : Z -> Z) (used : list Z) : Prop :=
  forall i k, 1 <= i <= padded -> low i k -> t (i - 1) = 2 ^ k - cnt used (i - 2 ^ k) i.

Lemma mark_spec n : n < 2 ^ 31 ->
  forall fuel k i t, 0 < i -> low i k -> 32 <= Z.of_nat fuel + k ->
  (forall j, i <= j <= n -> j - 1 < n) ->
  exists t', mark fuel n t i = Some t' /\
    forall j kj, 1 <= j <= n -> low j kj ->
      (1 <= t (j - 1) <= 2 ^ 31 \/ (i <=? j) && (j - 2 ^ kj <? i) = false) -> t' (j - 1) = t (j - 1) - (if (i <=? j) && (j - 2 ^ kj <? i) then 1 else 0).
Proof.
  intros Hn. induction fuel as [|fuel IH]; intros k i t Hi Hl Hf Ht; cbn [mark].
  - destruct (Z.leb_spec i n) as [H|H].
    + exfalso. pose proof (low_le i k Hi Hl). assert (2 ^ 31 <= 2 ^ k) by (apply Z.pow_le_mono_r; lia). lia.
    + exists t. split; [reflexivity|]. intros j kj Hj _ _. replace (i <=? j) with false by lia. cbn [andb]. lia.
  - destruct (Z.leb_spec i n) as [H|H].
    + rewrite get_ok, set_ok by lia. pose proof (low_le i k Hi Hl) as Hk.
      assert (P : 0 < 2 ^ k) by (destruct Hl; apply Z.pow_pos_nonneg; lia).
      rewrite (lowest64_low i k) by (auto; lia).
      destruct (low_exists (i + 2 ^ k) ltac:(lia)) as (k' & Hl'). pose proof (low_next i k k' Hi Hl Hl') as Hkk.
      destruct (IH k' (i + 2 ^ k) (fun j => if j =? i - 1 then w32 (t (i - 1) - 1) else t j)) as (t' & E & S); auto; try lia.
      exists t'. split; [exact E|]. intros j kj Hj Hlj HB.
      assert (Pj : 0 < 2 ^ kj) by (destruct Hlj; apply Z.pow_pos_nonneg; lia).
      specialize (S j kj Hj Hlj).
      destruct (Z.eq_dec j i) as [->|N].
      * rewrite S.
        -- replace (i - 1 =? i - 1) with true by lia. replace (i + 2 ^ k <=? i) with false by lia. replace (i <=? i) with true in * by lia.
           replace (i - 2 ^ kj <? i) with true in * by lia. cbn [andb] in *. rewrite w32_id; [lia|]. unfold is_u32. destruct HB; [lia|discriminate].
        -- right. replace (i + 2 ^ k <=? i) with false by lia. reflexivity.
      * replace (j - 1 =? i - 1) with false in S by lia.
        assert (C : (i + 2 ^ k <=? j) && (j - 2 ^ kj <? i + 2 ^ k) = (i <=? j) && (j - 2 ^ kj <? i)).
        { destruct (Z.lt_ge_cases j i).
          - replace (i + 2 ^ k <=? j) with false by lia. replace (i <=? j) with false by lia. reflexivity.
          - pose proof (chain_step j i kj k Hi ltac:(lia) Hlj Hl) as C. replace (i <=? j) with true by lia. cbn [andb].
            destruct (Z.leb_spec (i + 2 ^ k) j), (Z.ltb_spec (j - 2 ^ kj) (i + 2 ^ k)), (Z.ltb_spec (j - 2 ^ kj) i); cbn [andb]; auto; lia. }
        rewrite C in S. apply S. exact HB.
    + exists t. split; [reflexivity|]. intros j kj Hj _ _. replace (i <=? j) with false by lia. cbn [andb]. lia.
Qed.

Lemma low_odd_multiple m b : 0 <= b -> (exists q, m = q * 2 ^ (b + 1)) -> low (m + 2 ^ b) b.
Proof. intros Hb (q & ->). split; [exact Hb|]. exists q. rewrite Z.pow_add_r by lia. change (2 ^ 1) with 2. lia. Qed.

Lemma descend_spec padded t used c : padded < 2 ^ 31 -> dtree padded t used -> NoDup used -> 0 <= c ->
  forall b next, 0 <= next -> (exists q, next = q * 2 ^ Z.of_nat b) -> next + 2 ^ Z.of_nat b <= padded ->
  free used next <= c -> c < free used (next + 2 ^ Z.of_nat b) ->
  exists s, descend b padded t (2 ^ Z.of_nat b / 2) next (c + 1 - free used next) = Some s /\
    0 <= s < padded /\ free used s <= c < free used (s + 1).
Proof.
  intros Hp Ht Hd Hc. induction b as [|b IH]; intros next Hn Hq Hle H1 H2; cbn [descend].
  - cbn in *. exists next. repeat split; auto; lia.
  - assert (E2 : 2 ^ Z.of_nat (S b) = 2 * 2 ^ Z.of_nat b) by (rewrite Nat2Z.inj_succ, Z.pow_succ_r by lia; reflexivity).
    assert (P : 0 < 2 ^ Z.of_nat b) by (apply Z.pow_pos_nonneg; lia).
    replace (2 ^ Z.of_nat (S b) / 2) with (2 ^ Z.of_nat b) by (rewrite E2, Z.mul_comm, Z.div_mul; lia).
    rewrite E2 in *. replace (Z.shiftr (2 ^ Z.of_nat b) 1) with (2 ^ Z.of_nat b / 2) by (rewrite Z.shiftr_div_pow2 by lia; reflexivity).
    set (p := 2 ^ Z.of_nat b) in *. replace (next + p <? 1) with false by lia. rewrite get_ok by lia.
    assert (Hl : low (next + p) (Z.of_nat b)).
    { apply low_odd_multiple; [lia|]. destruct Hq as (q & ->). exists q. rewrite Z.pow_add_r by lia. change (2 ^ 1) with 2. fold p. lia. }
    rewrite (Ht (next + p) (Z.of_nat b)) by (auto; lia). fold p. replace (next + p - p) with next by lia.
    assert (EF : free used (next + p) = free used next + (p - cnt used next (next + p))).
    { unfold free. rewrite (cnt_split used 0 next (next + p)) by lia. lia. }
    pose proof (cnt_at_most used next (next + p) Hd ltac:(lia)).
    pose proof (free_mono used next (next + p) Hd ltac:(lia)).
    pose proof (free_mono used 0 next Hd ltac:(lia)). assert (F0 : free used 0 = 0).
    { unfold free. pose proof (cnt_at_most used 0 0 Hd). pose proof (cnt_range used 0 0). lia. }
    assert (Hfr : free used (next + 2 * p) <= next + 2 * p). { unfold free. pose proof (cnt_range used 0 (next + 2 * p)). lia. }
    destruct Hq as (q & Eq).
    destruct (Z.ltb_spec (p - cnt used next (next + p)) (c + 1 - free used next)) as [L|L].
    + rewrite w32_id by (unfold is_u32; lia).
      replace (c + 1 - free used next - (p - cnt used next (next + p))) with (c + 1 - free used (next + p)) by lia.
      apply IH; try lia; [|replace (next + p + p) with (next + 2 * p) by lia; lia].
      exists (2 * q + 1). fold p. lia.
    + apply IH; try lia. exists (2 * q). fold p. lia.
Qed.

Lemma descend_top padded L t used c : padded = 2 ^ L -> 0 <= L <= 30 -> dtree padded t used -> NoDup used -> 0 <= c ->
  c < free used padded ->
  exists s, descend (S (Z.to_nat L)) padded t padded 0 (w32 (c + 1)) = Some s /\
    0 <= s < padded /\ free used s <= c < free used (s + 1).
Proof.
  intros Ep HL Ht Hd Hc Hf. cbn [descend].
  assert (P : 0 < padded <= 2 ^ 30). { subst padded. split; [apply Z.pow_pos_nonneg; lia|apply Z.pow_le_mono_r; lia]. }
  assert (Hfr : free used padded <= padded). { unfold free. pose proof (cnt_range used 0 padded). lia. }
  replace (0 + padded <? 1) with false by lia. rewrite Z.add_0_l. rewrite get_ok by lia.
  rewrite (Ht padded L); [|lia|]. 2: { split; [lia|]. exists 0. lia. }
  rewrite <- Ep. replace (padded - padded) with 0 by lia. fold (free used padded).
  rewrite w32_id by (unfold is_u32; lia). replace (free used padded <? c + 1) with false by lia.
  assert (F0 : free used 0 = 0).
  { unfold free. pose proof (cnt_at_most used 0 0 Hd). pose proof (cnt_range used 0 0). lia. }
  pose proof (descend_spec padded t used c ltac:(lia) Ht Hd Hc (Z.to_nat L) 0 ltac:(lia)) as D.
  rewrite Z2Nat.id, <- Ep, F0, Z.sub_0_r in D by lia. rewrite Z.shiftr_div_pow2 by lia. change (2 ^ 1) with 2. 
  apply D; [exists 0; lia|lia|lia|exact Hf].
Qed.

(* ---- the code as ranks ---- *)
Fixpoint ranks (used : list Z) (perm : list Z) : list Z :=
  match perm with [] => [] | s :: p => free used s :: ranks (s + 1 :: used) p end.

Definition fresh (n : Z) (used perm : list Z) : Prop :=
  NoDup used /\ Forall (fun u => 1 <= u <= n) used /\ NoDup perm /\ Forall (fun s => 0 <= s < n) perm /\
  forall s, In s perm -> ~ In (s + 1) used.

Lemma fresh_cons n used s perm : fresh n used (s :: perm) -> fresh n (s + 1 :: used) perm /\ 0 <= s < n /\ ~ In (s + 1) used.
Proof.
  intros (H1 & H2 & H3 & H4 & H5). inversion H3; inversion H4; subst. repeat split; auto; try lia.
  - constructor; auto. apply H5. now left.
  - constructor; auto. lia.
  - intros v Hv [E|I]; [assert (v = s) by lia; congruence|]. apply (H5 v); [now right|exact I].
  - apply H5. now left.
Qed.

Lemma ranks_inj n p : forall used p', fresh n used p -> fresh n used p' -> ranks used p = ranks used p' -> p = p'.
Proof.
  induction p as [|s p IH]; intros used [|s' p'] F F' E; cbn in E; try discriminate; [reflexivity|].
  apply fresh_cons in F as (F & Hs & Hn). apply fresh_cons in F' as (F' & Hs' & Hn'). injection E as E1 E2.
  assert (s = s') as <-. { apply (free_inj used); auto; try lia. destruct F as (F & _). now inversion F. }
  f_equal. eapply IH; eauto.
Qed.

Lemma free_last used n i : Forall (fun u => 1 <= u <= n) used -> zlen used = i -> free used n = n - i.
Proof. intros H E. unfold free. rewrite cnt_all by assumption. lia. Qed.

Lemma NoDup_bound l n : NoDup l -> Forall (fun u => 1 <= u <= n) l -> 0 <= n -> zlen l <= n.
Proof. intros H F Hn. rewrite <- (cnt_all l n F). pose proof (cnt_at_most l 0 n H). lia. Qed.

Lemma ranks_valid n p : forall used i, fresh n used p -> zlen used = i ->
  forall j v, znth (ranks used p) j = Some v -> 0 <= v /\ v + i + j < n.
Proof.
  induction p as [|s p IH]; intros used i F E j v Hj; cbn in Hj.
  - unfold znth in Hj. destruct (j <? 0); [discriminate|]. now destruct (Z.to_nat j).
  - apply fresh_cons in F as (F & Hs & Hn). unfold znth in Hj. destruct (Z.ltb_spec j 0); [discriminate|].
    assert (Hd : NoDup used) by (destruct F as (F & _); now inversion F).
    assert (Hr : Forall (fun u => 1 <= u <= n) used) by (destruct F as (_ & F & _); now inversion F).
    destruct (Z.eq_dec j 0) as [->|].
    + cbn in Hj. injection Hj as <-. pose proof (free_succ used s Hd ltac:(lia)) as S. destruct (in_dec _ _ _); [contradiction|].
      pose proof (free_mono used (s + 1) n Hd ltac:(lia)) as M. rewrite (free_last used n i) in M by assumption.
      unfold free at 1. pose proof (cnt_at_most used 0 s Hd). lia.
    + specialize (IH (s + 1 :: used) (i + 1) F ltac:(rewrite zlen_cons; lia) (j - 1) v). unfold znth in IH.
      replace (j - 1 <? 0) with false in IH by lia. replace (Z.to_nat j) with (S (Z.to_nat (j - 1))) in Hj by lia.
      cbn in Hj. apply IH in Hj. lia.
Qed.

Lemma compute_loop_spec n : n < 2 ^ 31 -> forall perm used t, fresh n used perm -> tree n t used ->
  compute_loop n t perm = Some (ranks used perm).
Proof.
  intros Hn. induction perm as [|s perm IH]; intros used t F Ht; cbn [compute_loop ranks]; [reflexivity|].
  apply fresh_cons in F as (F & Hs & Hnin).
  assert (Hd : NoDup used) by (destruct F as (F' & _); now inversion F').
  assert (Hr : Forall (fun u => 1 <= u <= n) used) by (destruct F as (_ & F' & _); now inversion F').
  assert (Hlen : zlen used <= n) by (apply NoDup_bound; auto; lia).
  rewrite (w32_id (s + 1)) by (unfold is_u32; lia).
  pose proof (cnt_range used 0 (s + 1)) as Hc1.
  rewrite (fen_sum_spec n t used 31 Hn Ht ltac:(lia) fuel0 0 (s + 1) 0 (s + 1)) by (try lia; unfold fuel0; lia).
  rewrite Z.add_0_l. pose proof (free_succ used s Hd ltac:(lia)) as S. destruct (in_dec _ _ _); [contradiction|].
  assert (EC : cnt used 0 (s + 1) = cnt used 0 s) by (unfold free in S; lia). rewrite EC.
  pose proof (cnt_at_most used 0 s Hd ltac:(lia)). replace (s <? cnt used 0 s) with false by lia.
  destruct (low_exists (s + 1) ltac:(lia)) as (k & Hl).
  destruct (fen_add_spec n Hn fuel0 k (s + 1) t ltac:(lia) Hl) as (t' & -> & S').
  { destruct Hl. unfold fuel0. lia. }
  { intros j Hj. destruct (low_exists j ltac:(lia)) as (kj & Hlj). rewrite (Ht j kj) by (auto; lia). pose proof (cnt_range used (j - 2 ^ kj) j). lia. }
  rewrite (IH (s + 1 :: used) t'); auto.
  intros i k' Hi Hl'. rewrite (S' i k' Hi Hl'), (Ht i k' Hi Hl'), cnt_cons.
  replace ((i - 2 ^ k' <? s + 1) && (s + 1 <=? i)) with ((s + 1 <=? i) && (i - 2 ^ k' <? s + 1)) by apply andb_comm. lia.
Qed.

Lemma decode_loop_spec n L padded : 0 < n <= padded -> padded = 2 ^ L -> 0 <= L <= 30 ->
  forall code used t i, dtree padded t used -> NoDup used -> Forall (fun u => 1 <= u <= n) used -> zlen used = i ->
  (forall j v, znth code j = Some v -> 0 <= v /\ v + i + j < n) ->
  exists perm, decode_loop n L padded t i code = Some perm /\ ranks used perm = code /\ fresh n used perm.
Proof.
  intros Hn Ep HL. induction code as [|c code IH]; intros used t i Ht Hd Hr Hi Hv; cbn [decode_loop].
  - exists []. repeat split; auto. constructor.
  - assert (P30 : padded <= 2 ^ 30) by (subst padded; apply Z.pow_le_mono_r; lia).
    assert (H0 : 0 <= c /\ c + i < n). { specialize (Hv 0 c eq_refl). lia. }
    replace (n <=? c + i) with false by lia.
    assert (Hfree : free used n = n - i) by now apply free_last.
    assert (Hfp : c < free used padded). { pose proof (free_mono used n padded Hd ltac:(lia)). lia. }
    destruct (descend_top padded L t used c Ep HL Ht Hd ltac:(lia) Hfp) as (s & -> & Hs & Hs1 & Hs2).
    pose proof (free_succ used s Hd ltac:(lia)) as FS. destruct (in_dec Z.eq_dec (s + 1) used) as [I|Hnin]; [lia|].
    assert (Es : free used s = c) by lia.
    assert (Hsn : s < n). { destruct (Z.lt_ge_cases s n); auto. pose proof (free_mono used n s Hd ltac:(lia)). lia. }
    destruct (low_exists (s + 1) ltac:(lia)) as (k & Hl).
    destruct (mark_spec padded ltac:(lia) fuel0 k (s + 1) t ltac:(lia) Hl) as (t' & -> & St).
    { destruct Hl. unfold fuel0. lia. } { intros; lia. }
    destruct (IH (s + 1 :: used) t' (i + 1)) as (perm & -> & Er & F).
    + intros j kj Hj Hlj. assert (Hle : 2 ^ kj <= j) by (apply low_le; auto; lia). assert (Pj : 0 < 2 ^ kj) by (destruct Hlj; apply Z.pow_pos_nonneg; lia).
      rewrite (St j kj Hj Hlj), (Ht j kj Hj Hlj), cnt_cons.
      * replace ((j - 2 ^ kj <? s + 1) && (s + 1 <=? j)) with ((s + 1 <=? j) && (j - 2 ^ kj <? s + 1)) by apply andb_comm. lia.
      * destruct ((s + 1 <=? j) && (j - 2 ^ kj <? s + 1)) eqn:E; [left|now right]. rewrite (Ht j kj Hj Hlj).
        assert (ND : NoDup (s + 1 :: used)) by (constructor; auto).
        pose proof (cnt_at_most (s + 1 :: used) (j - 2 ^ kj) j ND ltac:(lia)) as C. rewrite cnt_cons in C.
        replace ((j - 2 ^ kj <? s + 1) && (s + 1 <=? j)) with true in C by lia.
        pose proof (cnt_range used (j - 2 ^ kj) j). lia.
    + constructor; auto.
    + constructor; auto. lia.
    + rewrite zlen_cons. lia.
    + intros j v Hj. assert (Hj0 : 0 <= j). { unfold znth in Hj. destruct (Z.ltb_spec j 0); [discriminate|lia]. }
      specialize (Hv (j + 1) v). unfold znth in Hv, Hj. replace (j + 1 <? 0) with false in Hv by lia. replace (j <? 0) with false in Hj by lia.
      replace (Z.to_nat (j + 1)) with (S (Z.to_nat j)) in Hv by lia. apply Hv in Hj. lia.
    + exists (s :: perm). cbn [ranks]. rewrite Es, Er. repeat split; auto.
      * destruct F as (_ & _ & F3 & _ & F5). constructor; auto. intros I. apply (F5 s I). now left.
      * destruct F as (_ & _ & _ & F4 & _). constructor; auto. lia.
      * destruct F as (_ & _ & _ & _ & F5). intros v [<-|I] J; [contradiction|]. apply (F5 v I). now right.
Qed.

Lemma tree_init n : tree n (fun _ => 0) [].
Proof. intros i k _ _. reflexivity. Qed.
Lemma dtree_init padded : padded < 2 ^ 31 -> dtree padded (fun i => lowest1 (i + 1)) [].
Proof. intros H i k Hi Hl. replace (i - 1 + 1) with i by lia. rewrite (lowest1_low i k) by (auto; lia). rewrite cnt_nil. lia. Qed.

Lemma perm_fresh n p : is_permutation n p -> fresh n [] p.
Proof.
  intros (Hl & Hd & Hi). repeat split; auto; try constructor. 
  - apply Forall_forall. intros s. apply Hi.
Qed.
Lemma fresh_perm n p : fresh n [] p -> zlen p = n -> is_permutation n p.
Proof.
  intros (_ & _ & Hd & Hr & _) Hl. split; [exact Hl|]. split; [exact Hd|]. intros v. split.
  - intros Hv. rewrite Forall_forall in Hr. now apply Hr.
  - intros Hv. assert (Hincl : incl (map Z.of_nat (seq 0 (Z.to_nat n))) p).
    { apply NoDup_length_incl; auto.
      - rewrite map_length, seq_length. unfold zlen in Hl. lia.
      - intros u Hu. rewrite Forall_forall in Hr. apply Hr in Hu. apply in_map_iff. exists (Z.to_nat u). split; [lia|]. apply in_seq. lia. }
    apply Hincl. apply in_map_iff. exists (Z.to_nat v). split; [lia|]. apply in_seq. lia.
Qed.

Lemma ranks_length p : forall used, zlen (ranks used p) = zlen p.
Proof. induction p as [|s p IH]; intros used; cbn [ranks]; [reflexivity|]. now rewrite !zlen_cons, IH. Qed.

Lemma ranks_nth p : forall used i v, Forall (fun s => 0 <= s) p -> nth_error p i = Some v ->
  nth_error (ranks used p) i = Some (v - cnt used 0 v - zlen (filter (fun u => u <? v) (firstn i p))).
Proof.
  induction p as [|s p IH]; intros used [|i] v F E; cbn in E; try discriminate.
  - injection E as <-. cbn. f_equal. unfold free. lia.
  - inversion F; subst. cbn [ranks nth_error firstn filter]. rewrite (IH _ _ _ H2 E), cnt_cons. f_equal.
    replace ((0 <? s + 1) && (s + 1 <=? v)) with (s <? v) by lia. destruct (s <? v); rewrite ?zlen_cons; lia.
Qed.

(* ---- results ---- *)
Lemma lehmer_code_ranks n p : 0 <= n < 2 ^ 31 -> is_permutation n p -> compute_lehmer p = Some (ranks [] p).
Proof.
  intros Hn Hp. unfold compute_lehmer. destruct Hp as (E & Hp). rewrite E.
  apply compute_loop_spec; [lia| |apply tree_init]. apply perm_fresh. split; auto.
Qed.

Lemma lehmer_code_meaning n p : 0 <= n < 2 ^ 31 -> is_permutation n p ->
  exists c, compute_lehmer p = Some c /\ zlen c = n /\
    forall i v, nth_error p i = Some v -> nth_error c i = Some (rank_among (firstn i p) v).
Proof.
  intros Hn Hp. exists (ranks [] p). split; [now apply (lehmer_code_ranks n)|]. destruct Hp as (E & Hd & Hi). rewrite ranks_length. split; [exact E|].
  intros i v Hv. rewrite (ranks_nth p [] i v) with (2 := Hv).
  - f_equal. unfold rank_among. rewrite cnt_nil. lia.
  - apply Forall_forall. intros u Hu. apply Hi in Hu. lia.
Qed.

Lemma decode_lehmer_ok n c : 0 < n <= 2 ^ 30 -> valid_code n c ->
  exists p, decode_lehmer c = Some p /\ is_permutation n p /\ ranks [] p = c.
Proof.
  intros Hn (E & Hv). unfold decode_lehmer. rewrite E. replace (n =? 0) with false by lia.
  destruct (ceil_log2_spec n ltac:(lia)) as (H1 & H2 & H3). specialize (H3 30 ltac:(lia) ltac:(lia)).
  assert (P30 : 2 ^ ceil_log2 n <= 2 ^ 30) by (apply Z.pow_le_mono_r; lia).
  destruct (decode_loop_spec n (ceil_log2 n) (2 ^ ceil_log2 n) ltac:(lia) eq_refl ltac:(lia) c [] (fun i => lowest1 (i + 1)) 0) as (p & Ed & Er & F); auto.
  - apply dtree_init. lia.
  - constructor.
  - intros j v Hj. apply Hv in Hj. lia.
  - exists p. split; [exact Ed|]. split; [|exact Er]. apply fresh_perm; [exact F|]. rewrite <- Er, ranks_length in E. exact E.
Qed.

Lemma lehmer_roundtrip n p : 0 < n <= 2 ^ 30 -> is_permutation n p ->
  exists c, compute_lehmer p = Some c /\ valid_code n c /\ decode_lehmer c = Some p.
Proof.
  intros Hn Hp. exists (ranks [] p). split; [apply (lehmer_code_ranks n); auto; lia|].
  assert (V : valid_code n (ranks [] p)).
  { split; [rewrite ranks_length; apply Hp|]. intros i v Hi.
    pose proof (ranks_valid n p [] 0 (perm_fresh _ _ Hp) eq_refl i v Hi). lia. }
  split; [exact V|]. destruct (decode_lehmer_ok n _ Hn V) as (p' & -> & Hp' & E). f_equal.
  apply (ranks_inj n) with (used := []); auto using perm_fresh.
Qed.

Lemma lehmer_surjective n c : 0 < n <= 2 ^ 30 -> valid_code n c ->
  exists p, decode_lehmer c = Some p /\ is_permutation n p /\ compute_lehmer p = Some c.
Proof.
  intros Hn Hv. destruct (decode_lehmer_ok n c Hn Hv) as (p & E & Hp & Er). exists p. split; [exact E|]. split; [exact Hp|].
  rewrite (lehmer_code_ranks n) by (auto; lia). now rewrite Er.
Qed.

Lemma decode_loop_valid n L padded : forall code t i perm, decode_loop n L padded t i code = Some perm ->
  forall j v, znth code j = Some v -> v + i + j < n.
Proof.
  induction code as [|c code IH]; intros t i perm E j v Hj; cbn [decode_loop] in E.
  - unfold znth in Hj. destruct (j <? 0); [discriminate|]. now destruct (Z.to_nat j).
  - destruct (Z.leb_spec n (c + i)); [discriminate|]. destruct (descend _ _ _ _ _ _) as [s|]; [|discriminate].
    destruct (mark _ _ _ _) as [t'|]; [|discriminate]. destruct (decode_loop _ _ _ _ _ _) as [p|] eqn:Ed; [|discriminate].
    unfold znth in Hj. destruct (Z.ltb_spec j 0); [discriminate|]. destruct (Z.eq_dec j 0) as [->|].
    + cbn in Hj. injection Hj as <-. lia.
    + specialize (IH t' (i + 1) p Ed (j - 1) v). unfold znth in IH. replace (j - 1 <? 0) with false in IH by lia.
      replace (Z.to_nat j) with (S (Z.to_nat (j - 1))) in Hj by lia. apply IH in Hj. lia.
Qed.

Lemma lehmer_rejects c p : Forall is_u32 c -> decode_lehmer c = Some p -> valid_code (zlen c) c.
Proof.
  intros Hu E. split; [reflexivity|]. intros i v Hi. unfold decode_lehmer in E. destruct (zlen c =? 0); [discriminate|].
  pose proof (decode_loop_valid _ _ _ _ _ _ _ E i v Hi). split; [|lia].
  rewrite Forall_forall in Hu. unfold znth in Hi. destruct (i <? 0); [discriminate|]. apply nth_error_In in Hi. apply Hu in Hi. unfold is_u32 in Hi. lia.
Qed.
