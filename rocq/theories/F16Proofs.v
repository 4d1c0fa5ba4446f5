(* F16Coder::Write rounds toward zero. *)
From Verif Require Import Base FieldsModel FieldsSpec FieldsProofs.

Lemma half_mag_decomp e m : 0 <= e < 32 -> 0 <= m < 1024 ->
  half_mag (e * 1024 + m) = if e =? 0 then m * 2 ^ 125 else (1024 + m) * 2 ^ (124 + e).
Proof.
  intros He Hm. unfold half_mag.
  replace ((e * 1024 + m) / 1024) with e by lia.
  replace ((e * 1024 + m) mod 1024) with m by lia.
  rewrite (Z.mod_small e 32) by lia. reflexivity.
Qed.

Lemma half_mag_succ h : 0 <= h < 31744 - 1 -> half_mag h < half_mag (h + 1).
Proof.
  intros Hh. rewrite (Z.div_mod h 1024) at 1 2 by lia.
  set (e := h / 1024). set (m := h mod 1024).
  assert (0 <= e < 31) as He by (unfold e; lia). assert (0 <= m < 1024) as Hm by (unfold m; lia).
  replace (1024 * e + m) with (e * 1024 + m) by lia.
  rewrite half_mag_decomp by lia.
  destruct (Z.eq_dec m 1023) as [->|Hne].
  - replace (e * 1024 + 1023 + 1) with ((e + 1) * 1024 + 0) by lia.
    rewrite half_mag_decomp by lia. destruct (Z.eqb_spec (e + 1) 0); [lia|].
    destruct (Z.eqb_spec e 0) as [->|].
    + change (124 + (0 + 1)) with 125. nia.
    + replace (124 + (e + 1)) with (1 + (124 + e)) by lia. rewrite (Z.pow_add_r 2 1) by lia.
      assert (0 < 2 ^ (124 + e)) by lia. lia.
  - replace (e * 1024 + m + 1) with (e * 1024 + (m + 1)) by lia.
    rewrite half_mag_decomp by lia. assert (0 < 2 ^ (124 + e)) by lia. destruct (e =? 0); nia.
Qed.

Lemma half_mag_mono h1 h2 : 0 <= h1 <= h2 -> h2 < 31744 -> half_mag h1 <= half_mag h2.
Proof.
  intros H12 H2. replace h2 with (h1 + Z.of_nat (Z.to_nat (h2 - h1))) in * by lia.
  induction (Z.to_nat (h2 - h1)) as [|n IH] in H2 |- *; [rewrite Z.add_0_r; lia|].
  pose proof (half_mag_succ (h1 + Z.of_nat n) ltac:(lia)).
  replace (h1 + Z.of_nat (S n)) with (h1 + Z.of_nat n + 1) by lia.
  specialize (IH ltac:(lia)). lia.
Qed.

Lemma half_mag_sign h : 0 <= h < 32768 -> half_mag (32768 + h) = half_mag h.
Proof.
  intros Hh. unfold half_mag.
  replace ((32768 + h) / 1024) with (32 + h / 1024) by lia.
  replace ((32 + h / 1024) mod 32) with ((h / 1024) mod 32) by lia.
  replace ((32768 + h) mod 1024) with (h mod 1024) by lia. reflexivity.
Qed.

(* magnitude of the float with exponent field e and mantissa m *)
Definition fmag (e m : Z) : Z := if e =? 0 then m else (2 ^ 23 + m) * 2 ^ (e - 1).

Lemma f16_write_mag s e m :
  s = 0 \/ s = 1 -> 0 <= e <= 142 -> 0 <= m < 2 ^ 23 -> e * 2 ^ 23 + m <= 0x477FE000 ->
  exists h, 0 <= h < 31744 /\
    f16_write (s * 2 ^ 31 + e * 2 ^ 23 + m) = Some [(16, if e <? 103 then 0 else s * 32768 + h)] /\
    (e < 103 -> h = 0) /\
    half_mag h <= fmag e m /\ (h < 31743 -> fmag e m < half_mag (h + 1)).
Proof.
  intros Hs He Hm Hle.
  assert (Z.shiftr (s * 2 ^ 31 + e * 2 ^ 23 + m) 31 = s) as E1.
  { rewrite Z.shiftr_div_pow2 by lia. change (2 ^ 31) with 2147483648. change (2 ^ 23) with 8388608 in *. lia. }
  assert (Z.land (Z.shiftr (s * 2 ^ 31 + e * 2 ^ 23 + m) 23) 0xFF = e) as E2.
  { change 0xFF with (2 ^ 8 - 1). rewrite land_mask, Z.shiftr_div_pow2 by lia.
    change (2 ^ 31) with 2147483648. change (2 ^ 8) with 256. change (2 ^ 23) with 8388608 in *. lia. }
  assert (Z.land (s * 2 ^ 31 + e * 2 ^ 23 + m) 0x7FFFFF = m) as E3.
  { change 0x7FFFFF with (2 ^ 23 - 1). rewrite land_mask by lia.
    change (2 ^ 31) with 2147483648. change (2 ^ 23) with 8388608 in *. lia. }
  unfold f16_write. rewrite E1, E2, E3. clear E1 E2 E3.
  destruct (Z.ltb_spec 15 (e - 127)); [lia|].
  destruct (Z.ltb_spec (e - 127) (-24)) as [Hsm|Hnsm].
  { exists 0. replace (e <? 103) with true by lia. split; [lia|]. split; [reflexivity|]. split; [auto|].
    assert (0 <= fmag e m < 2 ^ 125) as Hf.
    { unfold fmag. destruct (Z.eqb_spec e 0).
      - assert (2 ^ 23 <= 2 ^ 125) by (apply Z.pow_le_mono_r; lia). lia.
      - assert (2 ^ (e - 1) <= 2 ^ 101) by (apply Z.pow_le_mono_r; lia).
        assert (0 < 2 ^ (e - 1)) by lia.
        assert (2 ^ 125 = 2 ^ 24 * 2 ^ 101) as -> by reflexivity. change (2 ^ 24) with (2 * 2 ^ 23). nia. }
    change (half_mag 0) with 0. change (half_mag (0 + 1)) with (1 * 2 ^ 125). lia. }
  replace (e <? 103) with false by lia.
  destruct (Z.ltb_spec (e - 127) (-14)) as [Hsub|Hnsub].
  - (* subnormal *)
    set (k := 126 - e). assert (14 <= k <= 23) as Hk by (unfold k; lia).
    replace (13 + (-14 - (e - 127))) with k by (unfold k; lia).
    replace (10 - (-14 - (e - 127))) with (23 - k) by (unfold k; lia).
    rewrite Z.shiftl_mul_pow2, Z.mul_1_l, Z.shiftr_div_pow2 by lia.
    assert (2 ^ 23 = 2 ^ (23 - k) * 2 ^ k) as H23 by (rewrite <- Z.pow_add_r by lia; f_equal; lia).
    assert (0 < 2 ^ k) by lia. assert (0 < 2 ^ (23 - k)) by lia.
    assert (m / 2 ^ k < 2 ^ (23 - k)) by (apply Z.div_lt_upper_bound; lia).
    assert (0 <= m / 2 ^ k) by (apply Z.div_pos; lia).
    assert (2 * 2 ^ (23 - k) <= 1024).
    { change 1024 with (2 * 2 ^ 9). assert (2 ^ (23 - k) <= 2 ^ 9) by (apply Z.pow_le_mono_r; lia). lia. }
    set (q := 2 ^ (23 - k) + m / 2 ^ k) in *.
    assert (0 <= q < 1024) as Hq by lia.
    destruct (Z.ltb_spec q 1024); [|lia].
    exists q. split; [lia|].
    assert (Z.lor (Z.lor (Z.shiftl s 15) (Z.shiftl 0 10)) q = s * 32768 + q) as ->.
    { rewrite Z.shiftl_0_l, Z.lor_0_r. rewrite Z.lor_comm.
      rewrite lor_shiftl_add by (change (2 ^ 15) with 32768; lia).
      change (2 ^ 15) with 32768. lia. }
    destruct (Z.ltb_spec (s * 32768 + q) 0x10000); [|lia].
    split; [reflexivity|]. split; [lia|].
    assert (half_mag q = q * 2 ^ 125) as ->.
    { replace q with (0 * 1024 + q) at 1 by lia. rewrite half_mag_decomp by lia. reflexivity. }
    assert (fmag e m = (2 ^ 23 + m) * 2 ^ (e - 1)) as ->.
    { unfold fmag. destruct (Z.eqb_spec e 0); [lia|reflexivity]. }
    assert (2 ^ 125 = 2 ^ k * 2 ^ (e - 1)) as ->.
    { rewrite <- Z.pow_add_r by lia. f_equal. unfold k. lia. }
    assert (0 < 2 ^ (e - 1)) by lia.
    pose proof (Z.div_mod m (2 ^ k) ltac:(lia)) as Hdm.
    pose proof (Z.mod_pos_bound m (2 ^ k) ltac:(lia)) as Hmb.
    assert (q * 2 ^ k <= 2 ^ 23 + m < (q + 1) * 2 ^ k) as Hqk.
    { unfold q. rewrite H23. nia. }
    split.
    + rewrite Z.mul_assoc. apply Z.mul_le_mono_nonneg_r; lia.
    + intros _. assert (half_mag (q + 1) = (q + 1) * (2 ^ k * 2 ^ (e - 1))) as ->.
      { assert (2 ^ k * 2 ^ (e - 1) = 2 ^ 125) as ->.
        { rewrite <- Z.pow_add_r by lia. f_equal. unfold k. lia. }
        destruct (Z.eq_dec q 1023) as [Hq1|Hq1].
        - rewrite Hq1. reflexivity.
        - replace (q + 1) with (0 * 1024 + (q + 1)) at 1 by lia. rewrite half_mag_decomp by lia. reflexivity. }
      rewrite Z.mul_assoc. apply Z.mul_lt_mono_pos_r; lia.
  - (* normal *)
    rewrite Z.shiftr_div_pow2 by lia. change (2 ^ 13) with 8192.
    change (2 ^ 23) with 8388608 in *.
    set (q := m / 8192). assert (0 <= q < 1024) as Hq by (unfold q; lia).
    destruct (Z.ltb_spec q 1024); [|lia].
    set (E := e - 127 + 15). assert (1 <= E <= 30) as HE by (unfold E; lia).
    exists (E * 1024 + q). split; [lia|].
    assert (Z.lor (Z.lor (Z.shiftl s 15) (Z.shiftl E 10)) q = s * 32768 + (E * 1024 + q)) as ->.
    { rewrite (Z.lor_comm _ (Z.shiftl E 10)).
      rewrite lor_shiftl_add by (try rewrite Z.shiftl_mul_pow2 by lia; change (2 ^ 15) with 32768; change (2 ^ 10) with 1024; lia).
      rewrite Z.shiftl_mul_pow2 by lia. change (2 ^ 10) with 1024. change (2 ^ 15) with 32768.
      rewrite Z.lor_comm. replace (E * 1024 + 32768 * s) with ((E + 32 * s) * 2 ^ 10) by (change (2 ^ 10) with 1024; lia).
      rewrite <- Z.shiftl_mul_pow2 by lia. rewrite lor_shiftl_add by (change (2 ^ 10) with 1024; lia).
      change (2 ^ 10) with 1024. lia. }
    destruct (Z.ltb_spec (s * 32768 + (E * 1024 + q)) 0x10000); [|lia].
    split; [reflexivity|]. split; [lia|].
    rewrite half_mag_decomp by lia. destruct (Z.eqb_spec E 0); [lia|].
    assert (fmag e m = (8388608 + m) * 2 ^ (e - 1)) as ->.
    { unfold fmag. destruct (Z.eqb_spec e 0); [lia|reflexivity]. }
    assert (2 ^ (124 + E) = 8192 * 2 ^ (e - 1)) as Hp.
    { change 8192 with (2 ^ 13). rewrite <- Z.pow_add_r by lia. f_equal. unfold E. lia. }
    rewrite Hp. assert (0 < 2 ^ (e - 1)) by lia.
    assert (q * 8192 <= m < (q + 1) * 8192) by (unfold q; lia).
    split; [nia|]. intros Hlt.
    destruct (Z.eq_dec q 1023) as [Hq1|Hq1].
    + replace (E * 1024 + q + 1) with ((E + 1) * 1024 + 0) by lia.
      rewrite half_mag_decomp by lia. destruct (Z.eqb_spec (E + 1) 0); [lia|].
      replace (124 + (E + 1)) with (1 + (124 + E)) by lia. rewrite (Z.pow_add_r 2 1), Hp by lia. nia.
    + replace (E * 1024 + q + 1) with (E * 1024 + (q + 1)) by lia.
      rewrite half_mag_decomp by lia. destruct (Z.eqb_spec E 0); [lia|]. rewrite Hp. nia.
Qed.

Lemma single_decomp f : is_u32 f -> exists s e m,
  (s = 0 \/ s = 1) /\ 0 <= e < 256 /\ 0 <= m < 2 ^ 23 /\ f = s * 2 ^ 31 + e * 2 ^ 23 + m.
Proof.
  unfold is_u32. intros Hf. exists (f / 2 ^ 31), ((f / 2 ^ 23) mod 256), (f mod 2 ^ 23).
  change (2 ^ 31) with 2147483648. change (2 ^ 23) with 8388608. change (2 ^ 32) with 4294967296 in Hf. lia.
Qed.

Lemma single_scaled_decomp s e m : s = 0 \/ s = 1 -> 0 <= e < 256 -> 0 <= m < 2 ^ 23 ->
  single_scaled (s * 2 ^ 31 + e * 2 ^ 23 + m) = if s =? 0 then fmag e m else - fmag e m.
Proof.
  intros Hs He Hm. unfold single_scaled, fmag.
  replace (((s * 2 ^ 31 + e * 2 ^ 23 + m) / 2 ^ 23) mod 256) with e
    by (change (2 ^ 31) with 2147483648; change (2 ^ 23) with 8388608 in *; lia).
  replace ((s * 2 ^ 31 + e * 2 ^ 23 + m) mod 2 ^ 23) with m
    by (change (2 ^ 31) with 2147483648; change (2 ^ 23) with 8388608 in *; lia).
  replace (s * 2 ^ 31 + e * 2 ^ 23 + m <? 2 ^ 31) with (s =? 0)
    by (change (2 ^ 31) with 2147483648; change (2 ^ 23) with 8388608 in *; lia).
  reflexivity.
Qed.

Lemma fmag_nonneg e m : 0 <= m -> 0 <= fmag e m.
Proof. intros. unfold fmag. destruct (e =? 0); [lia|]. assert (0 <= 2 ^ (e - 1)) by lia. nia. Qed.

Lemma half_mag_nonneg h : 0 <= half_mag h.
Proof. unfold half_mag. assert (0 <= h mod 1024) by lia. destruct (_ =? 0); [nia|]. assert (0 <= 2 ^ (149 - 25 + (h / 1024) mod 32)) by lia. nia. Qed.

Lemma half_abs h : Z.abs (half_scaled h) = half_mag h.
Proof. pose proof (half_mag_nonneg h). unfold half_scaled. destruct (h <? 32768); lia. Qed.

Lemma f16_rounds_toward_zero f : is_u32 f -> fst (f16_can_encode f) = true ->
  exists h, 0 <= h < 65536 /\ half_finite h = true /\ f16_write f = Some [(16, h)] /\
    0 <= half_scaled h * single_scaled f /\
    Z.abs (half_scaled h) <= Z.abs (single_scaled f) /\
    forall h', 0 <= h' < 65536 -> half_finite h' = true ->
      Z.abs (half_scaled h') <= Z.abs (single_scaled f) -> Z.abs (half_scaled h') <= Z.abs (half_scaled h).
Proof.
  intros Hf Hc. destruct (single_decomp f Hf) as (s & e & m & Hs & He & Hm & ->).
  assert (e * 2 ^ 23 + m <= 0x477FE000) as Hle.
  { cbn [f16_can_encode fst] in Hc. change 0x7FFFFFFF with (2 ^ 31 - 1) in Hc.
    rewrite land_mask in Hc by lia.
    replace ((s * 2 ^ 31 + e * 2 ^ 23 + m) mod 2 ^ 31) with (e * 2 ^ 23 + m) in Hc; [lia|].
    change (2 ^ 31) with 2147483648; change (2 ^ 23) with 8388608 in *. lia. }
  assert (e <= 142) by (change (2 ^ 23) with 8388608 in *; lia).
  destruct (f16_write_mag s e m Hs ltac:(lia) Hm Hle) as (h & Hh & Hw & Hz & Hlo & Hhi).
  rewrite single_scaled_decomp by auto.
  pose proof (fmag_nonneg e m ltac:(lia)) as Hfm.
  assert (Z.abs (if s =? 0 then fmag e m else - fmag e m) = fmag e m) as Habs by (destruct (s =? 0); lia).
  rewrite Habs.
  set (H16 := if e <? 103 then 0 else s * 32768 + h) in *.
  assert (0 <= H16 < 65536) as HH by (unfold H16; destruct (e <? 103); lia).
  assert (half_mag H16 = half_mag h) as Hmag.
  { unfold H16. destruct (Z.ltb_spec e 103); [now rewrite Hz by lia|].
    destruct Hs as [-> | ->]; [reflexivity|]. apply half_mag_sign. lia. }
  exists H16. split; [exact HH|]. split.
  { unfold half_finite, H16. destruct (e <? 103); [reflexivity|]. lia. }
  split; [exact Hw|]. rewrite half_abs, Hmag. split; [|split; [exact Hlo|]].
  - pose proof (half_mag_nonneg H16). unfold half_scaled, H16 in *. destruct (Z.ltb_spec e 103).
    + cbn. lia.
    + destruct Hs as [-> | ->]; cbn [Z.eqb].
      * destruct (Z.ltb_spec (0 * 32768 + h) 32768); [nia|lia].
      * destruct (Z.ltb_spec (1 * 32768 + h) 32768); [lia|nia].
  - intros h' Hh' Hfin. rewrite half_abs. intros Hle'.
    assert (exists h2, 0 <= h2 < 31744 /\ half_mag h' = half_mag h2) as (h2 & Hh2 & E2).
    { unfold half_finite in Hfin. destruct (Z.ltb_spec h' 32768).
      - exists h'. split; [lia|reflexivity].
      - exists (h' - 32768). split; [lia|]. replace h' with (32768 + (h' - 32768)) at 1 by lia.
        apply half_mag_sign. lia. }
    rewrite E2 in *. destruct (Z.le_gt_cases h2 h) as [|Hgt]; [apply half_mag_mono; lia|].
    assert (half_mag (h + 1) <= half_mag h2) by (apply half_mag_mono; lia).
    specialize (Hhi ltac:(lia)). lia.
Qed.

Lemma f16_exact_or_refused_refuted :
  exists f h f', fst (f16_can_encode f) = true /\ f16_write f = Some [(16, h)] /\
    f16_decode h = Some f' /\ single_scaled f' <> single_scaled f.
Proof.
  exists 0x3DCCCCCD, 0x2E66, 0x3DCCC000.
  split; [reflexivity|]. split; [reflexivity|]. split; [reflexivity|].
  apply Z.eqb_neq. rewrite <- !single_scaled_eq. vm_compute. reflexivity.
Qed.
