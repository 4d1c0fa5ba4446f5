From Verif Require Import Base BitReaderModel BitProg BitProgProofs FieldsProofs HybridUintModel HybridUintSpec.

Lemma shiftl_1 n : 0 <= n -> Z.shiftl 1 n = 2 ^ n.
Proof. intros. rewrite Z.shiftl_mul_pow2 by lia. lia. Qed.

Lemma land_ones_pow x n : 0 <= n -> Z.land x (Z.shiftl 1 n - 1) = x mod 2 ^ n.
Proof. intros. rewrite shiftl_1 by lia. rewrite <- Z.land_ones by lia. rewrite Z.ones_equiv. f_equal. Qed.

Lemma split_token_eq c : hconfig_ok c -> split_token c = 2 ^ split_exponent c.
Proof.
  intros (H1 & H2 & H3 & H4). unfold split_token, w32. rewrite shiftl_1 by lia.
  apply Z.mod_small. split; [lia|]. apply Z.pow_lt_mono_r; lia.
Qed.

Lemma pow_le a b : 0 <= a <= b -> 2 ^ a <= 2 ^ b.
Proof. intros. apply Z.pow_le_mono_r; lia. Qed.
Lemma mul_le a b c d : 0 <= a <= c -> 0 <= b <= d -> a * b <= c * d.
Proof. intros. apply Z.mul_le_mono_nonneg; lia. Qed.
Lemma pow_pos a : 0 <= a -> 0 < 2 ^ a.
Proof. intros. apply Z.pow_pos_nonneg; lia. Qed.

(* the pieces of a value at or above the split *)
Record pieces (c : hconfig) (v n M B L : Z) : Prop := {
  pc_n : split_exponent c <= n <= 31;
  pc_M : 0 <= M < 2 ^ msb_in_token c;
  pc_B : 0 <= B < 2 ^ (n - msb_in_token c - lsb_in_token c);
  pc_L : 0 <= L < 2 ^ lsb_in_token c;
  pc_v : v = 2 ^ n + M * 2 ^ (n - msb_in_token c) + B * 2 ^ lsb_in_token c + L;
  pc_enc : hybrid_encode c v =
    (2 ^ split_exponent c + (n - split_exponent c) * 2 ^ (msb_in_token c + lsb_in_token c) + M * 2 ^ lsb_in_token c + L,
     n - msb_in_token c - lsb_in_token c, B) }.

Lemma token_bound c n M L : hconfig_ok c -> split_exponent c <= n <= 31 ->
  0 <= M < 2 ^ msb_in_token c -> 0 <= L < 2 ^ lsb_in_token c ->
  0 <= (n - split_exponent c) * 2 ^ (msb_in_token c + lsb_in_token c) + M * 2 ^ lsb_in_token c + L
    < (n - split_exponent c + 1) * 2 ^ (msb_in_token c + lsb_in_token c).
Proof.
  intros (H1 & H2 & H3 & H4) Hn HM HL. rewrite Z.pow_add_r by lia.
  set (a := 2 ^ msb_in_token c) in *. set (b := 2 ^ lsb_in_token c) in *.
  assert ((M + 1) * b <= a * b) by (apply Z.mul_le_mono_nonneg_r; lia).
  assert (0 <= M * b) by (apply Z.mul_nonneg_nonneg; lia).
  assert (0 <= (n - split_exponent c) * (a * b)) by (apply Z.mul_nonneg_nonneg; [lia|apply Z.mul_nonneg_nonneg; lia]).
  lia.
Qed.

Lemma decompose c v : hconfig_ok c -> is_u32 v -> split_token c <= v ->
  exists n M B L, pieces c v n M B L.
Proof.
  intros Hc Hv Hs. pose proof Hc as (H1 & H2 & H3 & H4).
  rewrite split_token_eq in Hs by exact Hc.
  set (k := msb_in_token c) in *. set (l := lsb_in_token c) in *. set (s := split_exponent c) in *.
  assert (0 < v) as Hv0 by (pose proof (pow_pos s ltac:(lia)); lia).
  pose proof (Z.log2_spec v Hv0) as Hlog. set (n := Z.log2 v) in *.
  assert (s <= n) as Hsn.
  { apply Z.log2_le_pow2; lia. }
  assert (n <= 31) as Hn31.
  { unfold is_u32 in Hv. assert (n < 32); [|lia]. apply Z.log2_lt_pow2; lia. }
  rewrite Z.pow_succ_r in Hlog by lia.
  set (m := v - 2 ^ n) in *. assert (0 <= m < 2 ^ n) as Hm by lia.
  assert (2 ^ n = 2 ^ k * 2 ^ (n - k)) as Hnk by (rewrite <- Z.pow_add_r by lia; f_equal; lia).
  assert (2 ^ (n - k) = 2 ^ l * 2 ^ (n - k - l)) as Hnkl by (rewrite <- Z.pow_add_r by lia; f_equal; lia).
  pose proof (pow_pos k ltac:(lia)). pose proof (pow_pos l ltac:(lia)).
  pose proof (pow_pos (n - k) ltac:(lia)). pose proof (pow_pos (n - k - l) ltac:(lia)).
  pose proof (Z.div_mod m (2 ^ (n - k)) ltac:(lia)) as Hd.
  pose proof (Z.mod_pos_bound m (2 ^ (n - k)) ltac:(lia)) as Hdb.
  set (M := m / 2 ^ (n - k)) in *. set (R := m mod 2 ^ (n - k)) in *.
  pose proof (Z.div_mod R (2 ^ l) ltac:(lia)) as Hd2.
  pose proof (Z.mod_pos_bound R (2 ^ l) ltac:(lia)) as Hdb2.
  set (B := R / 2 ^ l) in *. set (L := R mod 2 ^ l) in *.
  assert (0 <= M) as HM0 by (apply Z.div_pos; lia).
  assert (M < 2 ^ k) as HM1 by (apply Z.div_lt_upper_bound; [lia|rewrite Z.mul_comm, <- Hnk; lia]).
  assert (0 <= B) as HB0 by (apply Z.div_pos; lia).
  assert (B < 2 ^ (n - k - l)) as HB1 by (apply Z.div_lt_upper_bound; lia).
  assert (v = 2 ^ n + M * 2 ^ (n - k) + B * 2 ^ l + L) as Hvv by lia.
  exists n, M, B, L. split; fold k l s; [lia|lia|lia|lia|lia|].
  unfold hybrid_encode. fold k l s. rewrite split_token_eq by exact Hc. fold s.
  destruct (Z.ltb_spec v (2 ^ s)); [lia|].
  unfold floor_log2. fold n. rewrite shiftl_1 by lia. fold m.
  assert (2 ^ n <= 2 ^ 31) as Hn32 by (apply pow_le; lia).
  assert (w32 m = m) as -> by (unfold w32; apply Z.mod_small; lia).
  assert (w32 (n - s) = n - s) as -> by (unfold w32; apply Z.mod_small; lia).
  assert (w32 (n - k - l) = n - k - l) as -> by (unfold w32; apply Z.mod_small; lia).
  rewrite !land_ones_pow by lia. rewrite !Z.shiftl_mul_pow2 by lia. rewrite !Z.shiftr_div_pow2 by lia.
  fold M.
  pose proof (token_bound c n M L Hc ltac:(fold s; lia) ltac:(fold k; lia) ltac:(fold l; lia)) as Htb.
  fold k l s in Htb.
  assert (2 ^ (k + l) <= 2 ^ s) as Hkls by (apply pow_le; lia).
  assert (2 ^ s <= 2 ^ 24) as Hs24 by (apply pow_le; lia).
  assert (0 < 2 ^ (k + l)) as Hkl0 by (apply pow_pos; lia).
  assert (0 < 2 ^ s) as Hs0 by (apply pow_pos; lia).
  assert (m mod 2 ^ l = L) as HmL.
  { symmetry. apply Z.mod_unique with (q := M * 2 ^ (n - k - l) + B); [lia|]. rewrite Hd, Hd2, Hnkl. ring. }
  rewrite HmL.
  assert ((n - s + 1) * 2 ^ (k + l) <= 32 * 2 ^ 24) as Hbig by (apply mul_le; lia).
  assert (0 <= M * 2 ^ l) by (apply Z.mul_nonneg_nonneg; lia). assert (0 <= (n - s) * 2 ^ (k + l)) by (apply Z.mul_nonneg_nonneg; lia).
  unfold w32. rewrite (Z.mod_small ((n - s) * _)) by lia. rewrite (Z.mod_small (M * _)) by lia.
  rewrite (Z.mod_small (2 ^ s + _)) by lia.
  rewrite (Z.mod_small (_ + M * _)) by lia. rewrite (Z.mod_small (_ + L)) by lia.
  f_equal.
  assert (v / 2 ^ l = (2 ^ k + M) * 2 ^ (n - k - l) + B) as Hdiv.
  { symmetry. apply Z.div_unique with (r := L); [lia|]. rewrite Hvv, Hnk, Hnkl. ring. }
  rewrite Hdiv. rewrite Z.add_comm, Z.mod_add by lia. apply Z.mod_small. lia.
Qed.

Lemma lor_add_pow a b n : 0 <= n -> 0 <= b < 2 ^ n -> Z.lor (a * 2 ^ n) b = a * 2 ^ n + b.
Proof.
  intros Hn Hb. rewrite <- Z.shiftl_mul_pow2 by lia. rewrite Z.lor_comm.
  rewrite lor_shiftl_add by lia. rewrite Z.shiftl_mul_pow2 by lia. lia.
Qed.

Lemma assemble_eq c v n M B L : hconfig_ok c -> is_u32 v -> pieces c v n M B L ->
  let token := 2 ^ split_exponent c + (n - split_exponent c) * 2 ^ (msb_in_token c + lsb_in_token c) + M * 2 ^ lsb_in_token c + L in
  hybrid_nbits c token = n - msb_in_token c - lsb_in_token c /\
  hybrid_assemble c token (n - msb_in_token c - lsb_in_token c) B = v.
Proof.
  intros Hc Hv [Hn HM HB HL Hvv He]. pose proof Hc as (H1 & H2 & H3 & H4). cbv zeta.
  pose proof (token_bound c n M L Hc Hn HM HL) as Htb.
  set (k := msb_in_token c) in *. set (l := lsb_in_token c) in *. set (s := split_exponent c) in *.
  set (tok := 2 ^ s + (n - s) * 2 ^ (k + l) + M * 2 ^ l + L) in *.
  pose proof (pow_pos k ltac:(lia)). pose proof (pow_pos l ltac:(lia)). pose proof (pow_pos (k + l) ltac:(lia)).
  pose proof (pow_pos (n - k - l) ltac:(lia)).
  assert (2 ^ (k + l) = 2 ^ k * 2 ^ l) as Hkl by (apply Z.pow_add_r; lia).
  assert (2 ^ (n - k) = 2 ^ l * 2 ^ (n - k - l)) as Hnkl by (rewrite <- Z.pow_add_r by lia; f_equal; lia).
  assert (2 ^ n = 2 ^ k * 2 ^ (n - k)) as Hnk by (rewrite <- Z.pow_add_r by lia; f_equal; lia).
  split.
  - unfold hybrid_nbits. rewrite split_token_eq by exact Hc. fold k l s. rewrite Z.shiftr_div_pow2 by lia.
    replace ((tok - 2 ^ s) / 2 ^ (k + l)) with (n - s).
    2:{ apply Z.div_unique with (r := M * 2 ^ l + L); [left|unfold tok; lia]. nia. }
    replace (s - (k + l) + (n - s)) with (n - k - l) by lia.
    unfold w32. rewrite Z.mod_small by lia. change 31 with (Z.ones 5). rewrite Z.land_ones by lia.
    apply Z.mod_small. lia.
  - unfold hybrid_assemble. fold k l. rewrite !land_ones_pow by lia.
    rewrite !Z.shiftl_mul_pow2 by lia. rewrite Z.shiftr_div_pow2 by lia. rewrite Z.mul_1_l.
    assert (tok / 2 ^ l = 2 ^ (s - l) + (n - s) * 2 ^ k + M) as Hq.
    { symmetry. apply Z.div_unique with (r := L); [lia|]. unfold tok. rewrite Hkl.
      replace (2 ^ s) with (2 ^ (s - l) * 2 ^ l) by (rewrite <- Z.pow_add_r by lia; f_equal; lia). lia. }
    assert (tok mod 2 ^ l = L) as Hr.
    { symmetry. apply Z.mod_unique with (q := 2 ^ (s - l) + (n - s) * 2 ^ k + M); [lia|]. unfold tok. rewrite Hkl.
      replace (2 ^ s) with (2 ^ (s - l) * 2 ^ l) by (rewrite <- Z.pow_add_r by lia; f_equal; lia). lia. }
    rewrite Hq, Hr.
    assert ((2 ^ (s - l) + (n - s) * 2 ^ k + M) mod 2 ^ k = M) as ->.
    { symmetry. apply Z.mod_unique with (q := 2 ^ (s - l - k) + (n - s)); [lia|].
      replace (2 ^ (s - l)) with (2 ^ (s - l - k) * 2 ^ k) by (rewrite <- Z.pow_add_r by lia; f_equal; lia). lia. }
    replace (2 ^ k) with (1 * 2 ^ k) at 1 by lia. rewrite (lor_add_pow 1 M k) by lia. rewrite Z.mul_1_l.
    assert (2 ^ n <= 2 ^ 31) as Hn32 by (apply pow_le; lia).
    unfold is_u32 in Hv.
    assert (((2 ^ k + M) * 2 ^ (n - k - l) + B) * 2 ^ l + L = v) as Hfin by (rewrite Hvv, Hnk, Hnkl; ring).
    assert (0 <= (2 ^ k + M) * 2 ^ (n - k - l)) as Hx0 by (apply Z.mul_nonneg_nonneg; lia).
    rewrite <- (lor_add_pow (2 ^ k + M) B (n - k - l)) in Hfin by lia.
    remember ((2 ^ k + M) * 2 ^ (n - k - l)) as x eqn:Hx.
    assert (Z.lor x B = x + B) as Hlor by (rewrite Hx; apply lor_add_pow; lia).
    assert (1 * (x + B) <= 2 ^ l * (x + B)) as Hxl by (apply Z.mul_le_mono_nonneg_r; lia).
    assert (w64 x = x) as -> by (unfold w64; apply Z.mod_small; lia).
    rewrite Hlor in *.
    assert (w64 ((x + B) * 2 ^ l) = (x + B) * 2 ^ l) as -> by (unfold w64; apply Z.mod_small; lia).
    rewrite lor_add_pow by lia. rewrite Hfin. unfold w32. apply Z.mod_small. lia.
Qed.

(* the token alone decides how many bits follow; reading them gives the value back *)
Lemma hybrid_roundtrip c v token nbits bits : hconfig_ok c -> is_u32 v ->
  hybrid_encode c v = (token, nbits, bits) ->
  is_u32 token /\ 0 <= nbits <= 31 /\ 0 <= bits < 2 ^ nbits /\
  parses_buffered nbits (hybrid_read c token) (to_bits (Z.to_nat nbits) bits) v.
Proof.
  intros Hc Hv He. pose proof Hc as (H1 & H2 & H3 & H4).
  destruct (Z.ltb_spec v (split_token c)) as [Hlt|Hge].
  - unfold hybrid_encode in He. destruct (Z.ltb_spec v (split_token c)); [|lia].
    injection He as <- <- <-. repeat split; try (unfold is_u32 in *; lia).
    unfold hybrid_read. destruct (Z.ltb_spec v (split_token c)); [|lia]. apply buffered_ret.
  - destruct (decompose c v Hc Hv Hge) as (n & M & B & L & Hp).
    pose proof (assemble_eq c v n M B L Hc Hv Hp) as (Hnb & Hasm).
    destruct Hp as [Hn HM HB HL Hvv Henc]. rewrite Henc in He.
    injection He as <- <- <-.
    pose proof (token_bound c n M L Hc Hn HM HL) as Htb.
    rewrite <- !Z.add_assoc in *.
    set (tok := 2 ^ split_exponent c + _) in *.
    assert (2 ^ (msb_in_token c + lsb_in_token c) <= 2 ^ 24) as Ha by (apply pow_le; lia).
    assert (2 ^ split_exponent c <= 2 ^ 24) as Hb by (apply pow_le; lia).
    pose proof (pow_pos (split_exponent c) ltac:(lia)).
    assert ((n - split_exponent c + 1) * 2 ^ (msb_in_token c + lsb_in_token c) <= 32 * 2 ^ 24) by (apply mul_le; lia).
    repeat split; try lia.
    unfold hybrid_read. rewrite split_token_eq by exact Hc.
    destruct (Z.ltb_spec tok (2 ^ split_exponent c)); [lia|]. cbv zeta.
    rewrite Hnb. rewrite <- (app_nil_r (to_bits _ _)).
    rewrite <- (Z.add_0_r (n - msb_in_token c - lsb_in_token c)) at 1.
    apply (buffered_peek_consume _ B); try lia. rewrite Hasm. apply buffered_ret.
Qed.

Lemma hybrid_token_mono c v w : hconfig_ok c -> lsb_in_token c = 0 -> is_u32 v -> is_u32 w -> v <= w ->
  fst (fst (hybrid_encode c v)) <= fst (fst (hybrid_encode c w)).
Proof.
  intros Hc Hl Hv Hw Hvw. pose proof Hc as (H1 & H2 & H3 & H4).
  destruct (Z.ltb_spec v (split_token c)) as [Hlt|Hge].
  - unfold hybrid_encode at 1. destruct (Z.ltb_spec v (split_token c)); [|lia]. cbn [fst].
    destruct (Z.ltb_spec w (split_token c)) as [Hwlt|Hwge].
    + unfold hybrid_encode. destruct (Z.ltb_spec w (split_token c)); [|lia]. cbn [fst]. lia.
    + destruct (decompose c w Hc Hw Hwge) as (n & M & B & L & [Hn HM HB HL Hww Henc]).
      rewrite Henc. cbn [fst]. pose proof (token_bound c n M L Hc Hn HM HL).
      rewrite split_token_eq in Hlt by exact Hc. lia.
  - destruct (decompose c v Hc Hv Hge) as (n & M & B & L & [Hn HM HB HL Hvv Henc]).
    destruct (decompose c w Hc Hw ltac:(lia)) as (n' & M' & B' & L' & [Hn' HM' HB' HL' Hww Henc']).
    rewrite Henc, Henc'. cbn [fst]. rewrite Hl in *. rewrite Z.add_0_r, Z.pow_0_r in *. rewrite Z.sub_0_r in *.
    set (k := msb_in_token c) in *.
    pose proof (pow_pos k ltac:(lia)). pose proof (pow_pos (n - k) ltac:(lia)). pose proof (pow_pos (n' - k) ltac:(lia)).
    assert (2 ^ n = 2 ^ k * 2 ^ (n - k)) as Hnk by (rewrite <- Z.pow_add_r by lia; f_equal; lia).
    assert (2 ^ n' = 2 ^ k * 2 ^ (n' - k)) as Hnk' by (rewrite <- Z.pow_add_r by lia; f_equal; lia).
    destruct (Z.lt_trichotomy n n') as [Hlt|[Heq|Hgt]].
    + assert ((n' - n) * 2 ^ k >= 2 ^ k) by nia. nia.
    + subst n'. assert (M <= M') by nia. nia.
    + exfalso. assert (2 ^ (n' + 1) <= 2 ^ n) as Hle by (apply pow_le; lia).
      rewrite Z.pow_add_r in Hle by lia. change (2 ^ 1) with 2 in Hle. nia.
Qed.

(* with low bits in the token the order is lost *)
Lemma hybrid_token_order_refuted : exists c v w, hconfig_ok c /\ is_u32 v /\ is_u32 w /\ v < w /\
  fst (fst (hybrid_encode c w)) < fst (fst (hybrid_encode c v)).
Proof.
  exists (HC 4 1 1), 17, 18. unfold hconfig_ok, is_u32. repeat split; cbn; lia.
Qed.

(* ---- the configuration header ---- *)

Lemma ceil_log2_spec x : 1 <= x -> x <= 2 ^ ceil_log2 x /\ 0 <= ceil_log2 x /\ (forall y, 0 <= y <= 57 -> x <= 2 ^ y -> ceil_log2 x <= y).
Proof.
  intros Hx. unfold ceil_log2, floor_log2.
  pose proof (Z.log2_spec x ltac:(lia)) as Hlog. pose proof (Z.log2_nonneg x) as Hn.
  destruct (Z.eqb_spec (Z.land x (x - 1)) 0) as [Hz|Hz].
  - assert (x = 2 ^ Z.log2 x) as Hxx.
    { destruct (Z.eq_dec x (2 ^ Z.log2 x)); [assumption|exfalso].
      assert (Z.log2 (x - 1) = Z.log2 x) as Hl.
      { apply Z.log2_unique; lia. }
      assert (Z.testbit (Z.land x (x - 1)) (Z.log2 x) = true) as Ht.
      { rewrite Z.land_spec, Z.bit_log2 by lia. rewrite <- Hl. rewrite Z.bit_log2; [reflexivity|].
        assert (2 ^ Z.log2 x >= 1) by (pose proof (pow_pos (Z.log2 x) ltac:(lia)); lia). lia. }
      rewrite Hz, Z.testbit_0_l in Ht. discriminate. }
    repeat split; try lia. intros y Hy Hle. rewrite Hxx in Hle. apply Z.pow_le_mono_r_iff in Hle; lia.
  - split; [rewrite Z.add_1_r; lia|]. split; [lia|].
    intros y Hy Hle. assert (Z.log2 x < y); [|lia].
      apply Z.log2_lt_pow2; [lia|].
      destruct (Z.eq_dec x (2 ^ y)); [|lia]. exfalso. apply Hz. subst x.
      replace (2 ^ y - 1) with (Z.ones y) by (rewrite Z.ones_equiv; lia). rewrite Z.land_ones by lia.
      apply Z.mod_same. pose proof (pow_pos y ltac:(lia)). lia.
Qed.

Lemma ceil_log2_le x y : 1 <= x -> 0 <= y <= 57 -> x <= 2 ^ y -> ceil_log2 x <= y.
Proof. intros Hx Hy Hle. apply (ceil_log2_spec x Hx); assumption. Qed.

Lemma config_roundtrip las c : 0 <= las <= 24 -> hconfig_codable las c ->
  Forall field_ok (uint_config_write las c) /\
  parses (uint_config_read las) (fields_bits (uint_config_write las c)) (Some c).
Proof.
  intros Hlas (H1 & H2 & H3 & H4 & H5).
  assert (forall x, 1 <= x <= 32 -> 0 <= ceil_log2 x <= 5) as Hr.
  { intros x Hx. split; [apply (ceil_log2_spec x); lia|]. apply ceil_log2_le; [lia|lia|]. lia. }
  assert (forall x y, 0 <= y < x -> x <= 32 -> 0 <= y < 2 ^ ceil_log2 x) as Hlt.
  { intros x y Hy Hx. pose proof (ceil_log2_spec x ltac:(lia)) as (Hs & _). lia. }
  assert (parses (uint_config_read las) (fields_bits (uint_config_write las c)) (Some c)) as Hp.
  { unfold uint_config_read, uint_config_write. intros pre post av Hav. cbn [run_bits].
    revert pre post. cut (parses (let! se := rd (ceil_log2 (las + 1)) in
     if se =? las then Ret (Some (HC se 0 0)) else
      let! msb := rd (ceil_log2 (se + 1)) in
      if se <? msb then Ret None else
        let! lsb := rd (ceil_log2 (se - msb + 1)) in
        if se <? lsb + msb then Ret None else Ret (Some (HC se msb lsb)))
        (fields_bits ((ceil_log2 (las + 1), split_exponent c) ::
         (if split_exponent c =? las then [] else [(ceil_log2 (split_exponent c + 1), msb_in_token c);
         (ceil_log2 (split_exponent c - msb_in_token c + 1), lsb_in_token c)]))) (Some c)).
    { intros H pre post. apply (H pre post 56). lia. }
    rewrite fields_bits_cons. eapply parses_bind.
    { cbn [fst snd]. apply parses_rd; [pose proof (Hr (las + 1) ltac:(lia)); lia|]. apply Hlt; lia. }
    destruct (Z.eqb_spec (split_exponent c) las).
    { destruct (H5 ltac:(assumption)) as (Ha & Hb). replace (HC _ 0 0) with c.
      - apply parses_ret.
      - rewrite <- Ha, <- Hb at 1. destruct c; reflexivity. }
    rewrite fields_bits_cons. eapply parses_bind.
    { cbn [fst snd]. apply parses_rd; [pose proof (Hr (split_exponent c + 1) ltac:(lia)); lia|]. apply Hlt; lia. }
    destruct (Z.ltb_spec (split_exponent c) (msb_in_token c)); [lia|].
    rewrite fields_bits_cons. eapply parses_bind.
    { cbn [fst snd]. apply parses_rd; [pose proof (Hr (split_exponent c - msb_in_token c + 1) ltac:(lia)); lia|]. apply Hlt; lia. }
    destruct (Z.ltb_spec (split_exponent c) (lsb_in_token c + msb_in_token c)); [lia|].
    destruct c. apply parses_ret. }
  split; [|exact Hp].
  unfold uint_config_write. constructor.
  - unfold field_ok. cbn [fst snd]. pose proof (Hr (las + 1) ltac:(lia)). split; [lia|]. apply Hlt; lia.
  - destruct (split_exponent c =? las); constructor; [|constructor; [|constructor]].
    + unfold field_ok. cbn [fst snd]. pose proof (Hr (split_exponent c + 1) ltac:(lia)). split; [lia|]. apply Hlt; lia.
    + unfold field_ok. cbn [fst snd]. pose proof (Hr (split_exponent c - msb_in_token c + 1) ltac:(lia)). split; [lia|]. apply Hlt; lia.
Qed.

Lemma configs_roundtrip las : 0 <= las <= 24 -> forall cs, Forall (hconfig_codable las) cs ->
  Forall field_ok (uint_configs_write las cs) /\
  parses (uint_configs_read las (length cs)) (fields_bits (uint_configs_write las cs)) (Some cs).
Proof.
  intros Hlas cs H. induction H as [|c cs Hc Hcs [IH1 IH2]].
  - split; [constructor|apply parses_ret].
  - destruct (config_roundtrip las c Hlas Hc) as (Hf & Hp). unfold uint_configs_write. cbn [flat_map length uint_configs_read].
    split; [apply Forall_app; split; assumption|].
    rewrite fields_bits_app. eapply parses_bind; [exact Hp|]. cbv beta iota.
    eapply parses_bind_nil; [exact IH2|]. apply parses_ret.
Qed.

Ltac rd_if E := match goal with |- (if ?b then _ else _) = _ -> _ => destruct b eqn:E end.

(* whatever is read, an accepted configuration is a valid one *)
Lemma config_read_valid las : 0 <= las <= 15 -> forall s pos av c pos' av',
  run_bits s pos av (uint_config_read las) = Some (Some c, (pos', av')) ->
  0 <= msb_in_token c /\ 0 <= lsb_in_token c /\
  msb_in_token c + lsb_in_token c <= split_exponent c /\ split_exponent c <= 15.
Proof.
  intros Hlas s pos av c pos' av'. unfold uint_config_read. cbn [run_bits]. unfold rd. cbn [bind run_bits].
  rd_if E1; [|discriminate].
  assert (0 <= bits_at s pos (ceil_log2 (las + 1)) <= 15) as Hse.
  { pose proof (bits_at_range s pos (ceil_log2 (las + 1)) ltac:(lia)).
    assert (ceil_log2 (las + 1) <= 4) by (apply ceil_log2_le; lia).
    assert (2 ^ ceil_log2 (las + 1) <= 2 ^ 4) by (apply pow_le; lia). lia. }
  set (se := bits_at _ _ _) in *. destruct (Z.eqb_spec se las).
  { intros [= <- <- <-]. cbn. lia. }
  cbn [run_bits bind]. rd_if E2; [|discriminate].
  set (msb := bits_at _ _ _). assert (0 <= msb) by (apply bits_at_range; lia). clearbody msb.
  destruct (Z.ltb_spec se msb); [cbn [run_bits]; discriminate|].
  cbn [run_bits bind]. rd_if E3; [|discriminate].
  set (lsb := bits_at _ _ _). assert (0 <= lsb) by (apply bits_at_range; lia). clearbody lsb.
  destruct (Z.ltb_spec se (lsb + msb)); cbn [run_bits]; [discriminate|].
  intros [= <- <- <-]. cbn. lia.
Qed.
