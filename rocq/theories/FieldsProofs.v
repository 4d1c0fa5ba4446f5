From Verif Require Import Base BitReaderModel BitProg BitProgProofs BitIOProofs FieldsModel FieldsSpec.

(* ---- arithmetic helpers ---- *)

Lemma lxor_ones x n : 0 <= n -> 0 <= x < 2 ^ n -> Z.lxor x (2 ^ n - 1) = 2 ^ n - 1 - x.
Proof.
  intros Hn Hx. replace (2 ^ n - 1) with (Z.ones n) by (rewrite Z.ones_equiv; lia).
  assert (Z.lxor x (Z.ones n) + x = Z.ones n); [|lia].
  rewrite Z.add_nocarry_lxor.
  - rewrite Z.lxor_assoc, (Z.lxor_comm _ x), <- Z.lxor_assoc, Z.lxor_nilpotent. apply Z.lxor_0_l.
  - apply Z.bits_inj'. intros i Hi. rewrite Z.land_spec, Z.lxor_spec, Z.bits_0.
    destruct (Z.ltb_spec i n).
    + rewrite Z.ones_spec_low by lia. destruct (Z.testbit x i); reflexivity.
    + rewrite (testbit_small x n i) by lia. apply andb_false_r.
Qed.

Lemma lnot_eq v : Z.lnot v = - v - 1.
Proof. unfold Z.lnot. lia. Qed.

Lemma land1 v : Z.land v 1 = v mod 2.
Proof. change 1 with (Z.ones 1). rewrite Z.land_ones by lia. reflexivity. Qed.

Lemma land_mask v n : 0 <= n -> Z.land v (2 ^ n - 1) = v mod 2 ^ n.
Proof. intros. replace (2 ^ n - 1) with (Z.ones n) by (rewrite Z.ones_equiv; lia). apply Z.land_ones. lia. Qed.

(* ---- PackSigned ---- *)

Lemma pack_signed_spec v : is_i32 v -> pack_signed v = if 0 <=? v then 2 * v else - 2 * v - 1.
Proof.
  unfold is_i32. intros Hv. unfold pack_signed.
  rewrite lnot_eq, Z.shiftl_mul_pow2, Z.shiftr_div_pow2 by lia.
  unfold w32. change (2 ^ 1) with 2. change (2 ^ 31) with 2147483648 in *. change (2 ^ 32) with 4294967296 in *.
  destruct (Z.leb_spec 0 v).
  - replace ((- v - 1) mod 4294967296) with (4294967296 - v - 1) by lia.
    replace ((4294967296 - v - 1) / 2147483648) with 1 by lia.
    change ((1 - 1) mod 4294967296) with 0. rewrite Z.lxor_0_r. lia.
  - replace ((- v - 1) mod 4294967296) with (- v - 1) by lia.
    replace ((- v - 1) / 2147483648) with 0 by lia.
    change ((0 - 1) mod 4294967296) with (2 ^ 32 - 1).
    rewrite lxor_ones by lia. change (2 ^ 32) with 4294967296. lia.
Qed.

Lemma pack_signed_small v k : is_i32 v -> Z.abs v <= k -> 0 <= pack_signed v <= 2 * k.
Proof. intros H Hk. rewrite pack_signed_spec by exact H. destruct (0 <=? v) eqn:E; lia. Qed.

Lemma unpack_signed_spec u : is_u32 u -> unpack_signed u = if u mod 2 =? 0 then u / 2 else - (u / 2) - 1.
Proof.
  unfold is_u32. intros Hu. unfold unpack_signed.
  rewrite lnot_eq, land1, Z.shiftr_div_pow2 by lia. change (2 ^ 1) with 2. change (2 ^ 32) with 4294967296 in *.
  unfold w64. change (2 ^ 64) with 18446744073709551616.
  destruct (Z.eqb_spec (u mod 2) 0).
  - replace (((- u - 1) mod 18446744073709551616) mod 2) with 1 by lia.
    change ((1 - 1) mod 18446744073709551616) with 0. rewrite Z.lxor_0_r. unfold s32. lia.
  - replace (((- u - 1) mod 18446744073709551616) mod 2) with 0 by lia.
    change ((0 - 1) mod 18446744073709551616) with (2 ^ 64 - 1).
    rewrite lxor_ones by lia. unfold s32. lia.
Qed.

Lemma unpack_pack v : is_i32 v -> unpack_signed (pack_signed v) = v.
Proof.
  intros Hv. rewrite pack_signed_spec by auto. unfold is_i32 in Hv.
  destruct (Z.leb_spec 0 v); rewrite unpack_signed_spec by (unfold is_u32; lia).
  - destruct (Z.eqb_spec ((2 * v) mod 2) 0); lia.
  - destruct (Z.eqb_spec ((-2 * v - 1) mod 2) 0); lia.
Qed.

Lemma pack_unpack u : is_u32 u -> pack_signed (unpack_signed u) = u.
Proof.
  intros Hu. rewrite unpack_signed_spec by auto. unfold is_u32 in Hu.
  destruct (Z.eqb_spec (u mod 2) 0); rewrite pack_signed_spec by (unfold is_i32; lia).
  - destruct (Z.leb_spec 0 (u / 2)); lia.
  - destruct (Z.leb_spec 0 (- (u / 2) - 1)); lia.
Qed.

Lemma pack_signed_range v : is_i32 v -> is_u32 (pack_signed v).
Proof. intros Hv. rewrite pack_signed_spec by auto. unfold is_i32, is_u32 in *. destruct (Z.leb_spec 0 v); lia. Qed.

Lemma unpack_signed_range u : is_u32 u -> is_i32 (unpack_signed u).
Proof. intros Hu. rewrite unpack_signed_spec by auto. unfold is_i32, is_u32 in *. destruct (Z.eqb_spec (u mod 2) 0); lia. Qed.

(* ---- packed distributions ---- *)

Lemma land_kDirect d : 0 <= d < 2 ^ 32 -> Z.land d kDirect = if d <? 2 ^ 31 then 0 else 2 ^ 31.
Proof.
  intros Hd. unfold kDirect. change 0x80000000 with (2 ^ 31).
  apply Z.bits_inj'. intros i Hi. rewrite Z.land_spec, Z.pow2_bits_eqb by lia.
  destruct (Z.eqb_spec 31 i) as [<-|Hne].
  - rewrite andb_true_r. destruct (Z.ltb_spec d (2 ^ 31)).
    + rewrite Z.bits_0. apply (testbit_small d 31 31); lia.
    + rewrite Z.pow2_bits_true by lia. rewrite Z.testbit_true by lia. lia.
  - rewrite andb_false_r. destruct (Z.ltb_spec d (2 ^ 31)); [now rewrite Z.bits_0|].
    now rewrite Z.pow2_bits_false by lia.
Qed.

Lemma val_eq v : 0 <= v < 2 ^ 31 -> Val v = v + 2 ^ 31.
Proof.
  intros Hv. unfold Val, kDirect. change 0x80000000 with (Z.shiftl 1 31).
  rewrite lor_shiftl_add by lia. lia.
Qed.

Lemma is_direct_val v : 0 <= v < 2 ^ 31 -> is_direct (Val v) = true.
Proof.
  intros Hv. unfold is_direct. rewrite val_eq by auto. rewrite land_kDirect by lia.
  destruct (Z.ltb_spec (v + 2 ^ 31) (2 ^ 31)); [lia|reflexivity].
Qed.

Lemma direct_val v : 0 <= v < 2 ^ 31 -> direct (Val v) = v.
Proof.
  intros Hv. unfold direct. rewrite val_eq by auto. change (kDirect - 1) with (2 ^ 31 - 1).
  rewrite land_mask by lia. change (2 ^ 31) with 2147483648 in *. lia.
Qed.

Lemma bitsoffset_eq n off : 1 <= n <= 32 -> 0 <= off < 2 ^ 26 -> BitsOffset n off = (n - 1) + 32 * off.
Proof.
  intros Hn Ho. unfold BitsOffset.
  change 0x1F with (2 ^ 5 - 1). change 0x3FFFFFF with (2 ^ 26 - 1).
  rewrite !land_mask, Z.shiftl_mul_pow2 by lia. unfold w32.
  change (2 ^ 26) with 67108864 in *. change (2 ^ 5) with 32. change (2 ^ 32) with 4294967296. lia.
Qed.

Lemma is_direct_bits n off : 1 <= n <= 32 -> 0 <= off < 2 ^ 26 -> is_direct (BitsOffset n off) = false.
Proof.
  intros Hn Ho. unfold is_direct. rewrite bitsoffset_eq by auto. rewrite land_kDirect by lia.
  destruct (Z.ltb_spec (n - 1 + 32 * off) (2 ^ 31)); [reflexivity|lia].
Qed.

Lemma extra_bits_bits n off : 1 <= n <= 32 -> 0 <= off < 2 ^ 26 -> extra_bits (BitsOffset n off) = n.
Proof.
  intros Hn Ho. unfold extra_bits. rewrite bitsoffset_eq by auto.
  change 0x1F with (2 ^ 5 - 1). rewrite land_mask by lia. change (2 ^ 5) with 32. lia.
Qed.

Lemma offset_bits n off : 1 <= n <= 32 -> 0 <= off < 2 ^ 26 -> offset (BitsOffset n off) = off.
Proof.
  intros Hn Ho. unfold offset. rewrite bitsoffset_eq by auto.
  change 0x3FFFFFF with (2 ^ 26 - 1). rewrite land_mask, Z.shiftr_div_pow2 by lia.
  change (2 ^ 5) with 32. change (2 ^ 26) with 67108864 in *. lia.
Qed.

(* ---- U32 ---- *)

(* how many extra bits the distribution needs for v; None if it cannot express v *)
Definition distr_cost (d : distr) (v : Z) : option Z :=
  match d with
  | DVal x => if x =? v then Some 0 else None
  | DBits n off => if (off <=? v) && (v <? off + 2 ^ n) then Some n else None
  end.

Lemma distr_code_cost d w v : distr_ok d -> distr_code d w v -> distr_cost d v = Some (zlen w).
Proof.
  intros Hok H. revert Hok. destruct H as [x|n off x Hx]; intros Hok; cbn [distr_cost].
  - now rewrite Z.eqb_refl.
  - cbn [distr_ok] in Hok. replace ((off <=? off + x) && (off + x <? off + 2 ^ n)) with true by lia.
    rewrite zlen_to_bits. f_equal. lia.
Qed.

Lemma choose_loop_spec ds : forall s v sel total sel' total',
  Forall distr_ok ds -> 2 < total ->
  choose_loop (map pack ds) s v sel total = (sel', total') ->
  (* the result is the previous one or a feasible entry; nothing cheaper exists *)
  ((sel' = sel /\ total' = total) \/
   (exists d, nth_error ds (Z.to_nat (sel' - s)) = Some d /\ s <= sel' < s + zlen ds /\
      distr_cost d v = Some (total' - 2))) /\
  total' <= total /\
  (forall i d c, nth_error ds i = Some d -> distr_cost d v = Some c -> total' <= 2 + c).
Proof.
  induction ds as [|d ds IH]; intros s v sel total sel' total' Hok Ht; cbn [map choose_loop].
  - intros [= <- <-]. split; [left; auto|]. split; [lia|]. intros [|i] d c; discriminate.
  - inversion Hok as [|? ? Hd Hds]; subst.
    assert (forall s1 t1, 2 < t1 ->
      choose_loop (map pack ds) (s + 1) v s1 t1 = (sel', total') ->
      ((sel' = s1 /\ total' = t1) \/
       (exists d0, nth_error (d :: ds) (Z.to_nat (sel' - s)) = Some d0 /\ s <= sel' < s + zlen (d :: ds) /\
          distr_cost d0 v = Some (total' - 2))) /\ total' <= t1 /\
      (forall i d0 c, nth_error ds i = Some d0 -> distr_cost d0 v = Some c -> total' <= 2 + c)) as Hrec.
    { intros s1 t1 Ht1 H. destruct (IH _ _ _ _ _ _ Hds Ht1 H) as (HA & HB & HC).
      split; [|auto]. destruct HA as [HA|(d0 & H0 & H1 & H2)]; [left; auto|right].
      exists d0. replace (Z.to_nat (sel' - s)) with (S (Z.to_nat (sel' - (s + 1)))) by lia.
      cbn [nth_error]. unfold zlen in *. cbn [length]. repeat split; auto; lia. }
    destruct d as [x|n off]; cbn [pack distr_ok] in *.
    + rewrite is_direct_val, direct_val by auto.
      destruct (Z.eqb_spec x v) as [->|Hne].
      * intros [= <- <-]. split; [right|].
        { exists (DVal v). rewrite Z.sub_diag. cbn [nth_error distr_cost Z.to_nat]. rewrite Z.eqb_refl.
          unfold zlen. cbn [length]. repeat split; auto; lia. }
        split; [lia|]. intros i d0 c Hi Hc.
        assert (0 <= c); [|lia].
        assert (distr_ok d0) as Hd0.
        { rewrite Forall_forall in Hok. apply Hok. eapply nth_error_In; eauto. }
        destruct d0 as [y|m o]; cbn [distr_cost distr_ok] in *.
        -- destruct (_ =? _); congruence || (injection Hc as <-; lia).
        -- destruct (_ && _); [injection Hc as <-; lia|discriminate].
      * intros H. destruct (Hrec _ _ Ht H) as (HA & HB & HC). repeat split; auto.
        intros [|i] d0 c; cbn [nth_error].
        -- intros [= <-]. cbn [distr_cost]. destruct (Z.eqb_spec x v); [lia|discriminate].
        -- apply HC.
    + rewrite is_direct_bits, extra_bits_bits, offset_bits by (destruct Hd; auto).
      rewrite Z.shiftl_mul_pow2, Z.mul_1_l by lia.
      destruct ((v <? off) || (off + 2 ^ n <=? v)) eqn:Hr.
      * intros H. destruct (Hrec _ _ Ht H) as (HA & HB & HC). repeat split; auto.
        intros [|i] d0 c; cbn [nth_error].
        -- intros [= <-]. cbn [distr_cost]. replace ((off <=? v) && (v <? off + 2 ^ n)) with false by lia. discriminate.
        -- apply HC.
      * assert (distr_cost (DBits n off) v = Some n) as Hcost.
        { cbn [distr_cost]. replace ((off <=? v) && (v <? off + 2 ^ n)) with true by lia. reflexivity. }
        destruct (Z.ltb_spec (2 + n) total).
        -- intros H0. destruct (Hrec s (2 + n) ltac:(lia) H0) as (HA & HB & HC). split; [|split].
           ++ right. destruct HA as [[-> ->]|HA]; [|exact HA].
              exists (DBits n off). rewrite Z.sub_diag. cbn [nth_error Z.to_nat].
              unfold zlen; cbn [length]. split; [reflexivity|]. split; [lia|].
              rewrite Hcost. f_equal. lia.
           ++ lia.
           ++ intros [|i] d0 c; cbn [nth_error]; [intros [= <-]|apply HC].
              rewrite Hcost. intros [= <-]. lia.
        -- intros H0. destruct (Hrec _ _ Ht H0) as (HA & HB & HC). repeat split; auto.
           intros [|i] d0 c; cbn [nth_error]; [intros [= <-]|apply HC].
           rewrite Hcost. intros [= <-]. lia.
Qed.

Definition distr4 (a b c d : distr) (s : Z) : distr :=
  if s =? 0 then a else if s =? 1 then b else if s =? 2 then c else d.

Lemma get_distr_pack a b c d s : get_distr (enc4 a b c d) s = pack (distr4 a b c d s).
Proof. unfold get_distr, enc4, distr4. cbn. destruct (s =? 0), (s =? 1), (s =? 2); reflexivity. Qed.

Lemma distr4_nth a b c d s x : 0 <= s < 4 ->
  nth_error [a; b; c; d] (Z.to_nat s) = Some x -> distr4 a b c d s = x.
Proof.
  intros Hs. assert (s = 0 \/ s = 1 \/ s = 2 \/ s = 3) as [->|[->|[->| ->]]] by lia;
    cbn; intros [= ->]; reflexivity.
Qed.

Lemma u32_code_iff a b c d w v :
  u32_code a b c d w v <->
  exists s w', 0 <= s < 4 /\ w = to_bits 2 s ++ w' /\ distr_code (distr4 a b c d s) w' v.
Proof.
  split.
  - intros [w' v' H|w' v' H|w' v' H|w' v' H].
    + exists 0, w'. repeat split; auto; lia.
    + exists 1, w'. repeat split; auto; lia.
    + exists 2, w'. repeat split; auto; lia.
    + exists 3, w'. repeat split; auto; lia.
  - intros (s & w' & Hs & -> & H).
    assert (s = 0 \/ s = 1 \/ s = 2 \/ s = 3) as [->|[->|[->| ->]]] by lia; cbn in *.
    + now apply uc0.
    + now apply uc1.
    + now apply uc2.
    + now apply uc3.
Qed.

Lemma cost_code d v c : distr_ok d -> distr_cost d v = Some c -> exists w, distr_code d w v /\ zlen w = c.
Proof.
  intros Hok. destruct d as [x|n off]; cbn [distr_cost distr_ok] in *.
  - destruct (Z.eqb_spec x v) as [->|]; [|discriminate]. intros [= <-]. exists []. split; [constructor|reflexivity].
  - destruct ((off <=? v) && (v <? off + 2 ^ n)) eqn:E; [|discriminate]. intros [= <-].
    exists (to_bits (Z.to_nat n) (v - off)). split.
    + replace v with (off + (v - off)) at 2 by lia. constructor. lia.
    + rewrite zlen_to_bits. lia.
Qed.

Lemma u32_write_spec a b c d v :
  distr_ok a -> distr_ok b -> distr_ok c -> distr_ok d ->
  match u32_write (enc4 a b c d) v with
  | Some ws =>
      Forall field_ok ws /\
      u32_code a b c d (fields_bits ws) v /\
      (forall w, u32_code a b c d w v -> zlen (fields_bits ws) <= zlen w) /\
      u32_can_encode (enc4 a b c d) v = (true, zlen (fields_bits ws))
  | None =>
      (forall w, ~ u32_code a b c d w v) /\ fst (u32_can_encode (enc4 a b c d) v) = false
  end.
Proof.
  intros Ha Hb Hc Hd. unfold u32_can_encode, u32_write, choose_selector.
  change [d0 (enc4 a b c d); d1 (enc4 a b c d); d2 (enc4 a b c d); d3 (enc4 a b c d)]
    with (map pack [a; b; c; d]).
  destruct (choose_loop (map pack [a; b; c; d]) 0 v 0 64) as [sel total] eqn:E.
  destruct (choose_loop_spec [a; b; c; d] 0 v 0 64 sel total) as (HA & HB & HC);
    [repeat constructor; auto|lia|exact E|].
  assert (forall s, 0 <= s < 4 -> distr_ok (distr4 a b c d s)) as Hok4.
  { intros s Hs. unfold distr4. destruct (s =? 0), (s =? 1), (s =? 2); auto. }
  assert (forall w, u32_code a b c d w v -> total <= zlen w) as Hmin.
  { intros w Hw. apply u32_code_iff in Hw as (s & w' & Hs & -> & Hw').
    pose proof (distr_code_cost _ _ _ (Hok4 s Hs) Hw') as Hcost.
    assert (nth_error [a; b; c; d] (Z.to_nat s) = Some (distr4 a b c d s)) as Hn.
    { assert (s = 0 \/ s = 1 \/ s = 2 \/ s = 3) as [->|[->|[->| ->]]] by lia; reflexivity. }
    specialize (HC _ _ _ Hn Hcost). rewrite zlen_app, zlen_to_bits. lia. }
  destruct (Z.eqb_spec total 64) as [->|Hne].
  - split; [|reflexivity]. intros w Hw.
    pose proof Hw as Hw2. apply u32_code_iff in Hw as (s & w' & Hs & -> & Hw').
    specialize (Hmin _ Hw2). rewrite zlen_app, zlen_to_bits in Hmin.
    assert (zlen w' <= 32); [|lia].
    pose proof (Hok4 s Hs) as Ho. clear - Ho Hw'. revert Ho. destruct Hw' as [x|n off x Hx]; intros Ho; cbn [distr_ok] in Ho.
    + cbn. lia.
    + rewrite zlen_to_bits. lia.
  - destruct HA as [[-> ->]|(dd & Hn & Hs & Hcost)]; [lia|].
    rewrite Z.sub_0_r in Hn. change (zlen [a; b; c; d]) with 4 in Hs.
    apply distr4_nth in Hn; [|lia]. rewrite get_distr_pack, Hn.
    assert (distr_ok dd) as Hdd by (rewrite <- Hn; apply Hok4; lia).
    destruct dd as [x|n off]; cbn [pack distr_ok distr_cost] in *.
    + rewrite is_direct_val by auto.
      destruct (Z.eqb_spec x v) as [->|]; [|discriminate]. injection Hcost as Hcost.
      assert (total = 2) as -> by lia.
      split; [|split; [|split]].
      * repeat constructor; cbn; lia.
      * apply u32_code_iff. exists sel, []. rewrite Hn. repeat split; try lia. constructor.
      * exact Hmin.
      * reflexivity.
    + rewrite is_direct_bits, offset_bits by tauto.
      destruct ((off <=? v) && (v <? off + 2 ^ n)) eqn:Er; [|discriminate]. injection Hcost as Hcost.
      assert (total = 2 + n) as -> by lia.
      destruct (Z.ltb_spec v off); [lia|].
      replace (2 + n - 2) with n by lia.
      assert (fields_bits [(2, sel); (n, v - off)] = to_bits 2 sel ++ to_bits (Z.to_nat n) (v - off)) as Hfb.
      { unfold fields_bits. cbn [flat_map fst snd]. now rewrite app_nil_r. }
      split; [|split; [|split]].
      * constructor; [unfold field_ok; cbn [fst snd]; lia|]. constructor; [|constructor].
        unfold field_ok; cbn [fst snd]; lia.
      * apply u32_code_iff. exists sel, (to_bits (Z.to_nat n) (v - off)). rewrite Hn.
        split; [lia|]. split; [exact Hfb|].
        replace v with (off + (v - off)) at 2 by lia. constructor. lia.
      * intros w Hw. apply Hmin in Hw. rewrite Hfb, zlen_app, !zlen_to_bits. lia.
      * rewrite Hfb, zlen_app, !zlen_to_bits. f_equal. lia.
Qed.

Lemma u32_read_code a b c d w v :
  distr_ok a -> distr_ok b -> distr_ok c -> distr_ok d ->
  u32_code a b c d w v -> parses (u32_read (enc4 a b c d)) w (w32 v).
Proof.
  intros Ha Hb Hc Hd Hw. apply u32_code_iff in Hw as (s & w' & Hs & -> & Hw').
  unfold u32_read. change (to_bits 2 s) with (to_bits (Z.to_nat 2) s).
  eapply parses_bind; [apply parses_rd; lia|].
  cbv zeta. rewrite get_distr_pack.
  assert (distr_ok (distr4 a b c d s)) as Hok.
  { unfold distr4. destruct (s =? 0), (s =? 1), (s =? 2); auto. }
  revert Hok. destruct Hw' as [x|n off x Hx]; intros Hok; cbn [pack distr_ok] in *.
  - rewrite is_direct_val, direct_val by auto.
    replace (w32 x) with x; [apply parses_ret|]. unfold w32.
    change (2 ^ 31) with 2147483648 in *. change (2 ^ 32) with 4294967296. lia.
  - rewrite is_direct_bits, extra_bits_bits, offset_bits by tauto.
    eapply parses_bind_nil; [apply parses_rd; lia|].
    rewrite Z.add_comm. apply parses_ret.
Qed.

Lemma u32_roundtrip a b c d v ws :
  distr_ok a -> distr_ok b -> distr_ok c -> distr_ok d -> is_u32 v ->
  u32_write (enc4 a b c d) v = Some ws ->
  parses (u32_read (enc4 a b c d)) (fields_bits ws) v.
Proof.
  intros Ha Hb Hc Hd Hv H. pose proof (u32_write_spec a b c d v Ha Hb Hc Hd) as Hs. rewrite H in Hs.
  destruct Hs as (_ & Hc' & _). pose proof (u32_read_code a b c d _ v Ha Hb Hc Hd Hc') as Hp.
  replace (w32 v) with v in Hp; [exact Hp|]. unfold w32. rewrite Z.mod_small; auto.
Qed.

(* ---- U64 ---- *)

Lemma w64_shiftl g s : 0 <= s -> 0 <= g * 2 ^ s < 2 ^ 64 -> w64 (Z.shiftl g s) = g * 2 ^ s.
Proof. intros Hs Hg. unfold w64. rewrite Z.shiftl_mul_pow2 by lia. apply Z.mod_small. lia. Qed.

Lemma lor_group r g s : 0 <= s -> 0 <= r < 2 ^ s -> Z.lor r (g * 2 ^ s) = r + g * 2 ^ s.
Proof. intros Hs Hr. rewrite <- Z.shiftl_mul_pow2 by lia. rewrite lor_shiftl_add by lia. rewrite Z.shiftl_mul_pow2 by lia. lia. Qed.

Lemma fields_bits_cons f fs : fields_bits (f :: fs) = to_bits (Z.to_nat (fst f)) (snd f) ++ fields_bits fs.
Proof. reflexivity. Qed.

Lemma fields_bits_app a b : fields_bits (a ++ b) = fields_bits a ++ fields_bits b.
Proof. unfold fields_bits. apply flat_map_app. Qed.

Definition u64_tail (rest : Z) : list (Z * Z) :=
  if 0 <? rest then [(1, 1); (4, Z.land rest 15)] else [(1, 0)].

(* the groups still to be read; [shift = 60 - 8 * fuel] *)
Lemma u64_groups_ok fuel : forall value shift r ws rest,
  shift = 60 - 8 * Z.of_nat fuel -> 12 <= shift ->
  0 <= r < 2 ^ shift -> 0 <= value < 2 ^ (64 - shift) ->
  u64_groups fuel value shift = (ws, rest) ->
  Forall field_ok (ws ++ u64_tail rest) /\
  parses (u64_read_groups (S fuel) r shift) (fields_bits (ws ++ u64_tail rest)) (r + value * 2 ^ shift).
Proof.
  induction fuel as [|f IH]; intros value shift r ws rest Hs Hs12 Hr Hv; cbn [u64_groups].
  - intros [= <- <-]. assert (shift = 60) as -> by lia. clear Hs.
    change (2 ^ (64 - 60)) with 16 in Hv.
    cbn [app u64_read_groups]. unfold u64_tail.
    change 15 with (2 ^ 4 - 1). rewrite land_mask by lia. change (2 ^ 4) with 16. rewrite Z.mod_small by lia.
    destruct (Z.ltb_spec 0 value).
    + split. { repeat constructor; unfold field_ok; cbn [fst snd]; lia. }
      rewrite fields_bits_cons. cbn [fst snd].
      eapply parses_bind; [apply parses_rd; lia|]. cbn [Z.eqb].
      change (60 =? 60) with true. cbv iota.
      rewrite fields_bits_cons. cbn [fst snd].
      eapply parses_bind; [apply parses_rd; lia|].
      rewrite w64_shiftl by lia. rewrite lor_group by lia. apply parses_ret.
    + split. { repeat constructor; unfold field_ok; cbn [fst snd]; lia. }
      assert (value = 0) as -> by lia. rewrite Z.mul_0_l, Z.add_0_r.
      rewrite fields_bits_cons. cbn [fst snd].
      eapply parses_bind; [apply parses_rd; lia|]. cbn [Z.eqb]. apply parses_ret.
  - destruct ((0 <? value) && (shift <? 60)) eqn:E.
    + destruct (u64_groups f (Z.shiftr value 8) (shift + 8)) as [ws' rest'] eqn:Eg.
      intros [= <- <-].
      assert (Z.land value 255 = value mod 256) as Hl.
      { change 255 with (2 ^ 8 - 1). rewrite land_mask by lia. reflexivity. }
      assert (0 <= r + (value mod 256) * 2 ^ shift < 2 ^ (shift + 8)) as Hr'.
      { rewrite Z.pow_add_r by lia. change (2 ^ 8) with 256. nia. }
      assert (0 <= (value mod 256) * 2 ^ shift < 2 ^ 64) as Hg64.
      { assert (2 ^ (shift + 8) <= 2 ^ 64) by (apply Z.pow_le_mono_r; lia). lia. }
      rewrite Z.shiftr_div_pow2 in Eg by lia. change (2 ^ 8) with 256 in Eg.
      assert (0 <= value / 256 < 2 ^ (64 - (shift + 8))) as Hv'.
      { replace (64 - shift) with ((64 - (shift + 8)) + 8) in Hv by lia.
        rewrite Z.pow_add_r in Hv by lia. change (2 ^ 8) with 256 in Hv. lia. }
      destruct (IH (value / 256) (shift + 8) (r + (value mod 256) * 2 ^ shift) ws' rest'
        ltac:(lia) ltac:(lia) Hr' Hv' Eg) as (HF & HP).
      rewrite Hl. split.
      { cbn [app]. constructor; [unfold field_ok; cbn [fst snd]; lia|].
        constructor; [unfold field_ok; cbn [fst snd]; lia|exact HF]. }
      cbn [app]. rewrite fields_bits_cons. cbn [fst snd].
      change (u64_read_groups (S (S f)) r shift) with
        (let! b := rd 1 in
         if b =? 0 then Ret r
         else if shift =? 60 then
           let! g := rd 4 in Ret (Z.lor r (w64 (Z.shiftl g shift)))
         else
           let! g := rd 8 in
           u64_read_groups (S f) (Z.lor r (w64 (Z.shiftl g shift))) (shift + 8)).
      eapply parses_bind; [apply parses_rd; lia|]. cbn [Z.eqb].
      destruct (Z.eqb_spec shift 60); [lia|].
      rewrite fields_bits_cons. cbn [fst snd].
      eapply parses_bind; [apply parses_rd; lia|].
      rewrite w64_shiftl by lia. rewrite lor_group by lia.
      replace (r + value * 2 ^ shift) with
        (r + value mod 256 * 2 ^ shift + value / 256 * 2 ^ (shift + 8)); [exact HP|].
      rewrite Z.pow_add_r by lia. change (2 ^ 8) with 256.
      rewrite (Z.div_mod value 256) at 3 by lia. ring.
    + intros [= <- <-]. assert (value = 0) as -> by lia.
      cbn [app]. unfold u64_tail. change (0 <? 0) with false. cbv iota.
      split. { repeat constructor; unfold field_ok; cbn [fst snd]; lia. }
      rewrite Z.mul_0_l, Z.add_0_r. rewrite fields_bits_cons. cbn [fst snd].
      change (u64_read_groups (S (S f)) r shift) with
        (let! b := rd 1 in
         if b =? 0 then Ret r
         else if shift =? 60 then
           let! g := rd 4 in Ret (Z.lor r (w64 (Z.shiftl g shift)))
         else
           let! g := rd 8 in
           u64_read_groups (S f) (Z.lor r (w64 (Z.shiftl g shift))) (shift + 8)).
      eapply parses_bind; [apply parses_rd; lia|]. cbn [Z.eqb]. apply parses_ret.
Qed.

Lemma u64_ok v : is_u64 v ->
  Forall field_ok (u64_write v) /\ parses u64_read (fields_bits (u64_write v)) v.
Proof.
  unfold is_u64. intros Hv. unfold u64_write, u64_read.
  destruct (Z.eqb_spec v 0) as [->|].
  { split; [repeat constructor; unfold field_ok; cbn [fst snd]; lia|].
    rewrite fields_bits_cons. cbn [fst snd].
    eapply parses_bind; [apply parses_rd; lia|]. cbn [Z.eqb]. apply parses_ret. }
  destruct (Z.leb_spec v 16).
  { split; [repeat constructor; unfold field_ok; cbn [fst snd]; lia|].
    rewrite !fields_bits_cons. cbn [fst snd].
    eapply parses_bind; [apply parses_rd; lia|]. cbn [Z.eqb].
    eapply parses_bind; [apply parses_rd; lia|].
    replace (1 + (v - 1)) with v by lia. apply parses_ret. }
  destruct (Z.leb_spec v 272).
  { split; [repeat constructor; unfold field_ok; cbn [fst snd]; lia|].
    rewrite !fields_bits_cons. cbn [fst snd].
    eapply parses_bind; [apply parses_rd; lia|]. cbn [Z.eqb Pos.eqb].
    eapply parses_bind; [apply parses_rd; lia|].
    replace (17 + (v - 17)) with v by lia. apply parses_ret. }
  rewrite Z.shiftr_div_pow2 by lia. change (2 ^ 12) with 4096.
  destruct (u64_groups 6 (v / 4096) 12) as [ws rest] eqn:E.
  change 4095 with (2 ^ 12 - 1). rewrite land_mask by lia. change (2 ^ 12) with 4096.
  change (2 ^ 64) with 18446744073709551616 in Hv.
  destruct (u64_groups_ok 6 (v / 4096) 12 (v mod 4096) ws rest ltac:(lia) ltac:(lia)) as (HF & HP).
  - change (2 ^ 12) with 4096. lia.
  - change (2 ^ (64 - 12)) with 4503599627370496. lia.
  - exact E.
  - fold (u64_tail rest). split.
    + cbn [app]. constructor; [unfold field_ok; cbn [fst snd]; lia|].
      constructor; [unfold field_ok; cbn [fst snd]; change (2 ^ 12) with 4096; lia|exact HF].
    + cbn [app]. rewrite !fields_bits_cons. cbn [fst snd].
      eapply parses_bind; [apply parses_rd; lia|]. cbn [Z.eqb Pos.eqb].
      eapply parses_bind; [apply parses_rd; change (2 ^ 12) with 4096; lia|].
      replace (v mod 4096 + v / 4096 * 2 ^ 12) with v in HP; [exact HP|].
      change (2 ^ 12) with 4096. lia.
Qed.

Lemma u64_size_groups_ok fuel : forall value shift ws rest,
  u64_groups fuel value shift = (ws, rest) -> u64_size_groups fuel value shift = (width_sum ws, rest).
Proof.
  induction fuel as [|f IH]; intros value shift ws rest; cbn [u64_groups u64_size_groups].
  - now intros [= <- <-].
  - destruct (_ && _).
    + destruct (u64_groups f (Z.shiftr value 8) (shift + 8)) as [ws' rest'] eqn:E.
      rewrite (IH _ _ _ _ E). intros [= <- <-]. cbn [width_sum fold_right fst]. f_equal. 
      change (fold_right (fun (f0 : Z * Z) (s : Z) => fst f0 + s) 0 ws') with (width_sum ws'). lia.
    + now intros [= <- <-].
Qed.

Lemma width_sum_app a b : width_sum (a ++ b) = width_sum a + width_sum b.
Proof.
  induction a as [|x a IH]; [reflexivity|]. cbn [app width_sum fold_right].
  fold (width_sum (a ++ b)). fold (width_sum a). rewrite IH. lia.
Qed.

Lemma u64_size_ok v : u64_size v = width_sum (u64_write v).
Proof.
  unfold u64_size, u64_write. destruct (v =? 0); [reflexivity|]. destruct (v <=? 16); [reflexivity|].
  destruct (v <=? 272); [reflexivity|].
  destruct (u64_groups 6 (Z.shiftr v 12) 12) as [ws rest] eqn:E.
  rewrite (u64_size_groups_ok _ _ _ _ _ E). rewrite !width_sum_app. cbn [width_sum fold_right fst].
  destruct (0 <? rest); cbn [width_sum fold_right fst]; fold (width_sum ws); lia.
Qed.

Lemma u64_size_len v : is_u64 v -> u64_size v = u64_len v.
Proof.
  unfold is_u64. intros Hv. unfold u64_size, u64_len.
  destruct (Z.eqb_spec v 0); [reflexivity|]. destruct (Z.leb_spec v 16); [reflexivity|].
  destruct (Z.leb_spec v 272); [reflexivity|].
  cbn [u64_size_groups].
  rewrite !Z.shiftr_shiftr by lia. rewrite !Z.shiftr_div_pow2 by lia.
  cbn [Z.add Pos.add Pos.succ Pos.add_carry].
  change (12 <? 60) with true. change (20 <? 60) with true. change (28 <? 60) with true.
  change (36 <? 60) with true. change (44 <? 60) with true. change (52 <? 60) with true.
  rewrite !andb_true_r.
  repeat match goal with
  | |- context [2 ^ ?a] => let x := eval vm_compute in (2 ^ a) in change (2 ^ a) with x in *
  end.
  repeat (match goal with |- context [if 0 <? ?a then _ else _] => destruct (Z.ltb_spec 0 a) end; cbv beta iota zeta; try (exfalso; lia));
  repeat (match goal with |- context [if ?a <? ?b then _ else _] => destruct (Z.ltb_spec a b) end; cbv beta iota zeta; try lia; try reflexivity).
Qed.

(* ---- F16 ---- *)

Definition half_scaled' (h : Z) : Z :=
  let e := Z.land (Z.shiftr h 10) 31 in
  let m := Z.land h 1023 in
  let mag := if e =? 0 then Z.shiftl m 125 else Z.shiftl (1024 + m) (124 + e) in
  if h <? 32768 then mag else - mag.
Definition single_scaled' (f : Z) : Z :=
  let e := Z.land (Z.shiftr f 23) 255 in
  let m := Z.land f 8388607 in
  let mag := if e =? 0 then m else Z.shiftl (8388608 + m) (e - 1) in
  if f <? 2147483648 then mag else - mag.

Lemma half_scaled_eq h : half_scaled' h = half_scaled h.
Proof.
  unfold half_scaled', half_scaled, half_mag.
  change 31 with (2 ^ 5 - 1). change 1023 with (2 ^ 10 - 1).
  rewrite !land_mask, Z.shiftr_div_pow2 by lia. change (2 ^ 10) with 1024. change (2 ^ 5) with 32.
  rewrite !Z.shiftl_mul_pow2 by lia. reflexivity.
Qed.

Lemma single_scaled_eq f : single_scaled' f = single_scaled f.
Proof.
  unfold single_scaled', single_scaled.
  change 255 with (2 ^ 8 - 1). change 8388607 with (2 ^ 23 - 1).
  rewrite !land_mask, Z.shiftr_div_pow2 by lia. change (2 ^ 8) with 256.
  change (2 ^ 31) with 2147483648. change (2 ^ 23) with 8388608.
  destruct (Z.eqb_spec ((f / 8388608) mod 256) 0); [reflexivity|].
  rewrite Z.shiftl_mul_pow2 by lia. reflexivity.
Qed.

Definition f16_case (h : Z) : bool :=
  match f16_decode h with
  | None => negb (half_finite h)
  | Some f =>
      half_finite h && (single_scaled' f =? half_scaled' h) && fst (f16_can_encode f) && (0 <=? f) && (f <? 4294967296) &&
      match f16_write f with
      | Some [(16, h')] => if h =? 0x8000 then h' =? 0 else h' =? h
      | _ => false
      end
  end.

Lemma f16_all : forallb f16_case (zseq 0 (Z.to_nat 65536)) = true.
Proof. vm_cast_no_check (eq_refl true). Qed.

Lemma f16_case_ok h : 0 <= h < 65536 -> f16_case h = true.
Proof.
  intros Hh. apply (forallb_range _ _ _ f16_all). rewrite Z2Nat.id by lia. lia.
Qed.

Lemma f16_roundtrip h : 0 <= h < 65536 -> half_finite h = true -> h <> 0x8000 ->
  exists f, f16_decode h = Some f /\ single_scaled f = half_scaled h /\ is_u32 f /\
    fst (f16_can_encode f) = true /\ f16_write f = Some [(16, h)].
Proof.
  intros Hh Hf Hn. pose proof (f16_case_ok h Hh) as H. unfold f16_case in H.
  rewrite <- half_scaled_eq.
  destruct (f16_decode h) as [f|]; [|rewrite Hf in H; discriminate].
  exists f. split; [reflexivity|]. rewrite <- single_scaled_eq.
  destruct (f16_write f) as [[|[n h'] [|x l]]|]; rewrite ?andb_false_r in H; try discriminate.
  - destruct (Z.eqb_spec n 16) as [->|Hne].
    + destruct (Z.eqb_spec h 0x8000); [lia|].
      unfold is_u32. repeat (apply andb_prop in H as [H ?]). repeat split; try lia; auto.
      f_equal. f_equal. f_equal. lia.
    + exfalso. clear - H Hne.
      repeat match type of H with _ && ?x = true => apply andb_prop in H as [_ H] end.
      destruct n as [|p|p]; try discriminate.
      do 5 (destruct p as [p|p|]; try discriminate). lia.
  - exfalso. repeat match type of H with _ && ?x = true => apply andb_prop in H as [_ H] end.
    destruct n as [|p|p]; try discriminate. do 5 (destruct p as [p|p|]; try discriminate).
Qed.

Lemma f16_decode_none h : 0 <= h < 65536 -> (f16_decode h = None <-> half_finite h = false).
Proof.
  intros Hh. pose proof (f16_case_ok h Hh) as H. unfold f16_case in H.
  destruct (f16_decode h) as [f|].
  - split; [discriminate|]. intros E. rewrite E in H. discriminate.
  - split; auto. intros _. now destruct (half_finite h).
Qed.

Lemma f16_minus_zero : f16_decode 0x8000 = Some 0x80000000 /\ f16_write 0x80000000 = Some [(16, 0)].
Proof. split; reflexivity. Qed.
