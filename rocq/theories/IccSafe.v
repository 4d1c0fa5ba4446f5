(* UnpredictICC terminates, stays within its arrays and produces as many bytes as announced *)
From Verif Require Import Base OMap IccModel IccSpec IccAux IccShuffle.
Ltac Zify.zify_post_hook ::= idtac.

Lemma slice_1 l i b : 0 <= i -> znth l i = Some b -> slice l i 1 = [b].
Proof. intros I E. rewrite (slice_cons l i 1 b) by (assumption || lia). reflexivity. Qed.
Lemma decode_varint__spec : forall n input size pos shift ret, bytes_ok input -> 0 <= pos -> size <= zlen input -> shift = 7 * (9 - Z.of_nat n) -> (n <= 9)%nat ->
  0 <= ret < 2 ^ shift -> safe (decode_varint_ n input size pos shift ret) (fun r => exists x, pos < snd r <= size /\ varint (slice input pos (snd r - pos)) x /\ fst r = ret + x * 2 ^ shift /\ is_u64 (fst r)).
Proof.
  induction n as [|n IH]; intros input size pos shift ret B P S E N R; cbn [decode_varint_]; (destruct (Z.leb_spec size pos) as [L|L]; [exact I|]);
    (destruct (at_safe input pos B ltac:(lia)) as (b & -> & Eb & Ub)); cbn [bind]; cbv zeta; assert (Ub' := is_u8_lt _ Ub); rewrite testbit_7 by exact Ub;
    (destruct (Z.leb_spec 128 b) as [G|G]).
  - exact I.
  - destruct (Z.eqb_spec (Z.land b 126) 0) as [E0|_]; [|exact I]. cbn [negb safe fst snd]. subst shift. change (7 * (9 - Z.of_nat 0)) with 63 in *.
    assert (Eb1 : Z.land b 1 = b /\ b <= 1).
    { assert (K : forallb (fun b => negb (Z.land b 126 =? 0) || ((Z.land b 1 =? b) && (b <=? 1))) (zseq 0 128) = true) by (vm_compute; reflexivity).
      rewrite forallb_forall in K. assert (IN : In b (zseq 0 128)) by (apply in_zseq; lia). specialize (K b IN). rewrite E0 in K. assert (J : (Z.land b 1 =? b) && (b <=? 1) = true) by exact K. apply andb_true_iff in J. rewrite Z.eqb_eq, Z.leb_le in J. exact J. }
    destruct Eb1 as [Eb1 Lb]. rewrite Eb1. exists b. split; [lia|]. replace (pos + 1 - pos) with 1 by lia. rewrite (slice_1 _ _ b) by assumption.
    split; [apply varint_last; lia|]. rewrite lor_shift by lia. split; [reflexivity|]. unfold is_u64. change (2 ^ 63) with 9223372036854775808 in *. change (2 ^ 64) with 18446744073709551616. lia.
  - rewrite land_127. assert (M : b mod 128 = b - 128) by (symmetry; apply Z.mod_unique with 1; lia). rewrite M. rewrite lor_shift by lia.
    assert (SP : 0 < 2 ^ shift) by (apply Z.pow_pos_nonneg; lia). assert (S7 : 2 ^ (shift + 7) = 2 ^ shift * 128) by (rewrite Z.pow_add_r by lia; reflexivity).
    eapply safe_weaken.
    { apply IH; [exact B|lia|exact S|lia|lia|]. rewrite S7. split; [apply Z.add_nonneg_nonneg; [lia|apply Z.mul_nonneg_nonneg; lia]|].
      assert ((b - 128) * 2 ^ shift <= 127 * 2 ^ shift) by (apply Z.mul_le_mono_nonneg_r; lia). lia. }
    intros [v p] (x & R1 & R2 & R3 & R4). cbn [fst snd] in *. exists (b - 128 + 128 * x). split; [lia|]. rewrite (slice_cons input pos (p - pos) b) by (assumption || lia).
    replace (p - pos - 1) with (p - (pos + 1)) by lia. split; [replace b with (b - 128 + 128) at 1 by lia; apply varint_more; [lia|exact R2]|]. split; [|exact R4]. rewrite R3, S7. ring.
  - rewrite land_127, Z.mod_small by lia. rewrite lor_shift by lia. cbn [safe fst snd]. exists b. split; [lia|]. replace (pos + 1 - pos) with 1 by lia. rewrite (slice_1 _ _ b) by assumption.
    split; [apply varint_last; lia|]. split; [reflexivity|]. unfold is_u64. assert (SP : 0 < 2 ^ shift) by (apply Z.pow_pos_nonneg; lia).
    assert (S7 : 2 ^ (shift + 7) = 2 ^ shift * 128) by (rewrite Z.pow_add_r by lia; reflexivity). assert (2 ^ (shift + 7) <= 2 ^ 64) by (apply Z.pow_le_mono_r; lia).
    assert (b * 2 ^ shift <= 127 * 2 ^ shift) by (apply Z.mul_le_mono_nonneg_r; lia). split; [apply Z.add_nonneg_nonneg; [lia|apply Z.mul_nonneg_nonneg; lia]|lia].
Qed.
Lemma decode_varint_spec input size pos : bytes_ok input -> 0 <= pos -> size <= zlen input ->
  safe (decode_varint input size pos) (fun r => pos < snd r <= size /\ varint (slice input pos (snd r - pos)) (fst r) /\ is_u64 (fst r)).
Proof.
  intros. eapply safe_weaken; [apply decode_varint__spec; [assumption|assumption|assumption|reflexivity|lia|split; [lia|reflexivity]]|]. intros [v p] (x & A & B & C & D). cbn [fst snd] in *.
  replace v with x in * by (rewrite C; ring). auto.
Qed.

(* LinearPredictICCValue reads only what precedes the value *)
Lemma ldiff_range i k : 0 <= i -> 0 <= k -> i - 2 ^ k < Z.ldiff i (Z.ones k) <= i /\ 0 <= Z.ldiff i (Z.ones k).
Proof.
  intros I K. assert (P : 0 < 2 ^ k) by (apply Z.pow_pos_nonneg; lia). rewrite Z.ldiff_ones_r by lia. rewrite Z.shiftl_mul_pow2, Z.shiftr_div_pow2 by lia.
  assert (M := Z.mod_pos_bound i (2 ^ k) P). assert (D := Z.div_mod i (2 ^ k) ltac:(lia)). assert (0 <= i / 2 ^ k) by (apply Z.div_pos; lia). split; [lia|apply Z.mul_nonneg_nonneg; lia].
Qed.
Section Linear.
Variables (start i stride width : Z).
Hypothesis I0 : 0 <= i.
Hypothesis W : width = 1 \/ width = 2 \/ width = 4.
Hypothesis WS : width <= stride.
Hypothesis SS : stride * 4 < start.
Hypothesis BIG : start + i < 2 ^ 64.
Lemma ldiff_1 : i - 2 < Z.ldiff i 1 <= i /\ 0 <= Z.ldiff i 1.
Proof. exact (ldiff_range i 1 I0 ltac:(lia)). Qed.
Lemma ldiff_3 : i - 4 < Z.ldiff i 3 <= i /\ 0 <= Z.ldiff i 3.
Proof. exact (ldiff_range i 2 I0 ltac:(lia)). Qed.
Lemma w64_small q : 0 <= q < start + i -> w64 q = q.
Proof. intros. unfold w64. apply Z.mod_small. lia. Qed.
Lemma linear_ext order data data' : (forall q, 0 <= q < start + i -> znth data' q = znth data q) -> linear_predict data' start i stride width order = linear_predict data start i stride width order.
Proof.
  intros E. assert (A : forall q, 0 <= q < start + i -> at_ data' q = at_ data q) by (intros q Q; unfold at_; rewrite E by exact Q; reflexivity).
  assert (D1 := ldiff_1). assert (D3 := ldiff_3).
  assert (AW : forall q, 0 <= q < start + i -> at_ data' (w64 q) = at_ data (w64 q)) by (intros q Q; rewrite w64_small by exact Q; apply A; exact Q).
  unfold linear_predict. destruct W as [->|[->| ->]]; cbn [Z.eqb Pos.eqb]; cbv zeta.
  - rewrite !AW by lia. reflexivity.
  - rewrite !AW by lia. reflexivity.
  - assert (U : forall q, 0 <= q -> q + 4 <= start + i -> decode_u32 data' (start + i) (w64 q) = decode_u32 data (start + i) (w64 q)).
    { intros q Q1 Q2. rewrite w64_small by lia. unfold decode_u32. destruct (start + i <? q + 4); [reflexivity|]. rewrite !A by lia. reflexivity. }
    rewrite !U by lia. reflexivity.
Qed.
Lemma linear_safe order data : bytes_ok data -> start + i <= zlen data -> exists v, linear_predict data start i stride width order = Ok v /\ is_u8 v.
Proof.
  intros B L. assert (D1 := ldiff_1). assert (D3 := ldiff_3).
  assert (AW : forall q, 0 <= q < start + i -> exists v, at_ data (w64 q) = Ok v) by (intros q Q; rewrite w64_small by exact Q; destruct (at_safe data q B ltac:(lia)) as (v & -> & _); eauto).
  unfold linear_predict. destruct W as [->|[->| ->]]; cbn [Z.eqb Pos.eqb]; cbv zeta.
  - destruct (AW (start + i - stride) ltac:(lia)) as (v1 & ->). destruct (AW (start + i - stride * 2) ltac:(lia)) as (v2 & ->). destruct (AW (start + i - stride * 3) ltac:(lia)) as (v3 & ->).
    cbn [bind]. eexists. split; [reflexivity|apply w8_range].
  - destruct (AW (start + Z.ldiff i 1 - stride) ltac:(lia)) as (v1 & ->). destruct (AW (start + Z.ldiff i 1 - stride * 2) ltac:(lia)) as (v2 & ->). destruct (AW (start + Z.ldiff i 1 - stride * 3) ltac:(lia)) as (v3 & ->).
    destruct (AW (start + Z.ldiff i 1 - stride + 1) ltac:(lia)) as (u1 & ->). destruct (AW (start + Z.ldiff i 1 - stride * 2 + 1) ltac:(lia)) as (u2 & ->). destruct (AW (start + Z.ldiff i 1 - stride * 3 + 1) ltac:(lia)) as (u3 & ->).
    cbn [bind]. eexists. split; [reflexivity|destruct (Z.odd i); apply w8_range].
  - assert (U : forall q, 0 <= q < start + i -> exists v, decode_u32 data (start + i) (w64 q) = Ok v) by (intros q Q; rewrite w64_small by exact Q; destruct (decode_u32_safe data (start + i) q B ltac:(lia) L) as (v & -> & _); eauto).
    destruct (U (start + Z.ldiff i 3 - stride) ltac:(lia)) as (v1 & ->). destruct (U (start + Z.ldiff i 3 - stride * 2) ltac:(lia)) as (v2 & ->). destruct (U (start + Z.ldiff i 3 - stride * 3) ltac:(lia)) as (v3 & ->).
    cbn [bind]. eexists. split; [reflexivity|apply w8_range].
Qed.
End Linear.

Lemma bytes_app a b : bytes_ok a -> bytes_ok b -> bytes_ok (a ++ b).
Proof. intros. apply Forall_app. auto. Qed.
Lemma zlen_app2 {A} (a b : list A) : zlen (a ++ b) = zlen a + zlen b.
Proof. unfold zlen. rewrite app_length. lia. Qed.
Lemma zlen_cons2 {A} (a : A) b : zlen (a :: b) = zlen b + 1.
Proof. unfold zlen. cbn [length]. lia. Qed.
Lemma zlen_nil2 {A} : zlen (@nil A) = 0. Proof. reflexivity. Qed.

Lemma reads_safe l i n : bytes_ok l -> 0 <= i -> 0 <= n -> i + n <= zlen l -> safe (reads l i n) (fun r => zlen r = n /\ bytes_ok r).
Proof. intros. rewrite reads_ok by assumption. cbn. split; [apply slice_len; assumption|apply slice_bytes; assumption]. Qed.

(* headers: 128 bytes *)
Lemma puts_len v : forall l i, 0 <= i -> i + zlen v <= zlen l -> zlen (puts l i v) = zlen l.
Proof.
  unfold puts. induction v as [|b v IH]; intros l i I L; [reflexivity|]. cbn [fold_left snd]. rewrite zlen_cons2 in L. assert (G := zlen_nonneg v). rewrite IH; [apply put_len; lia|lia|rewrite put_len; lia].
Qed.
Lemma predict_header_safe icc size header pos : bytes_ok icc -> size <= zlen icc -> zlen header = 128 -> exists h, predict_header icc size header pos = Ok h /\ zlen h = 128.
Proof.
  intros B S H. unfold predict_header.
  assert (PL : forall i v, 0 <= i -> i + zlen v <= 128 -> zlen (puts header i v) = 128) by (intros i v P Q; rewrite puts_len by lia; exact H).
  destruct (Z.eqb_spec pos 8) as [->|N1]; [destruct (Z.leb_spec 8 size); cbn [andb]|].
  - rewrite reads_ok by lia. cbn [bind]. eexists. split; [reflexivity|]. apply PL; [lia|]. rewrite slice_len by lia. lia.
  - eexists. split; [reflexivity|exact H].
  - cbn [andb]. destruct (Z.eqb_spec pos 41) as [->|N2]; [destruct (Z.leb_spec 41 size); cbn [andb]|].
    + destruct (at_safe icc 40 B ltac:(lia)) as (c & -> & _). cbn [bind]. eexists. split; [reflexivity|]. destruct (c =? 65); [apply PL; cbn; lia|]. destruct (c =? 77); [apply PL; cbn; lia|exact H].
    + eexists. split; [reflexivity|exact H].
    + cbn [andb]. destruct (Z.eqb_spec pos 42) as [->|N3]; [destruct (Z.leb_spec 42 size); cbn [andb]|].
      * destruct (at_safe icc 40 B ltac:(lia)) as (c & -> & _). destruct (at_safe icc 41 B ltac:(lia)) as (d & -> & _). cbn [bind]. eexists. split; [reflexivity|].
        destruct ((c =? 83) && (d =? 71)); [apply PL; cbn; lia|]. destruct ((c =? 83) && (d =? 85)); [apply PL; cbn; lia|exact H].
      * eexists. split; [reflexivity|exact H].
      * cbn [andb]. eexists. split; [reflexivity|exact H].
Qed.
Lemma unpredict_header_safe enc osize cpos cend : bytes_ok enc -> forall n i pos header result, zlen header = 128 -> bytes_ok result -> i = 128 - Z.of_nat n -> (n <= 128)%nat -> 0 <= pos <= zlen enc ->
  safe (unpredict_header n enc osize cpos cend i pos header result) (fun r => match r with (Some r, _, _) => zlen r = osize /\ bytes_ok r | (None, pos, result) => 0 <= pos <= zlen enc /\ bytes_ok result end).
Proof.
  intros B. induction n as [|n IH]; intros i pos header result H R I N P; cbn [unpredict_header]; (destruct (Z.eqb_spec (zlen result) osize) as [E|E]; [destruct (cpos =? cend); [|exact Logic.I]; destruct (pos =? zlen enc); [split; [exact E|exact R]|exact Logic.I]|]).
  - split; assumption.
  - destruct (predict_header_safe result (zlen result) header i R ltac:(lia) H) as (h & -> & H2). cbn [bind]. destruct (Z.leb_spec (zlen enc) pos); [exact Logic.I|].
    destruct (at_safe enc pos B ltac:(lia)) as (b & -> & _). cbn [bind]. destruct (znth_ex h i ltac:(lia)) as (v & Ev). rewrite (at_intro _ _ _ Ev). cbn [bind].
    apply IH; [exact H2|apply bytes_app; [exact R|repeat constructor; apply w8_range]|lia|lia|lia].
Qed.

Lemma kw_tags : Forall (fun t => zlen t = 4 /\ bytes_ok t) tag_strings.
Proof. apply Forall_forall. intros t H. repeat (destruct H as [<-|H]; [split; [reflexivity|repeat constructor; unfold is_u8; lia]|]). destruct H. Qed.
Lemma kw_types : Forall (fun t => zlen t = 4 /\ bytes_ok t) type_strings.
Proof. apply Forall_forall. intros t H. repeat (destruct H as [<-|H]; [split; [reflexivity|repeat constructor; unfold is_u8; lia]|]). destruct H. Qed.
Ltac kwb := repeat constructor; unfold is_u8; cbn; lia.

Section Dec.
Variables (enc : list Z) (osize cend : Z).
Hypothesis B : bytes_ok enc.
Hypothesis S64 : zlen enc < 2 ^ 63.
Hypothesis C : 0 <= cend <= zlen enc.

Definition t_ok (s : tstate) : Prop := 0 <= t_cpos s <= cend /\ 0 <= t_pos s <= zlen enc /\ is_u64 (t_start s) /\ 0 <= t_size s < 2 ^ 32 /\ bytes_ok (t_result s).
Lemma unpredict_tag_safe s : t_ok s -> t_cpos s < cend -> safe (unpredict_tag enc cend s) (fun r => t_cpos s < snd r <= cend /\ match fst r with Some s' => t_ok s' /\ t_cpos s' = snd r | None => True end).
Proof.
  intros (T1 & T2 & T3 & T4 & T5) L. unfold unpredict_tag. destruct (at_safe enc (t_cpos s) B ltac:(lia)) as (command & -> & _ & _). cbn [bind]. cbv zeta.
  destruct (Z.land command 63 =? 0); [cbn; split; [lia|exact I]|].
  apply safe_bind with (fun r => zlen (fst r) = 4 /\ bytes_ok (fst r) /\ 0 <= snd r <= zlen enc).
  { destruct (Z.land command 63 =? tag_unknown).
    - eapply safe_bind; [apply check_bounds_safe; [lia|lia|unfold is_u64; lia]|]. intros [] K. cbn beta in K. rewrite decode_keyword_ok by lia. cbn [bind safe fst snd]. split; [apply slice_len; lia|]. split; [apply slice_bytes; exact B|lia].
    - destruct (Z.land command 63 =? tag_TRC); [cbn; split; [reflexivity|]; split; [kwb|exact T2]|]. destruct (Z.land command 63 =? tag_XYZ); [cbn; split; [reflexivity|]; split; [kwb|exact T2]|].
      destruct (znth tag_strings (Z.land command 63 - tag_string_first)) as [tag|] eqn:E; [|exact I]. cbn. assert (K := kw_tags). rewrite Forall_forall in K. destruct (K tag) as [K1 K2]; [|repeat split; assumption || lia].
      unfold znth in E. destruct (_ <? 0); [discriminate|]. eapply nth_error_In; eassumption. }
  intros [tag pos] (G1 & G2 & G3). cbn [fst snd] in *. set (ts := if has_size_20 tag then 20 else t_size s). assert (TS : 0 <= ts < 2 ^ 32) by (unfold ts; destruct (has_size_20 tag); lia). clearbody ts.
  apply safe_bind with (fun r => t_cpos s < snd r <= cend /\ 0 <= fst r).
  { destruct (Z.testbit command 6).
    - eapply safe_weaken; [apply decode_varint_spec; [exact B|lia|lia]|]. intros [v p] (A1 & _ & A2). cbn [fst snd] in *. unfold is_u64 in A2. lia.
    - eapply safe_bind; [apply check_32_safe|]. intros [] K. cbn beta in K. cbn. unfold is_u64 in T3. lia. }
  intros [tagstart cpos] (G4 & G5). cbn [fst snd] in *. eapply safe_bind; [apply check_32_safe|]. intros [] K1. cbn beta in K1.
  apply safe_bind with (fun r => t_cpos s < snd r <= cend /\ 0 <= fst r).
  { destruct (Z.testbit command 7); [|cbn; lia]. eapply safe_weaken; [apply decode_varint_spec; [exact B|lia|lia]|]. intros [v p] (A1 & _ & A2). cbn [fst snd] in *. unfold is_u64 in A2. lia. }
  intros [tagsize cpos2] (G6 & G7). cbn [fst snd] in *. eapply safe_bind; [apply check_32_safe|]. intros [] K2. cbn beta in K2.
  assert (EB : forall t v, bytes_ok t -> bytes_ok (t ++ be_bytes v ++ be_bytes tagsize)) by (intros t v Q; apply bytes_app; [exact Q|apply bytes_app; apply be_bytes_ok]).
  apply safe_bind with bytes_ok.
  { destruct (Z.land command 63 =? tag_TRC); [cbn [safe]; apply bytes_app; apply EB; kwb|]. destruct (Z.land command 63 =? tag_XYZ); [|constructor].
    eapply safe_bind; [apply check_32_safe|]. intros [] _. cbn [safe]. apply bytes_app; apply EB; kwb. }
  intros more G8. cbn [safe fst snd]. split; [lia|]. split; [|reflexivity]. unfold t_ok. cbn [t_cpos t_pos t_start t_size t_result].
  split; [lia|]. split; [lia|]. split; [unfold is_u64; change (2 ^ 32) with 4294967296 in *; change (2 ^ 64) with 18446744073709551616; lia|]. split; [lia|].
  apply bytes_app; [exact T5|]. apply bytes_app; [apply EB; exact G2|exact G8].
Qed.
Lemma unpredict_tags_safe : forall n s, t_ok s -> cend - t_cpos s <= Z.of_nat n ->
  safe (unpredict_tags n enc osize cend s) (fun r => match r with (cpos, pos, result) => 0 <= cpos <= cend /\ 0 <= pos <= zlen enc /\ bytes_ok result end).
Proof.
  induction n as [|n IH]; intros s T L; cbn [unpredict_tags]; assert (T' := T); destruct T' as (T1 & T2 & T3 & T4 & T5);
    (destruct (osize <? zlen (t_result s)); [exact I|]); (destruct (Z.ltb_spec cend (t_cpos s)); [exact I|]); (destruct (Z.eqb_spec (t_cpos s) cend); [cbn; tauto|]); [lia|].
  eapply safe_bind; [apply unpredict_tag_safe; [exact T|lia]|]. intros [[s'|] cpos] (A1 & A2); cbn [fst snd] in *; [|cbn; lia || (split; [lia|]; split; assumption)].
  destruct A2 as [A2 A3]. apply IH; [exact A2|]. rewrite A3. lia.
Qed.

Lemma unpredict_values_safe start stride width order : width = 1 \/ width = 2 \/ width = 4 -> width <= stride -> stride * 4 < start ->
  forall residuals i result, 0 <= i -> bytes_ok result -> zlen result = start + i -> start + i + zlen residuals < 2 ^ 64 ->
  safe (unpredict_values residuals start i stride width order result) (fun r => bytes_ok r /\ zlen r = start + i + zlen residuals).
Proof.
  intros W WS SS. induction residuals as [|b residuals IH]; intros i result I BR L BIG; cbn [unpredict_values]; [cbn; split; [exact BR|unfold zlen; cbn; unfold zlen in L; lia]|].
  rewrite zlen_cons2 in *. assert (G := zlen_nonneg residuals). destruct (linear_safe start i stride width I W WS SS ltac:(lia) order result BR ltac:(lia)) as (v & -> & _). cbn [bind].
  eapply safe_weaken; [apply IH; [lia|apply bytes_app; [exact BR|repeat constructor; apply w8_range]|rewrite zlen_app2, zlen_cons2, zlen_nil2; lia|lia]|].
  intros r (R1 & R2). split; [exact R1|lia].
Qed.
Lemma unpredict_main_safe cpos pos result : 0 <= cpos < cend -> 0 <= pos <= zlen enc -> bytes_ok result -> zlen result < 2 ^ 63 ->
  safe (unpredict_main enc cend cpos pos result) (fun r => match r with (cpos', pos', result') => cpos < cpos' <= cend /\ 0 <= pos' <= zlen enc /\ bytes_ok result' end).
Proof.
  intros CP PP BR LR. unfold unpredict_main. cbv zeta. destruct (at_safe enc cpos B ltac:(lia)) as (command & -> & _ & _). cbn [bind].
  assert (DV : forall p, cpos < p -> safe (decode_varint enc cend p) (fun r => p < snd r <= cend /\ is_u64 (fst r))).
  { intros p Pp. eapply safe_weaken; [apply decode_varint_spec; [exact B|lia|lia]|]. intros [v q] (A1 & _ & A2). split; assumption. }
  destruct (command =? cmd_insert).
  { eapply safe_bind; [apply DV; lia|]. intros [num cp] (A1 & A2). cbn [fst snd] in *. eapply safe_bind; [apply check_bounds_safe; [lia|lia|exact A2]|]. intros [] K. cbn beta in K. unfold is_u64 in A2.
    eapply safe_bind; [apply reads_safe; [exact B|lia|lia|exact K]|]. intros bs (L1 & L2). cbn. split; [lia|]. split; [lia|]. apply bytes_app; assumption. }
  destruct ((command =? cmd_shuffle2) || (command =? cmd_shuffle4)).
  { eapply safe_bind; [apply DV; lia|]. intros [num cp] (A1 & A2). cbn [fst snd] in *. eapply safe_bind; [apply check_bounds_safe; [lia|lia|exact A2]|]. intros [] K. cbn beta in K. unfold is_u64 in A2.
    eapply safe_bind; [apply reads_safe; [exact B|lia|lia|exact K]|]. intros bs (L1 & L2).
    destruct (shuffle_ok bs (if command =? cmd_shuffle2 then 2 else 4)) as (r & -> & Lr & Br); [destruct (command =? cmd_shuffle2); lia|]. cbn. split; [lia|]. split; [lia|]. apply bytes_app; [assumption|auto]. }
  destruct (command =? cmd_predict).
  { eapply safe_bind; [apply check_bounds_safe; [lia|lia|unfold is_u64; lia]|]. intros [] K. cbn beta in K. destruct (at_safe enc (cpos + 1) B ltac:(lia)) as (flags & -> & _ & UF). cbn [bind].
    assert (W4 : 0 <= Z.land flags 3 < 4) by (change 3 with (Z.ones 2); rewrite Z.land_ones by lia; apply Z.mod_pos_bound; lia).
    destruct (Z.eqb_spec (Z.land flags 3 + 1) 3) as [_|W3]; [exact I|]. assert (W : Z.land flags 3 + 1 = 1 \/ Z.land flags 3 + 1 = 2 \/ Z.land flags 3 + 1 = 4) by lia.
    set (width := Z.land flags 3 + 1) in *. destruct (Z.land flags 12 / 4 =? 3); [exact I|].
    apply safe_bind with (fun r => width <= fst r /\ cpos < snd r <= cend).
    { destruct (Z.testbit flags 4); [|cbn; lia]. eapply safe_bind; [apply DV; lia|]. intros [stride cp] (A1 & A2). cbn [fst snd] in *. destruct (Z.ltb_spec stride width); [exact I|]. cbn. lia. }
    intros [stride cp] (A1 & A2). cbn [fst snd] in *. destruct (Z.eqb_spec (zlen result) 0); [exact I|]. cbn [orb]. destruct (Z.ltb_spec ((zlen result - 1) / 4) stride) as [_|SS]; [exact I|].
    assert (S4 : stride * 4 < zlen result) by (assert (D := Z.mul_div_le (zlen result - 1) 4 ltac:(lia)); lia).
    eapply safe_bind; [apply DV; lia|]. intros [num cp2] (A3 & A4). cbn [fst snd] in *. eapply safe_bind; [apply check_bounds_safe; [lia|lia|exact A4]|]. intros [] K2. cbn beta in K2. unfold is_u64 in A4.
    eapply safe_bind; [apply reads_safe; [exact B|lia|lia|exact K2]|]. intros bs (L1 & L2).
    apply safe_bind with (fun r => zlen r = num).
    { destruct (1 <? width); [|exact L1]. destruct (shuffle_ok bs width ltac:(lia)) as (r & -> & Lr & _). cbn. lia. }
    intros bs2 L3. eapply safe_bind; [apply (unpredict_values_safe (zlen result) stride width); [exact W|exact A1|exact S4|lia|exact BR|lia|change (2 ^ 63) with 9223372036854775808 in *; change (2 ^ 64) with 18446744073709551616; lia]|].
    intros r (R1 & R2). cbn. split; [lia|]. split; [lia|exact R1]. }
  destruct (command =? cmd_XYZ).
  { eapply safe_bind; [apply check_bounds_safe; [lia|lia|unfold is_u64; lia]|]. intros [] K. cbn beta in K. eapply safe_bind; [apply reads_safe; [exact B|lia|lia|exact K]|]. intros bs (L1 & L2). cbn [safe].
    split; [lia|]. split; [lia|]. apply bytes_app; [exact BR|]. apply bytes_app; [kwb|]. apply bytes_app; [kwb|exact L2]. }
  destruct ((cmd_type_first <=? command) && (command <? cmd_type_first + zlen type_strings)) eqn:E; [|exact I].
  apply andb_true_iff in E. rewrite Z.leb_le, Z.ltb_lt in E. destruct (znth_ex type_strings (command - cmd_type_first) ltac:(lia)) as (t & Et). rewrite Et. cbn [safe].
  split; [lia|]. split; [lia|]. assert (KT := kw_types). rewrite Forall_forall in KT. apply bytes_app; [exact BR|]. apply bytes_app; [|kwb].
  apply KT. unfold znth in Et. destruct (_ <? 0); [discriminate|]. eapply nth_error_In; eassumption.
Qed.
Lemma unpredict_content_safe : osize < 2 ^ 32 -> forall n cpos pos result, 0 <= cpos <= cend -> 0 <= pos <= zlen enc -> bytes_ok result -> cend - cpos <= Z.of_nat n ->
  safe (unpredict_content n enc osize cend cpos pos result) (fun r => zlen r = osize /\ bytes_ok r).
Proof.
  intros O. induction n as [|n IH]; intros cpos pos result CP PP BR L; cbn [unpredict_content];
    (destruct (Z.ltb_spec osize (zlen result)); [exact I|]); (destruct (Z.ltb_spec cend cpos); [exact I|]);
    (destruct (Z.eqb_spec cpos cend); [destruct (pos =? zlen enc); [|exact I]; destruct (Z.eqb_spec (zlen result) osize) as [E|]; [split; [exact E|exact BR]|exact I]|]); [lia|].
  eapply safe_bind; [apply unpredict_main_safe; [lia|exact PP|exact BR|]|].
  { change (2 ^ 32) with 4294967296 in *. change (2 ^ 63) with 9223372036854775808. lia. }
  intros [[cp p] r] (A1 & A2 & A3). apply IH; [lia|exact A2|exact A3|lia].
Qed.
End Dec.

Lemma initial_header_len size : zlen (initial_header size) = 128.
Proof. reflexivity. Qed.
Theorem unpredict_safe enc : bytes_ok enc -> zlen enc < 2 ^ 63 ->
  safe (unpredict enc) (fun r => (exists n, 0 < n <= zlen enc /\ varint (slice enc 0 n) (zlen r)) /\ bytes_ok r).
Proof.
  intros B S. unfold unpredict. cbv zeta. assert (G := zlen_nonneg enc).
  eapply safe_bind; [apply decode_varint_spec; [exact B|lia|lia]|]. intros [osize pos] (A1 & A2 & A3). cbn [fst snd] in *. rewrite Z.sub_0_r in A2.
  eapply safe_bind; [apply check_32_safe|]. intros [] K1. cbn beta in K1.
  eapply safe_bind; [apply decode_varint_spec; [exact B|lia|lia]|]. intros [csize cpos] (A4 & _ & A5). cbn [fst snd] in *. eapply safe_bind; [apply check_32_safe|]. intros [] K2. cbn beta in K2.
  eapply safe_bind; [apply check_bounds_safe; [lia|lia|exact A5]|]. intros [] K3. cbn beta in K3. unfold is_u64 in A5. unfold is_u64 in A3.
  apply safe_weaken with (fun r => zlen r = osize /\ bytes_ok r); [|intros r [E BR]; split; [exists pos; split; [lia|rewrite E; exact A2]|exact BR]].
  eapply safe_bind; [apply unpredict_header_safe; [exact B|apply initial_header_len|constructor|reflexivity|lia|lia]|].
  intros [[[r|] p] result] H; cbn [safe]; [exact H|]. destruct H as [H1 H2]. destruct (Z.leb_spec (cpos + csize) cpos); [exact I|].
  eapply safe_bind; [apply decode_varint_spec; [exact B|lia|lia]|]. intros [numtags cp] (A6 & _ & A7). cbn [fst snd] in *. unfold is_u64 in A7.
  apply safe_bind with (fun r => match r with (cpos', pos, result) => 0 <= cpos' <= cpos + csize /\ 0 <= pos <= zlen enc /\ bytes_ok result end).
  { destruct (Z.eqb_spec numtags 0); [cbn; split; [lia|]; split; assumption|]. eapply safe_bind; [apply check_32_safe|]. intros [] K4. cbn beta in K4.
    apply unpredict_tags_safe; [exact B|exact S|lia| |unfold zlen in *; cbn [t_cpos]; lia]. unfold t_ok. cbn [t_cpos t_pos t_start t_size t_result]. split; [lia|]. split; [lia|]. split.
    - unfold is_u64, header_size. change (2 ^ 32) with 4294967296 in *. change (2 ^ 64) with 18446744073709551616. lia.
    - split; [lia|]. apply bytes_app; [exact H2|apply be_bytes_ok]. }
  intros [[cp2 p2] r2] (A8 & A9 & A10). apply unpredict_content_safe; [exact B|exact S|lia|exact K1|exact A8|exact A9|exact A10|unfold zlen in *; lia].
Qed.
