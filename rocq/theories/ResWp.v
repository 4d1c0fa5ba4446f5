(* The weighted predictor always works: no access outside its arrays, no signed overflow. *)
From Verif Require Import Base Wrap FieldsModel RctModel MaModel OMap ResModel ResSpec.
Ltac Zify.zify_post_hook ::= idtac.

Lemma i64_ok x : - 2 ^ 63 <= x < 2 ^ 63 -> i64 x = Some x.
Proof. intros H. unfold i64. replace ((- 2 ^ 63 <=? x) && (x <? 2 ^ 63)) with true by lia. reflexivity. Qed.

Lemma div_table_b : forallb (fun i => match znth divlookup i with Some d => (0 <=? d) && ((i + 1) * d <=? 2 ^ 24) | None => false end) (zseq 0 64) = true.
Proof. vm_compute. reflexivity. Qed.
Lemma div_table i : 0 <= i < 64 -> exists d, znth divlookup i = Some d /\ 0 <= d /\ (i + 1) * d <= 2 ^ 24.
Proof.
  intros H. pose proof div_table_b as K. rewrite forallb_forall in K. assert (I : In i (zseq 0 64)) by (apply in_zseq; lia). specialize (K i I). cbv beta in K.
  destruct (znth divlookup i) as [d|]; [|discriminate]. exists d. apply andb_true_iff in K. destruct K. split; [reflexivity|lia].
Qed.

Lemma weight_ok x m : is_u32 x -> 0 <= m < 16 -> exists v, error_weight x m = Some v /\ 4 <= v < 2 ^ 28.
Proof.
  unfold is_u32. intros Hx Hm. unfold error_weight. set (s := Z.max 0 (Z.log2 (x + 1) - 5)).
  assert (B : 0 <= Z.shiftr x s < 64).
  { rewrite Z.shiftr_div_pow2 by lia. split; [apply Z.div_pos; lia|]. apply Z.div_lt_upper_bound; [lia|].
    pose proof (Z.log2_spec (x + 1) ltac:(lia)) as L. unfold s. destruct (Z.max_spec 0 (Z.log2 (x + 1) - 5)) as [(A & ->)|(A & ->)].
    - replace 64 with (2 ^ 6) by reflexivity. rewrite <- Z.pow_add_r by lia. replace (Z.log2 (x + 1) - 5 + 6) with (Z.succ (Z.log2 (x + 1))) by lia. lia.
    - change (2 ^ 0) with 1. assert (2 ^ Z.succ (Z.log2 (x + 1)) <= 2 ^ 6) by (apply Z.pow_le_mono_r; lia). change (2 ^ 6) with 64 in *. lia. }
  destruct (div_table _ B) as (d & -> & D0 & D1). eexists. split; [reflexivity|].
  assert (0 <= m * d <= 15 * 2 ^ 24) by nia.
  assert (W : w32 (m * d) = m * d) by (unfold w32; apply Z.mod_small; lia). rewrite W.
  assert (S : 0 <= Z.shiftr (m * d) s <= m * d). { rewrite Z.shiftr_div_pow2 by lia. assert (0 < 2 ^ s) by (apply Z.pow_pos_nonneg; lia). split; [apply Z.div_pos; lia|]. apply Z.div_le_upper_bound; [lia|]. nia. }
  unfold w32. rewrite Z.mod_small by lia. lia.
Qed.

Definition wp_ok (s : wp_state) : Prop :=
  length (pred_errors s) = 4%nat /\ Forall (fun e => forall i : Z, is_u32 (e i)) (pred_errors s) /\ (forall i, is_i32 (werror s i)).

Lemma weights_ok size a b c : 0 <= a < size -> 0 <= b < size -> 0 <= c < size -> forall pe w, length pe = length w -> Forall (fun e => forall i : Z, is_u32 (e i)) pe -> Forall (fun w => 0 <= w < 16) w ->
  exists r, wp_weights size a b c pe w = Some r /\ length r = length w /\ Forall (fun v => 4 <= v < 2 ^ 28) r.
Proof.
  intros Ha Hb Hc. induction pe as [|e pe IH]; intros [|m w] L P Q; try discriminate; cbn [wp_weights].
  - exists []. auto.
  - inversion P; subst. inversion Q; subst. rewrite !get_ok by assumption.
    destruct (weight_ok (w32 (w32 (e a + e b) + e c)) m (w32_range _) ltac:(assumption)) as (v & -> & V).
    destruct (IH w ltac:(cbn in L; lia) ltac:(assumption) ltac:(assumption)) as (r & -> & R1 & R2). exists (v :: r). cbn. auto.
Qed.

Lemma sum4 a b c d : 0 <= a -> 0 <= b -> 0 <= c -> 0 <= d -> a + b + c + d < 2 ^ 32 -> sum_u32 [a; b; c; d] = a + b + c + d.
Proof. intros. cbn [sum_u32]. unfold w32. rewrite (Z.mod_small (d + 0)) by lia. rewrite (Z.mod_small (c + _)) by lia. rewrite (Z.mod_small (b + _)) by lia. rewrite Z.mod_small by lia. lia. Qed.

(* the average is about as large as what is averaged *)
Definition P := 2 ^ 37.
Lemma prod_bound a b : - P <= a <= P -> 0 <= b -> - P * b <= a * b <= P * b.
Proof. intros. nia. Qed.
Lemma average_ok p0 p1 p2 p3 w0 w1 w2 w3 : let ok p := - P <= p <= P in let wok w := 4 <= w < 2 ^ 28 in
  ok p0 -> ok p1 -> ok p2 -> ok p3 -> wok w0 -> wok w1 -> wok w2 -> wok w3 ->
  exists r, weighted_average [p0; p1; p2; p3] [w0; w1; w2; w3] = Some r /\ - 2 ^ 38 <= r <= 2 ^ 38.
Proof.
  cbv zeta beta. intros A0 A1 A2 A3 B0 B1 B2 B3. unfold weighted_average. rewrite sum4 by lia. set (t := w0 + w1 + w2 + w3). assert (T : 16 <= t < 2 ^ 30) by (unfold t; lia). replace (t <=? 15) with false by lia.
  pose proof (Z.log2_spec t ltac:(lia)) as L. assert (L4 : 4 <= Z.log2 t) by (change 4 with (Z.log2 16); apply Z.log2_le_mono; lia).
  set (k := Z.log2 t - 4) in *. assert (K : 0 < 2 ^ k) by (apply Z.pow_pos_nonneg; lia).
  assert (Lk : 16 * 2 ^ k <= t < 32 * 2 ^ k). { replace (Z.succ (Z.log2 t)) with (k + 5) in L by lia. replace (Z.log2 t) with (k + 4) in L by lia. rewrite !Z.pow_add_r in L by lia. change (2 ^ 4) with 16 in L. change (2 ^ 5) with 32 in L. lia. }
  cbn [map].
  assert (Dv : forall v, 0 <= v -> exists q r, Z.shiftr v k = q /\ v = q * 2 ^ k + r /\ 0 <= r < 2 ^ k /\ 0 <= q).
  { intros v Hv. rewrite Z.shiftr_div_pow2 by lia. exists (v / 2 ^ k), (v mod 2 ^ k). pose proof (Z.div_mod v (2 ^ k) ltac:(lia)). pose proof (Z.mod_pos_bound v (2 ^ k) K). pose proof (Z.div_pos v (2 ^ k) Hv K). repeat split; lia. }
  destruct (Dv w0 ltac:(lia)) as (q0 & r0 & -> & E0 & R0 & Q0). destruct (Dv w1 ltac:(lia)) as (q1 & r1 & -> & E1 & R1 & Q1). destruct (Dv w2 ltac:(lia)) as (q2 & r2 & -> & E2 & R2 & Q2). destruct (Dv w3 ltac:(lia)) as (q3 & r3 & -> & E3 & R3 & Q3).
  assert (Bq : 12 < q0 + q1 + q2 + q3 < 32). { assert ((q0 + q1 + q2 + q3) * 2 ^ k + (r0 + r1 + r2 + r3) = t) by (unfold t; lia). split; nia. }
  clear Dv. rewrite sum4 by lia. set (u := q0 + q1 + q2 + q3) in *. destruct (div_table (u - 1) ltac:(lia)) as (d & Dd & D0 & D1). replace (u - 1 + 1) with u in D1 by lia. rewrite Dd.
  assert (U : 0 <= w32 (Z.shiftr u 1 - 1) <= u). { rewrite Z.shiftr_div_pow2 by lia. change (2 ^ 1) with 2. pose proof (Z.div_mod u 2 ltac:(lia)). pose proof (Z.mod_pos_bound u 2 ltac:(lia)). unfold w32. rewrite Z.mod_small by lia. lia. }
  set (z := w32 (Z.shiftr u 1 - 1)) in *. clearbody z.
  pose proof (prod_bound p0 q0 A0 Q0). pose proof (prod_bound p1 q1 A1 Q1). pose proof (prod_bound p2 q2 A2 Q2). pose proof (prod_bound p3 q3 A3 Q3).
  set (x0 := p0 * q0) in *. set (x1 := p1 * q1) in *. set (x2 := p2 * q2) in *. set (x3 := p3 * q3) in *. unfold P in *.
  cbn [dot]. fold x0. rewrite (i64_ok x0) by lia. rewrite (i64_ok (z + x0)) by lia. fold x1. rewrite (i64_ok x1) by lia. rewrite (i64_ok (z + x0 + x1)) by lia. fold x2. rewrite (i64_ok x2) by lia. rewrite (i64_ok (z + x0 + x1 + x2)) by lia. fold x3. rewrite (i64_ok x3) by lia. rewrite (i64_ok (z + x0 + x1 + x2 + x3)) by lia.
  set (m := z + x0 + x1 + x2 + x3). assert (M : - (2 ^ 37 * u) <= m <= 2 ^ 37 * u + u) by (unfold m, u; lia).
  assert (Md : - (2 ^ 37 * 2 ^ 24) <= m * d <= 2 ^ 37 * 2 ^ 24 + 2 ^ 24) by nia.
  rewrite i64_ok by lia. eexists. split; [reflexivity|]. rewrite Z.shiftr_div_pow2 by lia. split; [apply Z.div_le_lower_bound; lia|apply Z.div_le_upper_bound; lia].
Qed.

Lemma abs_pick p q : is_i32 p -> is_i32 q -> is_i32 (if Z.abs p <? Z.abs q then q else p).
Proof. destruct (Z.abs p <? Z.abs q); auto. Qed.

Lemma shr5 x : Z.shiftr x 5 = x / 32.
Proof. now rewrite Z.shiftr_div_pow2 by lia. Qed.
Lemma div32 x b : - 32 * b <= x <= 32 * b -> - b <= x / 32 <= b.
Proof. intros. split; [apply Z.div_le_lower_bound; lia|apply Z.div_le_upper_bound; lia]. Qed.
Lemma mul31 t p b : 0 <= p < 32 -> 0 <= b -> - b <= t <= b -> - (31 * b) <= t * p <= 31 * b.
Proof. intros. nia. Qed.

Lemma wp_total h x y w N W NE NW NN s : header_ok h -> 0 <= x < w -> is_i32 N -> is_i32 W -> is_i32 NE -> is_i32 NW -> is_i32 NN -> wp_ok s ->
  exists g p q, wp_predict h x y w N W NE NW NN s = Some (g, p, q) /\ pred_errors q = pred_errors s /\ werror q = werror s /\ length (prediction q) = 4%nat /\
    Forall (fun v => - 2 ^ 37 <= v <= 2 ^ 37) (prediction q) /\ - 2 ^ 38 <= wpred q <= 2 ^ 38.
Proof.
  unfold is_i32. intros (H1 & H2 & H3) Hx HN HW HNE HNW HNN (S1 & S2 & S3). unfold wp_predict. set (size := (w + 2) * 2).
  set (cur := if Z.odd y then 0 else w + 2). set (prev := if Z.odd y then w + 2 else 0). assert (C : 0 <= cur <= w + 2) by (unfold cur; destruct (Z.odd y); lia). assert (Pv : 0 <= prev <= w + 2) by (unfold prev; destruct (Z.odd y); lia). clearbody cur prev.
  set (pNE := if x <? w - 1 then prev + x + 1 else prev + x). set (pNW := if 0 <? x then prev + x - 1 else prev + x).
  assert (B1 : 0 <= prev + x < size) by (unfold size; lia). assert (B2 : 0 <= pNE < size) by (unfold pNE, size; destruct (Z.ltb_spec x (w - 1)); lia). assert (B3 : 0 <= pNW < size) by (unfold pNW, size; destruct (Z.ltb_spec 0 x); lia). clearbody pNE pNW.
  destruct (weights_ok size (prev + x) pNE pNW B1 B2 B3 (pred_errors s) (hw h) ltac:(lia) S2 H3) as (ws & -> & Lw & Fw). rewrite H2 in Lw.
  destruct ws as [|w0 [|w1 [|w2 [|w3 [|]]]]]; try discriminate Lw. inversion Fw as [|? ? F0 Fw1]; subst. inversion Fw1 as [|? ? F1 Fw2]; subst. inversion Fw2 as [|? ? F2 Fw3]; subst. inversion Fw3 as [|? ? F3 _]; subst. clear Fw Fw1 Fw2 Fw3 Lw.
  unfold add_bits, kPredExtraBits. rewrite !Z.shiftl_mul_pow2 by lia. change (2 ^ 3) with 8. rewrite (i64_ok (N * 8)) by lia. rewrite (i64_ok (W * 8)) by lia. rewrite (i64_ok (NE * 8)) by lia. rewrite (i64_ok (NW * 8)) by lia. rewrite (i64_ok (NN * 8)) by lia.
  assert (E : exists teW, (if x =? 0 then Some 0 else get size (werror s) (cur + x - 1)) = Some teW /\ is_i32 teW).
  { destruct (Z.eqb_spec x 0); [exists 0; split; [reflexivity|unfold is_i32; lia]|]. rewrite get_ok by (unfold size; lia). eexists. split; [reflexivity|apply S3]. }
  destruct E as (teW & -> & IW). rewrite (get_ok size _ (prev + x) B1), (get_ok size _ pNE B2), (get_ok size _ pNW B3). pose proof (S3 (prev + x)) as IN. pose proof (S3 pNW) as INW. pose proof (S3 pNE) as INE. set (teN := werror s (prev + x)) in *. set (teNW := werror s pNW) in *. set (teNE := werror s pNE) in *. clearbody teN teNW teNE. unfold is_i32 in *.
  pose proof (H1 (p1C h) ltac:(cbn; auto)) as G1. pose proof (H1 (p2C h) ltac:(cbn; auto)) as G2. pose proof (H1 (p3Ca h) ltac:(cbn; auto 8)) as G3. pose proof (H1 (p3Cb h) ltac:(cbn; auto 8)) as G4. pose proof (H1 (p3Cc h) ltac:(cbn; auto 8)) as G5. pose proof (H1 (p3Cd h) ltac:(cbn; auto 9)) as G6. pose proof (H1 (p3Ce h) ltac:(cbn; auto 9)) as G7. clear H1.
  rewrite !shr5.
  pose proof (mul31 (teN + teW + teNE) (p1C h) (3 * 2 ^ 31) G1 ltac:(lia) ltac:(lia)) as M1. pose proof (div32 ((teN + teW + teNE) * p1C h) (3 * 2 ^ 31) ltac:(lia)) as D1. set (d1 := (teN + teW + teNE) * p1C h / 32) in *. clearbody d1.
  pose proof (mul31 (teN + teW + teNW) (p2C h) (3 * 2 ^ 31) G2 ltac:(lia) ltac:(lia)) as M2. pose proof (div32 ((teN + teW + teNW) * p2C h) (3 * 2 ^ 31) ltac:(lia)) as D2. set (d2 := (teN + teW + teNW) * p2C h / 32) in *. clearbody d2.
  pose proof (mul31 teNW (p3Ca h) (2 ^ 31) G3 ltac:(lia) ltac:(lia)) as M3. pose proof (mul31 teN (p3Cb h) (2 ^ 31) G4 ltac:(lia) ltac:(lia)) as M4. pose proof (mul31 teNE (p3Cc h) (2 ^ 31) G5 ltac:(lia) ltac:(lia)) as M5.
  pose proof (mul31 (NN * 8 - N * 8) (p3Cd h) (2 * 2 ^ 34) G6 ltac:(lia) ltac:(lia)) as M6. pose proof (mul31 (NW * 8 - W * 8) (p3Ce h) (2 * 2 ^ 34) G7 ltac:(lia) ltac:(lia)) as M7.
  set (t3 := teNW * p3Ca h + teN * p3Cb h + teNE * p3Cc h + (NN * 8 - N * 8) * p3Cd h + (NW * 8 - W * 8) * p3Ce h).
  assert (T3 : - (31 * (3 * 2 ^ 31 + 2 ^ 36)) <= t3 <= 31 * (3 * 2 ^ 31 + 2 ^ 36)) by (unfold t3; lia).
  clearbody t3. clear M1 M2 M3 M4 M5 M6 M7. pose proof (div32 t3 (3 * 2 ^ 31 + 2 ^ 36) ltac:(lia)) as D3.
  rewrite (i64_ok (W * 8 + NE * 8 - N * 8)) by lia. rewrite (i64_ok (N * 8 - d1)) by lia. rewrite (i64_ok (W * 8 - d2)) by lia. rewrite (i64_ok t3) by lia. rewrite shr5. set (d3 := t3 / 32) in *. clearbody d3. rewrite (i64_ok (N * 8 - d3)) by lia.
  assert (Q0 : - P <= W * 8 + NE * 8 - N * 8 <= P) by (unfold P; lia). assert (Q1 : - P <= N * 8 - d1 <= P) by (unfold P; lia). assert (Q2 : - P <= W * 8 - d2 <= P) by (unfold P; lia). assert (Q3 : - P <= N * 8 - d3 <= P) by (unfold P; lia).
  destruct (average_ok _ _ _ _ w0 w1 w2 w3 Q0 Q1 Q2 Q3 F0 F1 F2 F3) as (r & -> & R).
  set (pr := if 0 <? _ then r else _). assert (Pr : - 2 ^ 38 <= pr <= 2 ^ 38) by (unfold pr; destruct (0 <? _); lia). clearbody pr.
  unfold kPredictionRound. change (Z.shiftr (Z.shiftl 1 kPredExtraBits) 1 - 1) with 3. rewrite i64_ok by lia.
  do 3 eexists. split; [reflexivity|]. cbn [pred_errors werror prediction wpred]. repeat split; try assumption; try lia. unfold P in *. repeat constructor; lia.
Qed.

Lemma preds_ok size val cur prev : 0 <= cur < size -> 0 <= prev < size -> - 2 ^ 35 <= val <= 2 ^ 35 -> forall p pe, length p = length pe -> Forall (fun v => - 2 ^ 37 <= v <= 2 ^ 37) p -> Forall (fun e => forall i : Z, is_u32 (e i)) pe ->
  exists r, update_preds size val cur prev p pe = Some r /\ length r = length pe /\ Forall (fun e => forall i : Z, is_u32 (e i)) r.
Proof.
  intros Hc Hp Hv. induction p as [|a p IH]; intros [|e pe] L A B; try discriminate; cbn [update_preds].
  - exists []. auto.
  - inversion A; subst. inversion B; subst. rewrite i64_ok by lia. rewrite set_ok by assumption. rewrite get_ok by assumption. rewrite set_ok by assumption.
    destruct (IH pe ltac:(cbn in L; lia) ltac:(assumption) ltac:(assumption)) as (r & -> & R1 & R2). eexists. split; [reflexivity|]. split; [cbn; lia|]. constructor; [|assumption].
    intros i. cbv beta. destruct (i =? prev); [apply w32_range|]. destruct (i =? cur); [apply w32_range|auto].
Qed.

Lemma update_total v x y w q : 0 <= x < w -> is_i32 v -> wp_ok q -> length (prediction q) = 4%nat -> Forall (fun v => - 2 ^ 37 <= v <= 2 ^ 37) (prediction q) -> - 2 ^ 38 <= wpred q <= 2 ^ 38 ->
  exists s, update_errors v x y w q = Some s /\ wp_ok s.
Proof.
  unfold is_i32. intros Hx Hv (S1 & S2 & S3) Lp Fp Hp. unfold update_errors, add_bits, kPredExtraBits. rewrite Z.shiftl_mul_pow2 by lia. change (2 ^ 3) with 8. rewrite (i64_ok (v * 8)) by lia. rewrite i64_ok by lia.
  set (cur := if Z.odd y then 0 else w + 2). set (prev := if Z.odd y then w + 2 else 0). assert (C : 0 <= cur <= w + 2) by (unfold cur; destruct (Z.odd y); lia). assert (Pv : 0 <= prev <= w + 2) by (unfold prev; destruct (Z.odd y); lia). clearbody cur prev.
  rewrite set_ok by lia. destruct (preds_ok ((w + 2) * 2) (v * 8) (cur + x) (prev + x + 1) ltac:(lia) ltac:(lia) ltac:(lia) (prediction q) (pred_errors q) ltac:(lia) Fp S2) as (r & -> & R1 & R2).
  eexists. split; [reflexivity|]. split; [cbn; lia|]. split; [exact R2|]. intros i. cbn [werror]. destruct (i =? cur + x); [apply s32_range|apply S3].
Qed.

Lemma wp_init_ok : wp_ok wp_init.
Proof. split; [reflexivity|]. split; [cbn [pred_errors wp_init]; repeat (apply Forall_cons; [intros i; unfold is_u32; lia|]); apply Forall_nil|]. intros i. unfold is_i32. cbn. lia. Qed.
