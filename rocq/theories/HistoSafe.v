(* Reading a histogram from arbitrary bits. *)
From Verif Require Import Base ListAux Wrap FieldsProofs BitProg BitProgProofs HuffBuild HuffSimple HuffRle HuffSafe AliasSpec HistoModel HistoSpec HistoProofs HistoCounts HistoTop.
Ltac Zify.zify_post_hook ::= idtac.

Lemma var_len_ends wide : 3 <= wide <= 4 -> ends (decode_var_len wide) (fun v => 0 <= v < 2 ^ (2 ^ wide)).
Proof.
  intros Hw. unfold decode_var_len. assert (W : wide = 3 \/ wide = 4) by lia.
  assert (B : forall b, 0 <= b < 2 ^ wide -> 2 ^ (b + 1) <= 2 ^ (2 ^ wide)) by (intros b Hb; apply Z.pow_le_mono_r; lia).
  assert (B0 : 2 ^ wide <= 16) by (destruct W as [->| ->]; cbn; lia). assert (B1 : 256 <= 2 ^ (2 ^ wide)) by (destruct W as [->| ->]; cbn; lia).
  eapply ends_bind; [apply ends_rd; lia|]. intros b Hb. destruct (b =? 0); [apply ends_ret; lia|].
  eapply ends_bind; [apply ends_rd; lia|]. intros n Hn. cbv beta in Hn. destruct (n =? 0); [apply ends_ret; lia|].
  eapply ends_bind; [apply ends_rd; lia|]. intros v Hv. cbv beta in Hv. apply ends_ret. rewrite Z.shiftl_mul_pow2 by lia. specialize (B n Hn). rewrite Z.pow_add_r in B by lia. change (2 ^ 1) with 2 in B. lia.
Qed.

Lemma huff128_range x : 0 <= x < 2 ^ 7 -> exists l v, znth huff128 x = Some (l, v) /\ 0 <= l <= 7 /\ 0 <= v <= 13.
Proof.
  intros H. assert (A : forallb (fun x => match znth huff128 x with Some (l, v) => (0 <=? l) && (l <=? 7) && (0 <=? v) && (v <=? 13) | None => false end) (zseq 0 128) = true) by reflexivity.
  change (2 ^ 7) with 128 in H. pose proof (proj1 (forallb_forall _ _) A x ltac:(apply in_zseq; cbn; lia)) as B. cbv beta in B. destruct (znth huff128 x) as [(l & v)|]; [|discriminate].
  exists l, v. split; [reflexivity|]. lia.
Qed.

(* a run that starts at j covers j .. j + r_same j - 2 *)
Definition logs_any (n i : Z) (r : logs) : Prop :=
  (forall j, -1 <= logcounts r j <= 12) /\ (forall j, logcounts r j = 12 -> r_same r j <> 0) /\ (forall j, i <= j -> r_same r j = 0 /\ logcounts r j = 0) /\
  (forall j, r_same r j <> 0 -> 0 <= j < n /\ 5 <= r_same r j <= 260 /\ j + r_same r j - 1 <= i /\ (r_omit r < j \/ j + r_same r j - 1 <= r_omit r)) /\
  r_omit r < i /\ (0 <= r_omit r -> r_omit r < n /\ logcounts r (r_omit r) < 12).

Lemma read_logs_ends n : 3 <= n <= 258 -> forall fuel i r, 0 <= i -> n - i <= Z.of_nat fuel -> logs_any n i r ->
  ends (read_logs fuel n i r) (fun o => exists r', o = Some r' /\ exists i', n <= i' /\ logs_any n i' r').
Proof.
  intros Hn. induction fuel as [|fuel IH]; intros i r Hi Hf Hr; cbn [read_logs]; destruct (Z.ltb_spec i n) as [L|L].
  1: lia. 1, 3: apply ends_ret; exists r; split; [reflexivity|exists i; split; [lia|assumption]].
  apply (ends_peek 7 (fun x => znth huff128 x) _ _ _ (fun v => 0 <= v <= 13)); [lia|exact huff128_range|]. intros v Hv.
  rewrite set_ok by lia. destruct Hr as (R1 & R2 & R3 & R4 & R5 & R6). unfold ANS_LOG_TAB_SIZE. destruct (Z.eqb_spec (v - 1) 12) as [E|E].
  - eapply ends_bind; [apply (var_len_ends 3); lia|]. intros q Hq. cbv beta in Hq. change (2 ^ 2 ^ 3) with 256 in Hq. rewrite set_ok by lia. apply IH; [lia|lia|].
    split; [|split; [|split; [|split; [|split]]]]; cbn [logcounts r_same omit_log r_omit].
    + intros j. destruct (j =? i); [lia|apply R1].
    + intros j. destruct (j =? i); [lia|apply R2].
    + intros j Hj. replace (j =? i) with false by lia. apply R3. lia.
    + intros j. destruct (Z.eqb_spec j i) as [->|N]; [lia|]. intros Hj. destruct (R4 j Hj) as (A & B & C & D). lia.
    + lia.
    + intros Ho. replace (r_omit r =? i) with false by lia. now apply R6.
  - assert (C1 : forall j, -1 <= (if j =? i then v - 1 else logcounts r j) <= 12) by (intros j; destruct (j =? i); [lia|apply R1]).
    assert (C2 : forall j, (if j =? i then v - 1 else logcounts r j) = 12 -> r_same r j <> 0) by (intros j; destruct (j =? i); [lia|apply R2]).
    assert (C3 : forall j, i + 1 <= j -> r_same r j = 0 /\ (if j =? i then v - 1 else logcounts r j) = 0) by (intros j Hj; replace (j =? i) with false by lia; apply R3; lia).
    destruct (omit_log r <? v - 1); apply IH; try lia; (split; [|split; [|split; [|split; [|split]]]]; cbn [logcounts r_same omit_log r_omit]; try assumption).
    + intros j Hj. destruct (R4 j Hj) as (A & B & C & D). lia.
    + lia.
    + intros _. rewrite Z.eqb_refl. lia.
    + intros j Hj. destruct (R4 j Hj) as (A & B & C & D). lia.
    + lia.
    + intros Ho. replace (r_omit r =? i) with false by lia. now apply R6.
Qed.

Definition counts_any (n : Z) (r : logs) (i prev numsame : Z) (c : Z -> Z) (total : Z) : Prop :=
  0 <= prev < 4096 /\ 0 <= numsame /\ (0 < numsame -> exists j, 0 <= j < i /\ r_same r j <> 0 /\ i + numsame = j + r_same r j - 1) /\
  (forall j, 0 <= c j < 4096) /\ c (r_omit r) = 0 /\ (forall j, i <= j -> c j = 0) /\ zsum (map c (zseq 0 (Z.to_nat i))) = total /\ 0 <= total <= 4095 * i.

Lemma sum_set c i v : 0 <= i -> (forall j, i <= j -> c j = 0) ->
  zsum (map (fun j => if j =? i then v else c j) (zseq 0 (Z.to_nat (i + 1)))) = zsum (map c (zseq 0 (Z.to_nat i))) + v.
Proof.
  intros Hi Hc. replace (Z.to_nat (i + 1)) with (S (Z.to_nat i)) by lia. rewrite seq_snoc, map_app, sum_app. rewrite Z.add_0_l, Z2Nat.id by lia. cbn [map]. rewrite Z.eqb_refl.
  replace (map (fun j => if j =? i then v else c j) (zseq 0 (Z.to_nat i))) with (map c (zseq 0 (Z.to_nat i))); [unfold zsum; cbn [fold_right]; lia|].
  apply map_ext_in. intros j Hj. apply zseq_in in Hj. now replace (j =? i) with false by lia.
Qed.

Lemma mantissa_range code shift b : 1 <= code <= 11 -> 0 <= shift <= 13 -> 0 <= population_precision code shift <= code /\
  (0 <= b < 2 ^ population_precision code shift -> 0 <= Z.shiftl 1 code + Z.shiftl b (code - population_precision code shift) < 4096).
Proof.
  intros Hc Hs. assert (A : forallb (fun code => forallb (fun shift => (0 <=? population_precision code shift) && (population_precision code shift <=? code)) (zseq 0 14)) (zseq 0 12) = true) by reflexivity.
  pose proof (proj1 (forallb_forall _ _) (proj1 (forallb_forall _ _) A code ltac:(apply in_zseq; cbn; lia)) shift ltac:(apply in_zseq; cbn; lia)) as B. cbv beta in B. set (p := population_precision code shift) in *. clearbody p. assert (Hp : 0 <= p <= code) by lia.
  split; [exact Hp|]. intros Hb. rewrite !Z.shiftl_mul_pow2 by lia. assert (E : 2 ^ code = 2 ^ p * 2 ^ (code - p)) by (rewrite <- Z.pow_add_r by lia; f_equal; lia).
  assert (M : 2 ^ code <= 2 ^ 11) by (apply Z.pow_le_mono_r; lia). change (2 ^ 11) with 2048 in M. assert (P : 0 < 2 ^ (code - p)) by (apply Z.pow_pos_nonneg; lia). clear -E M P Hb. nia.
Qed.

Lemma read_counts_ends n shift r : 3 <= n <= 258 -> 0 <= shift <= 13 -> 0 <= r_omit r < n -> (exists i, logs_any n i r) -> forall k i prev numsame c total, 0 <= i -> n - i = Z.of_nat k -> counts_any n r i prev numsame c total ->
  ends (read_counts k n shift r i prev numsame c total) (fun o => exists c' total', o = Some (c', total') /\ exists prev' numsame', counts_any n r n prev' numsame' c' total').
Proof.
  intros Hn Hsh Ho (i0 & R1 & R2 & _ & R4 & R5 & R6). specialize (R6 ltac:(lia)). induction k as [|k IH]; intros i prev numsame c total Hi Hk Hc; cbn [read_counts].
  - apply ends_ret. exists c, total. split; [reflexivity|]. exists prev, numsame. replace n with i by lia. exact Hc.
  - rewrite (get_ok n (r_same r) i) by lia. rewrite (get_ok n (logcounts r) i) by lia. destruct Hc as (C1 & C2 & C3 & C4 & C5 & C6 & C7 & C8).
    assert (Eb : exists before, (if 0 <? i then get n c (i - 1) else Some 0) = Some before /\ 0 <= before < 4096).
    { destruct (Z.ltb_spec 0 i); [rewrite get_ok by lia; eexists; split; [reflexivity|apply C4]|exists 0; split; [reflexivity|lia]]. }
    destruct Eb as (before & -> & Hbefore). cbv zeta. set (ns := if negb (r_same r i =? 0) then r_same r i - 1 else numsame). set (pv := if negb (r_same r i =? 0) then before else prev).
    assert (P1 : 0 <= pv < 4096) by (unfold pv; destruct (negb _); assumption).
    assert (P2 : 0 <= ns) by (unfold ns; destruct (Z.eqb_spec (r_same r i) 0) as [E|E]; cbn [negb]; [assumption|destruct (R4 i E); lia]).
    assert (P3 : 0 < ns -> exists j, 0 <= j <= i /\ r_same r j <> 0 /\ i + ns = j + r_same r j - 1).
    { intros Q. unfold ns in *. destruct (Z.eqb_spec (r_same r i) 0) as [E|E]; cbn [negb] in *; [destruct (C3 Q) as (j & A & B & D); exists j; split; [lia|auto]|exists i; split; [lia|split; [assumption|lia]]]. }
    assert (Hrun : 0 < ns -> i <> r_omit r). { intros Q ->. destruct (P3 Q) as (j & A & B & D). destruct (R4 j B) as (_ & _ & _ & [|]); lia. }
    assert (P4 : r_same r i <> 0 -> 0 < ns). { intros E. unfold ns. replace (r_same r i =? 0) with false by lia. cbn [negb]. destruct (R4 i E); lia. }
    clearbody ns pv.
    assert (Next : forall v ns', 0 <= v < 4096 -> i <> r_omit r -> 0 <= ns' -> (ns' = ns - 1 \/ ns' = 0) ->
      ends (match set n c i v with None => Ret None | Some counts' => read_counts k n shift r (i + 1) pv ns' counts' (total + v) end) (fun o => exists c' total', o = Some (c', total') /\ exists prev' numsame', counts_any n r n prev' numsame' c' total')).
    { intros v ns' Hv Hno Hns' Hns. rewrite set_ok by lia. apply IH; [lia|lia|]. split; [exact P1|]. split; [exact Hns'|]. split; [|split; [|split; [|split; [|split]]]].
      - intros Q. destruct (P3 ltac:(lia)) as (j & A & B & D). exists j. split; [lia|]. split; [exact B|lia].
      - intros j. destruct (j =? i); [assumption|apply C4].
      - replace (r_omit r =? i) with false by lia. exact C5.
      - intros j Hj. replace (j =? i) with false by lia. apply C6. lia.
      - rewrite sum_set by (try lia; assumption). lia.
      - lia. }
    destruct (Z.ltb_spec 0 ns) as [Q|Q].
    + apply Next; [assumption|now apply Hrun|lia|lia].
    + destruct ((i =? r_omit r) || (logcounts r i <? 0)) eqn:Eo.
      * apply IH; [lia|lia|]. split; [exact P1|]. split; [exact P2|]. split; [lia|]. split; [exact C4|]. split; [exact C5|]. split; [intros; apply C6; lia|]. split; [|lia].
        pose proof (sum_set c i 0 Hi C6) as U. rewrite C7, Z.add_0_r in U. rewrite <- U. f_equal. apply map_ext_in. intros j _. destruct (Z.eqb_spec j i) as [->|]; [apply C6; lia|reflexivity].
      * assert (Hcode : 0 <= logcounts r i <= 11). { pose proof (R1 i). pose proof (R2 i). assert (logcounts r i <> 12) by (intros E; specialize (P4 (R2 i E)); lia). lia. }
        destruct ((shift =? 0) || (logcounts r i =? 0)) eqn:Es.
        -- apply Next; [|lia|lia|lia]. rewrite Z.shiftl_1_l. assert (2 ^ logcounts r i <= 2 ^ 11) by (apply Z.pow_le_mono_r; lia). change (2 ^ 11) with 2048 in *. pose proof (Z.pow_nonneg 2 (logcounts r i)). lia.
        -- destruct (mantissa_range (logcounts r i) shift 0 ltac:(lia) ltac:(lia)) as (Hp & _). eapply ends_bind; [apply ends_rd; lia|]. intros b Hb. cbv beta in Hb.
           destruct (mantissa_range (logcounts r i) shift b ltac:(lia) ltac:(lia)) as (_ & Hv). apply Next; [now apply Hv|lia|lia|lia].
Qed.

Lemma read_log_ends k : forall log, 0 <= log -> ends (read_log k log) (fun l => log <= l <= log + Z.of_nat k).
Proof.
  induction k as [|k IH]; intros log H; cbn [read_log]; [apply ends_ret; lia|]. eapply ends_bind; [apply ends_rd; lia|]. intros b _.
  destruct (b =? 0); [apply ends_ret; lia|]. eapply ends_weaken; [apply IH; lia|]. cbv beta. intros; lia.
Qed.

Definition histogram_or_error (r : option (option (list Z))) : Prop :=
  exists o, r = Some o /\ forall counts, o = Some counts -> 1 <= zlen counts <= 258 /\ is_histogram counts.

Lemma flat_sum a : 1 <= a <= 256 -> is_histogram (create_flat_histogram a 4096).
Proof.
  intros H. assert (A : forallb (fun a => forallb (fun v => 0 <=? v) (create_flat_histogram a 4096) && (zsum (create_flat_histogram a 4096) =? 4096)) (zseq 1 256) = true) by (vm_compute; reflexivity).
  pose proof (proj1 (forallb_forall _ _) A a ltac:(apply in_zseq; cbn; lia)) as B. cbv beta in B. apply andb_prop in B as (B & C). split; [|lia].
  apply Forall_forall. intros x Hx. pose proof (proj1 (forallb_forall _ _) B x Hx). cbv beta in *. lia.
Qed.

Lemma err : histogram_or_error (Some None). Proof. exists None. split; [reflexivity|discriminate]. Qed.
Lemma fun_histogram (f : Z -> Z) n : 1 <= n <= 258 -> (forall j, 0 <= j < n -> 0 <= f j) -> zsum (map f (zseq 0 (Z.to_nat n))) = 4096 -> histogram_or_error (Some (Some (map f (zseq 0 (Z.to_nat n))))).
Proof.
  intros Hn Hf E. eexists. split; [reflexivity|]. intros counts Ec. apply Some_eq in Ec. subst counts. split; [unfold zlen; rewrite map_length, length_zseq; lia|]. split; [|exact E].
  apply Forall_forall. intros x Hx. apply in_map_iff in Hx as (j & <- & Hj). apply zseq_in in Hj. apply Hf. lia.
Qed.

Theorem read_histogram_safe : ends read_histogram histogram_or_error.
Proof.
  unfold read_histogram. cbv zeta. eapply ends_bind; [apply ends_rd; lia|]. intros simple _. destruct (simple =? 1).
  - eapply ends_bind; [apply ends_rd; lia|]. intros b _. eapply ends_bind; [apply (var_len_ends 3); lia|]. intros s0 H0. cbv beta in H0. change (2 ^ 2 ^ 3) with 256 in H0. destruct (b =? 0).
    + apply ends_ret. apply fun_histogram; [lia|intros j _; change ANS_TAB_SIZE with 4096; destruct (j =? s0); lia|]. rewrite (sum_split _ s0) by lia. rewrite Z.eqb_refl. change ANS_TAB_SIZE with 4096.
      match goal with |- _ + zsum (map ?g _) = _ => assert (G : forall l, zsum (map g l) = 0) end; [|rewrite G; reflexivity]. intros l. unfold zsum. induction l as [|x l IH]; cbn [map fold_right]; [reflexivity|]. destruct (x =? s0); lia.
    + eapply ends_bind; [apply (var_len_ends 3); lia|]. intros s1 H1. cbv beta in H1. change (2 ^ 2 ^ 3) with 256 in H1. destruct (Z.eqb_spec s0 s1) as [_|N]; [apply ends_ret, err|].
      eapply ends_bind; [apply ends_rd; unfold ANS_LOG_TAB_SIZE; lia|]. intros c0 Hc. cbv beta in Hc. change (2 ^ ANS_LOG_TAB_SIZE) with 4096 in Hc. change ANS_TAB_SIZE with 4096. apply ends_ret. apply fun_histogram; [lia|intros j _; destruct (j =? s1); [lia|destruct (j =? s0); lia]|].
      rewrite (sum_split _ s1) by lia. rewrite (sum_split _ s0) by lia. rewrite Z.eqb_refl. cbv beta. replace (s0 =? s1) with false by lia. rewrite Z.eqb_refl.
      match goal with |- _ + (_ + zsum (map ?g _)) = _ => assert (G : forall l, zsum (map g l) = 0) end; [|rewrite G; lia]. intros l. unfold zsum. induction l as [|x l IH]; cbn [map fold_right]; [reflexivity|]. destruct (x =? s0); destruct (x =? s1); lia.
  - eapply ends_bind; [apply ends_rd; lia|]. intros flat _. destruct (flat =? 1).
    + eapply ends_bind; [apply (var_len_ends 3); lia|]. intros a Ha. cbv beta in Ha. change (2 ^ 2 ^ 3) with 256 in Ha. change ANS_TAB_SIZE with 4096. destruct (4096 <? a + 1); [apply ends_ret, err|]. apply ends_ret. eexists. split; [reflexivity|]. intros counts E. apply Some_eq in E. subst counts.
      split; [unfold create_flat_histogram, zlen; rewrite map_length, length_zseq; lia|]. apply flat_sum. lia.
    + eapply ends_bind; [apply read_log_ends; lia|]. change (Z.to_nat (Z.log2 (ANS_LOG_TAB_SIZE + 1))) with 3%nat. intros log Hlog. cbv beta in Hlog. eapply ends_bind; [apply ends_rd; lia|]. intros m Hm. cbv beta in Hm.
      set (shift := Z.lor m (Z.shiftl 1 log) - 1). assert (Hshift : 0 <= shift).
      { unfold shift. rewrite Z.shiftl_1_l. assert (0 < 2 ^ log) by (apply Z.pow_pos_nonneg; lia). assert (Z.lor m (2 ^ log) <> 0) by (intros E; apply Z.lor_eq_0_iff in E; lia). assert (0 <= Z.lor m (2 ^ log)) by (apply Z.lor_nonneg; lia). lia. }
      clearbody shift. unfold ANS_LOG_TAB_SIZE. change (12 + 1) with 13. destruct (Z.ltb_spec 13 shift) as [_|Hs]; [apply ends_ret, err|].
      eapply ends_bind; [apply (var_len_ends 3); lia|]. intros l Hl. cbv beta in Hl. change (2 ^ 2 ^ 3) with 256 in Hl. set (n := l + 3). assert (Hn : 3 <= n <= 258) by lia. clearbody n.
      eapply ends_bind; [apply (read_logs_ends n Hn); [lia|lia|]|].
      { split; [cbn; lia|]. split; [cbn; lia|]. split; [cbn; lia|]. split; [cbn; lia|]. cbn. lia. }
      cbv beta. intros o (r & -> & i' & Hi' & Hr). destruct (Z.ltb_spec (r_omit r) 0) as [_|Hom]; [apply ends_ret, err|]. pose proof Hr as (R1 & R2 & R3 & R4 & R5 & R6). specialize (R6 Hom).
      assert (Ea : exists after, (if r_omit r + 1 <? n then get n (logcounts r) (r_omit r + 1) else Some 0) = Some after). { destruct (Z.ltb_spec (r_omit r + 1) n); [rewrite get_ok by lia|]; eauto. }
      destruct Ea as (after & ->). destruct ((r_omit r + 1 <? n) && (after =? 12)); [apply ends_ret, err|].
      eapply ends_bind; [apply (read_counts_ends n shift r Hn ltac:(lia) ltac:(lia) (ex_intro _ i' Hr)); [lia|lia|]|].
      { split; [lia|]. split; [lia|]. split; [lia|]. split; [intros; lia|]. split; [reflexivity|]. split; [reflexivity|]. split; [reflexivity|lia]. }
      cbv beta. intros o (c & total & -> & pv & ns & (_ & _ & _ & C4 & C5 & C6 & C7 & C8)). rewrite set_ok by lia. change ANS_TAB_SIZE with 4096. destruct (Z.leb_spec (4096 - total) 0) as [_|Hp]; [apply ends_ret, err|]. apply ends_ret.
      apply fun_histogram; [lia|intros j _; destruct (j =? r_omit r); [lia|apply C4]|]. rewrite (sum_split _ (r_omit r)) by lia. rewrite Z.eqb_refl. rewrite (sum_split c (r_omit r)) in C7 by lia. rewrite C5 in C7.
      match goal with |- _ + ?x = _ => match type of C7 with _ + ?y = _ => replace x with y end end; [lia|]. f_equal. apply map_ext_in. intros j _. now destruct (j =? r_omit r).
Qed.

Theorem read_histogram_any s pos av : 0 <= pos -> 0 <= av <= 56 ->
  exists o pos' av', run_bits s pos av read_histogram = Some (Some o, (pos', av')) /\ pos <= pos' /\ 0 <= av' <= 56 /\
    forall counts, o = Some counts -> 1 <= zlen counts <= 258 /\ Forall (fun c => 0 <= c) counts /\ zsum counts = 4096.
Proof.
  intros Hp Ha. destruct (read_histogram_safe s pos av Hp Ha) as (a & pos' & av' & E & (o & -> & Ho) & Hpos & Hav). exists o, pos', av'. split; [exact E|]. split; [exact Hpos|]. split; [exact Hav|].
  intros counts Ec. destruct (Ho counts Ec) as (A & B & C). auto.
Qed.
