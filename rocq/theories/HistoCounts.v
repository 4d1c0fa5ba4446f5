(* Storing and reading back histograms: the counts themselves. *)
From Verif Require Import Base ListAux Wrap FieldsProofs BitProg BitProgProofs HuffBuild AliasSpec HistoModel HistoSpec HistoProofs.
Ltac Zify.zify_post_hook ::= idtac.

Lemma precision_range l shift : 0 <= l -> 0 <= population_precision l shift <= l.
Proof. intros H. unfold population_precision. destruct (Z.ltb_spec (Z.min l (shift - Z.shiftr (ANS_LOG_TAB_SIZE - l) 1)) 0); lia. Qed.
Lemma precision_zero l : 0 <= l <= 12 -> population_precision l 0 = 0.
Proof. intros H. unfold population_precision, ANS_LOG_TAB_SIZE. pose proof (proj2 (Z.shiftr_nonneg (12 - l) 1) ltac:(lia)). destruct (Z.ltb_spec (Z.min l (0 - Z.shiftr (12 - l) 1)) 0); lia. Qed.

(* what is stored of a count *)
Lemma mantissa_ok c shift : 0 < c -> representable shift c ->
  let l := Z.log2 c in let b := population_precision l shift in
  0 <= Z.shiftr c (l - b) - Z.shiftl 1 b < 2 ^ b /\ c = Z.shiftl 1 l + Z.shiftl (Z.shiftr c (l - b) - Z.shiftl 1 b) (l - b).
Proof.
  intros Hc Hr l b. unfold representable in Hr. fold l in Hr. fold b in Hr. pose proof (Z.log2_nonneg c) as Hl. fold l in Hl. pose proof (precision_range l shift Hl) as Hb. fold b in Hb.
  pose proof (Z.log2_spec c Hc) as (L1 & L2). fold l in L1, L2. rewrite Z.pow_succ_r in L2 by lia.
  rewrite !Z.shiftl_mul_pow2, Z.shiftr_div_pow2, !Z.mul_1_l by lia. assert (E : 2 ^ l = 2 ^ b * 2 ^ (l - b)) by (rewrite <- Z.pow_add_r by lia; f_equal; lia).
  pose proof (Z.pow_pos_nonneg 2 (l - b) ltac:(lia) ltac:(lia)) as P. pose proof (Z.div_mod c (2 ^ (l - b)) ltac:(lia)) as D. rewrite Hr in D.
  set (q := c / 2 ^ (l - b)) in *. clearbody q l b. nia.
Qed.

Section Counts.
  Variables (n omit shift : Z) (counts : list Z).
  Hypothesis Hn : 3 <= n <= 256.
  Hypothesis Hlen : n <= zlen counts.
  Hypothesis Homit : 0 <= omit < n.
  Hypothesis Hcnt : forall i, 0 <= i < n -> 0 <= cnt counts i < 4096.
  Hypothesis Hrep : forall i, 0 <= i < n -> i <> omit -> 0 < cnt counts i -> representable shift (cnt counts i).
  Hypothesis Hshift : 0 <= shift <= 11.
  Variables (same W : Z -> Z).
  Hypothesis Hsame : seg_ok omit counts same n.
  Hypothesis HW : forall i, 0 <= i < n -> i <> omit -> W i = plain_width omit counts i.
  Hypothesis HWo : 10 <= W omit <= 12.
  Variable r : logs.
  Hypothesis HR : logs_ok omit same W n r.

  (* all but the omitted one *)
  Definition kept (j : Z) : Z := if j =? omit then 0 else cnt counts j.
  Definition kept_sum (i : Z) : Z := zsum (map kept (zseq 0 (Z.to_nat i))).
  Lemma kept_sum_next i : 0 <= i -> kept_sum (i + 1) = kept_sum i + kept i.
  Proof. intros H. unfold kept_sum. replace (Z.to_nat (i + 1)) with (S (Z.to_nat i)) by lia. rewrite seq_snoc, map_app, sum_app. replace (0 + Z.of_nat (Z.to_nat i)) with i by lia. unfold zsum. cbn [map fold_right]. lia. Qed.

  Definition read_so_far (i : Z) (c : Z -> Z) (total : Z) : Prop :=
    (forall j, 0 <= j < i -> c j = kept j) /\ (forall j, i <= j -> c j = 0) /\ total = kept_sum i.

  Lemma read_next i c total v : 0 <= i < n -> v = kept i -> read_so_far i c total -> read_so_far (i + 1) (fun j => if j =? i then v else c j) (total + v).
  Proof.
    intros Hi -> (C1 & C2 & C3). split; [|split].
    - intros j Hj. destruct (Z.eqb_spec j i) as [->|]; [reflexivity|]. apply C1. lia.
    - intros j Hj. replace (j =? i) with false by lia. apply C2. lia.
    - rewrite kept_sum_next by lia. lia.
  Qed.
  Lemma read_skip i c total : 0 <= i -> 0 = kept i -> read_so_far i c total -> read_so_far (i + 1) c total.
  Proof.
    intros Hi E (C1 & C2 & C3). split; [|split].
    - intros j Hj. destruct (Z.eq_dec j i) as [->|]; [rewrite <- E; apply C2; lia|]. apply C1. lia.
    - intros j Hj. apply C2. lia.
    - rewrite kept_sum_next by lia. lia.
  Qed.

  (* the rest of a run *)
  Lemma fill_run (rest : nat) v : forall (t : nat) i c total, 0 <= i -> Z.of_nat t + Z.of_nat rest = n - i -> read_so_far i c total ->
    (forall j, i <= j < i + Z.of_nat t -> r_same r j = 0 /\ kept j = v) ->
    exists c' total', read_counts (t + rest) n shift r i v (Z.of_nat t) c total = read_counts rest n shift r (i + Z.of_nat t) v 0 c' total' /\ read_so_far (i + Z.of_nat t) c' total'.
  Proof.
    induction t as [|t IH]; intros i c total Hi Ht Hc Hj.
    - exists c, total. cbn [Nat.add]. change (Z.of_nat 0) with 0. rewrite Z.add_0_r. split; [reflexivity|exact Hc].
    - destruct (Hj i ltac:(lia)) as (E & Ek). cbn [Nat.add read_counts]. rewrite (get_ok n (r_same r) i), (get_ok n (logcounts r) i) by lia. rewrite E. change (negb (0 =? 0)) with false. cbv iota.
      replace (if 0 <? i then get n c (i - 1) else Some 0) with (Some (if 0 <? i then c (i - 1) else 0)) by (destruct (Z.ltb_spec 0 i); [rewrite get_ok by lia|]; reflexivity).
      replace (0 <? Z.of_nat (S t)) with true by lia. cbv zeta. rewrite set_ok by lia. replace (Z.of_nat (S t) - 1) with (Z.of_nat t) by lia.
      destruct (IH (i + 1) (fun j => if j =? i then v else c j) (total + v) ltac:(lia) ltac:(lia)) as (c' & total' & E' & Hc').
      { apply read_next; [lia|auto|exact Hc]. } { intros j Hj'. apply Hj. lia. }
      exists c', total'. rewrite E'. replace (i + 1 + Z.of_nat t) with (i + Z.of_nat (S t)) in * by lia. split; [reflexivity|exact Hc'].
  Qed.

  Lemma kept_run i : 5 <= same i -> forall j, i <= j < i + same i -> kept j = kept i.
  Proof.
    intros H j Hj. destruct (omit_short n omit counts same Hsame i H) as (N & _ & _ & R). unfold kept. replace (i =? omit) with false by lia. destruct (Z.eq_dec j i) as [->|Nj]; [now replace (i =? omit) with false by lia|].
    destruct (R j ltac:(lia)) as (_ & E & Nj'). replace (j =? omit) with false by lia. exact E.
  Qed.

  Lemma mantissas_roundtrip : forall m i, n - i <= Z.of_nat m -> 0 <= i <= n -> vis same i -> forall fw prev c total, n - i <= Z.of_nat fw -> read_so_far i c total ->
    exists fs c' total', (shift = 0 -> fs = []) /\ (shift <> 0 -> write_mantissas fw n omit shift counts same W i = Some fs) /\ Forall field_ok fs /\
      parses (read_counts (Z.to_nat (n - i)) n shift r i prev 0 c total) (fields_bits fs) (Some (c', total')) /\ read_so_far n c' total'.
  Proof.
    induction m as [|m IH]; intros i Hm Hi V fw prev c total Hfw Hc.
    1: assert (i = n) by lia. 2: destruct (Z.eq_dec i n) as [E|Hin].
    1, 2: subst i; exists [], c, total; replace (Z.to_nat (n - n)) with 0%nat by lia; (split; [reflexivity|]); (split; [intros _; destruct fw; cbn [write_mantissas]; now replace (n <? n) with false by lia|]); (split; [constructor|]); (split; [apply parses_ret|exact Hc]).
    destruct fw as [|fw]; [lia|]. cbn [write_mantissas]. replace (i <? n) with true by lia. rewrite !get_ok by (unfold ANS_MAX_ALPHABET_SIZE; lia). rewrite (znth_some counts i 0) by lia. change (nth (Z.to_nat i) counts 0) with (cnt counts i).
    destruct HR as (O1 & O2 & _ & _ & O5 & _). destruct (O5 ltac:(lia)) as (Ro & _).
    assert (RSi : r_same r i = 0). { rewrite O1 by lia. unfold RS. pose proof (vis_prev same i V). now replace (5 <=? same (i - 1)) with false by lia. }
    set (here := if (1 <? W i) && negb (i =? omit) then [(population_precision (W i - 1) shift, Z.shiftr (cnt counts i) (W i - 1 - population_precision (W i - 1) shift) - Z.shiftl 1 (population_precision (W i - 1) shift))] else []).
    set (here' := if shift =? 0 then [] else here).
    (* one position *)
    assert (Step : exists c1 total1, read_so_far (i + 1) c1 total1 /\ Forall field_ok here' /\
              forall e a, parses (read_counts (Z.to_nat (n - (i + 1))) n shift r (i + 1) prev 0 c1 total1) e a -> parses (read_counts (Z.to_nat (n - i)) n shift r i prev 0 c total) (fields_bits here' ++ e) a).
    { replace (Z.to_nat (n - i)) with (S (Z.to_nat (n - (i + 1)))) by lia. cbn [read_counts]. rewrite (get_ok n (r_same r) i), (get_ok n (logcounts r) i) by lia. rewrite RSi. change (negb (0 =? 0)) with false. cbv iota.
      replace (if 0 <? i then get n c (i - 1) else Some 0) with (Some (if 0 <? i then c (i - 1) else 0)) by (destruct (Z.ltb_spec 0 i); [rewrite get_ok by lia|]; reflexivity).
      change (0 <? 0) with false. cbv zeta iota. rewrite (O2 i ltac:(lia) V), Ro. pose proof (Hcnt i ltac:(lia)) as Hci.
      destruct (Z.eqb_spec i omit) as [Eo|No].
      { cbn [orb]. exists c, total. split; [apply read_skip; [lia|unfold kept; now rewrite (proj2 (Z.eqb_eq i omit) Eo)|exact Hc]|]. assert (Eh : here' = []) by (unfold here', here; cbn [negb]; rewrite andb_false_r; now destruct (shift =? 0)). rewrite Eh. split; [constructor|]. intros e a H. exact H. }
      pose proof (HW i ltac:(lia) No) as Ew. unfold plain_width in Ew. replace (i =? omit) with false in Ew by lia. cbn [negb andb] in Ew.
      assert (Ek : kept i = cnt counts i) by (unfold kept; now replace (i =? omit) with false by lia).
      destruct (Z.ltb_spec 0 (cnt counts i)) as [Hp|Hp].
      2:{ replace (W i - 1 <? 0) with true by lia. cbn [orb]. exists c, total. split; [apply read_skip; [lia|lia|exact Hc]|]. assert (Eh : here' = []) by (unfold here', here; replace (1 <? W i) with false by lia; now destruct (shift =? 0)). rewrite Eh. split; [constructor|]. intros e a H. exact H. }
      set (l := Z.log2 (cnt counts i)) in *. pose proof (Z.log2_nonneg (cnt counts i)) as Hl. fold l in Hl. replace (W i - 1) with l by lia. replace (l <? 0) with false by lia. cbn [orb].
      destruct (mantissa_ok (cnt counts i) shift Hp (Hrep i ltac:(lia) No Hp)) as (M1 & M2). fold l in M1, M2. set (b := population_precision l shift) in *. pose proof (precision_range l shift Hl) as Hb. fold b in Hb.
      assert (Hl12 : l < 12) by (apply Z.log2_lt_pow2; [lia|change (2 ^ 12) with 4096; lia]).
      exists (fun j => if j =? i then cnt counts i else c j), (total + cnt counts i). split; [apply read_next; [lia|lia|exact Hc]|].
      unfold here', here. destruct (Z.eqb_spec shift 0) as [S0|S0].
      { split; [constructor|]. intros e a H. cbn [orb app fields_bits flat_map]. rewrite set_ok by lia. assert (Eb : b = 0) by (unfold b; rewrite S0; apply precision_zero; lia). rewrite Eb in M1, M2. replace (Z.shiftl 1 l) with (cnt counts i); [exact H|].
        rewrite M2 at 1. replace (Z.shiftr (cnt counts i) (l - 0) - Z.shiftl 1 0) with 0 by (change (2 ^ 0) with 1 in M1; lia). rewrite Z.shiftl_0_l. lia. }
      cbn [orb]. destruct (Z.eqb_spec l 0) as [L0|L0].
      { replace (1 <? W i) with false by lia. cbn [andb]. split; [constructor|]. intros e a H. cbn [app fields_bits flat_map]. rewrite set_ok by lia. replace (Z.shiftl 1 l) with (cnt counts i); [exact H|]. rewrite L0 in *.
        assert (Eb : b = 0) by lia. rewrite Eb in M1, M2. rewrite M2 at 1. replace (Z.shiftr (cnt counts i) (0 - 0) - Z.shiftl 1 0) with 0 by (change (2 ^ 0) with 1 in M1; lia). rewrite Z.shiftl_0_l. lia. }
      replace (1 <? W i) with true by lia. cbn [negb andb]. replace (W i - 1) with l by lia. fold b.
      split; [constructor; [|constructor]; unfold field_ok; cbn [fst snd]; lia|].
      intros e a H. cbn [fields_bits flat_map fst snd]. rewrite app_nil_r. eapply parses_bind; [apply (parses_rd b); lia|]. cbv beta. rewrite set_ok by lia. rewrite <- M2. exact H. }
    destruct Step as (c1 & total1 & Hc1 & Fh & Step).
    unfold kMinReps. destruct (Z.leb_spec 5 (same i)) as [Lr|Lr].
    - destruct (omit_short n omit counts same Hsame i Lr) as (Nio & _ & Hsi & Hrun). pose proof (kept_run i Lr) as Hkr. pose proof (vis_jump n omit counts same Hsame i Lr) as Vj.
      pose proof (O1 (i + 1) ltac:(lia)) as Er. unfold RS in Er. replace (i + 1 - 1) with i in Er by lia. replace (5 <=? same i) with true in Er by lia.
      assert (O1' : forall j, i + 1 < j < i + same i -> r_same r j = 0). { intros j Hj. rewrite O1 by lia. unfold RS. destruct (Hrun (j - 1) ltac:(lia)) as (-> & _). reflexivity. }
      set (k := same i) in *. clearbody k.
      (* the first of the run *)
      set (c2 := fun j => if j =? i + 1 then kept i else c1 j). assert (Ci : c1 i = kept i) by (destruct Hc1 as (C1 & _); apply C1; lia).
      assert (Hc2 : read_so_far (i + 1 + 1) c2 (total1 + kept i)) by (apply read_next; [lia|symmetry; apply Hkr; lia|exact Hc1]).
      destruct (fill_run (Z.to_nat (n - (i + k))) (kept i) (Z.to_nat (k - 2)) (i + 1 + 1) c2 (total1 + kept i) ltac:(lia) ltac:(lia) Hc2) as (c3 & total3 & E3 & Hc3).
      { intros j Hj. split; [apply O1'; lia|apply Hkr; lia]. }
      replace (i + 1 + 1 + Z.of_nat (Z.to_nat (k - 2))) with (i + k) in * by lia.
      destruct (IH (i + k) ltac:(lia) ltac:(lia) Vj fw (kept i) c3 total3 ltac:(lia) Hc3) as (fs & c' & total' & F0 & F1 & F2 & F3 & F4).
      exists (here' ++ fs), c', total'. split; [intros S0; rewrite (F0 S0); unfold here'; now rewrite S0|]. split.
      { intros S0. replace (i + (k - 1) + 1) with (i + k) by lia. rewrite (F1 S0). unfold here'. now replace (shift =? 0) with false by lia. }
      split; [apply Forall_app; now split|]. split; [|exact F4]. rewrite fields_bits_app. apply Step.
      replace (Z.to_nat (n - (i + 1))) with (S (Z.to_nat (k - 2) + Z.to_nat (n - (i + k))))%nat by lia. cbn [read_counts]. rewrite (get_ok n (r_same r) (i + 1)), (get_ok n (logcounts r) (i + 1)) by lia. rewrite Er. replace (negb (k =? 0)) with true by lia. cbv iota.
      replace (0 <? i + 1) with true by lia. rewrite get_ok by lia. replace (i + 1 - 1) with i by lia. rewrite Ci. cbv zeta. replace (0 <? k - 1) with true by lia. rewrite set_ok by lia. fold c2.
      replace (k - 1 - 1) with (Z.of_nat (Z.to_nat (k - 2))) by lia. rewrite E3. exact F3.
    - destruct (IH (i + 1) ltac:(lia) ltac:(lia) (vis_next same i V Lr) fw prev c1 total1 ltac:(lia) Hc1) as (fs & c' & total' & F0 & F1 & F2 & F3 & F4).
      exists (here' ++ fs), c', total'. split; [intros S0; rewrite (F0 S0); unfold here'; now rewrite S0|]. split.
      { intros S0. rewrite (F1 S0). unfold here'. now replace (shift =? 0) with false by lia. }
      split; [apply Forall_app; now split|]. split; [|exact F4]. rewrite fields_bits_app. apply Step. exact F3.
  Qed.
End Counts.
