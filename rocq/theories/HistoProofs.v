(* Storing and reading back histograms. *)
From Verif Require Import Base ListAux Wrap FieldsProofs BitProg BitProgProofs HuffBuild AliasSpec HistoModel HistoSpec.
Ltac Zify.zify_post_hook ::= idtac.

Lemma seq_snoc z n : zseq z (S n) = zseq z n ++ [z + Z.of_nat n].
Proof.
  revert z; induction n as [|n IH]; intros z; [cbn; now rewrite Z.add_0_r|].
  change (zseq z (S (S n))) with (z :: zseq (z + 1) (S n)). rewrite IH. cbn [zseq app]. do 2 f_equal. f_equal. lia.
Qed.
Lemma sum_app a b : zsum (a ++ b) = zsum a + zsum b.
Proof. unfold zsum. induction a as [|x a IH]; cbn [app fold_right]; lia. Qed.

Lemma zlen_fields_one n v : 0 <= n -> zlen (fields_bits [(n, v)]) = n.
Proof. intros H. cbn [fields_bits flat_map fst snd]. rewrite app_nil_r, zlen_to_bits. lia. Qed.

(* ---- variable length integers ---- *)

Lemma var_len_ok wide n : 3 <= wide <= 4 -> 0 <= n < 2 ^ (2 ^ wide) -> Forall field_ok (store_var_len wide n) /\ parses (decode_var_len wide) (fields_bits (store_var_len wide n)) n.
Proof.
  intros Hw Hn. unfold store_var_len, decode_var_len. destruct (Z.eqb_spec n 0) as [->|N].
  - split; [repeat constructor; cbn; lia|]. rewrite <- (app_nil_r (fields_bits _)). eapply parses_bind; [apply (parses_rd 1 0); lia|]. cbv beta. change (0 =? 0) with true. cbv iota. apply parses_ret.
  - set (l := Z.log2 n). assert (Hl : 0 <= l) by apply Z.log2_nonneg. pose proof (Z.log2_spec n ltac:(lia)) as (L1 & L2). fold l in L1, L2. rewrite Z.pow_succ_r in L2 by lia.
    assert (Hl2 : l < 2 ^ wide). { apply (Z.pow_lt_mono_r_iff 2); [lia|apply Z.pow_nonneg; lia|lia]. }
    assert (W16 : 2 ^ wide <= 16) by (change 16 with (2 ^ 4); apply Z.pow_le_mono_r; lia).
    rewrite Z.shiftl_mul_pow2, Z.mul_1_l by lia. split.
    { constructor; [split; cbn; lia|]. constructor; [unfold field_ok; cbn [fst snd]; lia|]. constructor; [unfold field_ok; cbn [fst snd]; lia|constructor]. }
    change [(1, 1); (wide, l); (l, n - 2 ^ l)] with ([(1, 1)] ++ [(wide, l)] ++ [(l, n - 2 ^ l)]). rewrite !fields_bits_app.
    assert (F : forall n v, fields_bits [(n, v)] = to_bits (Z.to_nat n) v) by (intros; cbn; apply app_nil_r).
    rewrite !F. eapply parses_bind; [apply (parses_rd 1 1); lia|]. cbv beta. change (1 =? 0) with false. cbv iota.
    eapply parses_bind; [apply (parses_rd wide l); lia|]. cbv beta. destruct (Z.eqb_spec l 0) as [E|E].
    + rewrite E in *. change (2 ^ 0) with 1 in *. replace n with 1 by lia. apply parses_ret.
    + rewrite <- (app_nil_r (to_bits _ _)). eapply parses_bind; [apply (parses_rd l (n - 2 ^ l)); lia|]. cbv beta. rewrite Z.shiftl_mul_pow2, Z.mul_1_l by lia. replace (n - 2 ^ l + 2 ^ l) with n by lia. apply parses_ret.
Qed.

(* a table lookup on peeked bits *)
Lemma peek_parses {A} w (tb : Z -> option (Z * Z)) n s v (K : Z -> rprog A) (bad : rprog A) e a : 0 <= w <= 56 -> 0 <= n <= w -> 0 <= s < 2 ^ n ->
  (forall x, 0 <= x < 2 ^ w -> x mod 2 ^ n = s -> tb x = Some (n, v)) -> parses (K v) e a ->
  parses (Refill (Peek w (fun i => match tb i with None => bad | Some (nbits, c) => Consume nbits (K c) end))) (fields_bits [(n, s)] ++ e) a.
Proof.
  intros Hw Hn Hs Ht HK pre post av Hav. cbn [run_bits]. replace ((0 <=? w) && (w <=? 56)) with true by lia. cbv iota.
  cbn [fields_bits flat_map fst snd]. rewrite app_nil_r.
  set (st := pre ++ (to_bits (Z.to_nat n) s ++ e) ++ post). pose proof (zlen_nonneg pre) as Hp.
  pose proof (bits_at_range st (zlen pre) w ltac:(lia)) as R.
  assert (Ex : bits_at st (zlen pre) w mod 2 ^ n = s).
  { rewrite bits_at_mod by lia. unfold st. rewrite <- app_assoc. apply bits_at_exact; lia. }
  rewrite (Ht _ R Ex). cbn [run_bits]. replace ((0 <=? n) && (n <=? 56)) with true by lia.
  destruct (HK (pre ++ to_bits (Z.to_nat n) s) post (56 - n) ltac:(lia)) as (av' & Hr & Hav').
  exists av'. split; [|exact Hav']. unfold st. rewrite <- !app_assoc in *. rewrite zlen_app, zlen_to_bits, Z2Nat.id in Hr by lia.
  rewrite Hr. rewrite zlen_app, zlen_to_bits, Z2Nat.id by lia. do 3 f_equal. lia.
Qed.

Definition width_check (w : Z) : bool :=
  match width_field w with
  | Some (n, s) => (3 <=? n) && (n <=? 7) && (0 <=? s) && (s <? 2 ^ n) &&
      forallb (fun x => if x mod 2 ^ n =? s then match znth huff128 x with Some (n', v) => (n' =? n) && (v =? w) | None => false end else true) (zseq 0 128)
  | None => false
  end.
Lemma widths_check : forallb width_check (zseq 0 14) = true. Proof. vm_compute. reflexivity. Qed.
Lemma width_ok w : 0 <= w <= 13 -> exists n s, width_field w = Some (n, s) /\ field_ok (n, s) /\
  forall A (K : Z -> rprog A) bad e a, parses (K w) e a ->
  parses (Refill (Peek 7 (fun i => match znth huff128 i with None => bad | Some (nbits, c) => Consume nbits (K c) end))) (fields_bits [(n, s)] ++ e) a.
Proof.
  intros Hw. pose proof (proj1 (forallb_forall _ _) widths_check w ltac:(apply in_zseq; cbn; lia)) as H. unfold width_check in H.
  destruct (width_field w) as [(n & s)|]; [|discriminate]. exists n, s. split; [reflexivity|]. repeat (apply andb_prop in H as (H & ?)). split; [unfold field_ok; cbn [fst snd]; lia|].
  intros A K bad e a HK. apply (peek_parses 7 (fun i => znth huff128 i) n s w); [lia|lia|lia| |exact HK].
  intros x Hx Ex. change (2 ^ 7) with 128 in Hx. rename H0 into T. pose proof (proj1 (forallb_forall _ _) T x ltac:(apply in_zseq; cbn; lia)) as Tx. cbv beta in Tx. rewrite Ex, Z.eqb_refl in Tx.
  destruct (znth huff128 x) as [(n' & v)|]; [|discriminate]. f_equal. f_equal; lia.
Qed.

(* ---- the general form ---- *)

Section General.
  Variables (n omit shift : Z) (counts : list Z).
  Hypothesis Hn : 3 <= n <= 256.
  Hypothesis Hlen : n <= zlen counts.
  Hypothesis Homit : 0 <= omit < n.
  Hypothesis Hpos : 0 < cnt counts omit.
  Hypothesis Hcnt : forall i, 0 <= i < n -> 0 <= cnt counts i < 4096.
  Hypothesis Hbefore : forall i, 0 <= i < omit -> cnt counts i < 2048.
  Hypothesis Hrep : forall i, 0 <= i < n -> i <> omit -> 0 < cnt counts i -> representable shift (cnt counts i).
  Hypothesis Hshift : 0 <= shift <= 11.

  Lemma counts_at i : 0 <= i < n -> znth counts i = Some (cnt counts i).
  Proof. clear -Hlen. intros H. apply znth_some. lia. Qed.

  Definition seg_ok (same : Z -> Z) (bound : Z) : Prop :=
    forall a, 0 <= same a <= 255 /\ (0 < same a -> 0 <= a /\ a + same a <= bound /\ (a = omit -> same a <= 1) /\
      forall j, a < j < a + same a -> same j = 0 /\ cnt counts j = cnt counts a /\ j <> omit).

  Lemma same_loop_ok : forall k i last same, Z.of_nat k = n + 1 - i -> 0 <= last < i -> i <= n + 1 ->
    (forall a, last <= a -> same a = 0) -> seg_ok same last -> (forall j, last < j < i -> cnt counts j = cnt counts last /\ j <> omit /\ j <> omit + 1) -> (i = n + 1 -> last = n) ->
    exists same', same_loop k n omit counts i last same = Some same' /\ seg_ok same' n.
  Proof. clear -Hn Homit Hlen.
    induction k as [|k IH]; intros i last same Hk Hl Hi Hz Hs Hj Hend; cbn [same_loop].
    - exists same. split; [reflexivity|]. now rewrite <- Hend by lia.
    - assert (Stop : exists same', (do same' <- set ANS_MAX_ALPHABET_SIZE same last (w8 (i - last)); same_loop k n omit counts (i + 1) i same') = Some same' /\ seg_ok same' n).
      { rewrite set_ok by (unfold ANS_MAX_ALPHABET_SIZE; lia).
        assert (Hlen8 : i - last <= 255).
        { destruct (Z_le_gt_dec (i - last) 255) as [|G]; [assumption|exfalso]. assert (last = 0 /\ i = 256) as (-> & ->) by lia. destruct (Z.eq_dec omit 0) as [->|]; [destruct (Hj (0 + 1) ltac:(lia)) as (_ & _ & ?); lia|destruct (Hj omit ltac:(lia)) as (_ & ? & _); lia]. }
        replace (w8 (i - last)) with (i - last) by (unfold w8; rewrite Z.mod_small; lia).
        apply IH; [lia|lia|lia| | |intros j Hj'; lia|intros; lia].
        - intros a Ha. destruct (Z.eqb_spec a last); [lia|]. apply Hz. lia.
        - intros a. cbv beta. destruct (Z.eqb_spec a last) as [->|Na].
          + split; [lia|]. intros _. split; [lia|]. split; [lia|]. split.
            * intros ->. destruct (Z_le_gt_dec (i - omit) 1); [assumption|]. destruct (Hj (omit + 1) ltac:(lia)) as (_ & _ & ?). lia.
            * intros j Hj'. replace (j =? last) with false by lia. destruct (Hj j ltac:(lia)) as (C1 & C2 & _). split; [apply Hz; lia|]. split; [exact C1|exact C2].
          + destruct (Hs a) as (B & S'). split; [exact B|]. intros Hp. destruct (S' Hp) as (A1 & A2 & A3 & A4). split; [exact A1|]. split; [lia|]. split; [exact A3|].
            intros j Hj'. destruct (A4 j Hj') as (C1 & C2 & C3). replace (j =? last) with false by lia. split; [exact C1|]. split; assumption. }
      destruct ((i =? n) || (i =? omit) || (i =? omit + 1)) eqn:Q; [exact Stop|].
      rewrite !counts_at by lia. destruct (Z.eqb_spec (cnt counts i) (cnt counts last)) as [E|E]; cbn [negb]; [|exact Stop].
      apply IH; [lia|lia|lia|exact Hz|exact Hs| |intros; lia].
      intros j Hj'. destruct (Z.eq_dec j i) as [->|]; [split; [exact E|lia]|apply Hj; lia].
  Qed.

  Definition plain_width (i : Z) : Z := if negb (i =? omit) && (0 <? cnt counts i) then Z.log2 (cnt counts i) + 1 else 0.
  Lemma plain_width_range i : 0 <= i < n -> 0 <= plain_width i <= 12 /\ (i < omit -> plain_width i <= 11).
  Proof. clear -Hcnt Hbefore.
    intros H. unfold plain_width. destruct (negb (i =? omit) && (0 <? cnt counts i)) eqn:Q; [|lia]. pose proof (Hcnt i H). pose proof (Z.log2_nonneg (cnt counts i)).
    assert (L : Z.log2 (cnt counts i) < 12) by (apply Z.log2_lt_pow2; [lia|change (2 ^ 12) with 4096; lia]). split; [lia|]. intros Hi. pose proof (Hbefore i ltac:(lia)).
    assert (Z.log2 (cnt counts i) < 11) by (apply Z.log2_lt_pow2; [lia|change (2 ^ 11) with 2048; lia]). lia.
  Qed.

  Lemma width_loop_ok : forall k i bw ow, Z.of_nat k = n - i -> 0 <= i -> (forall j, 0 <= j < i -> bw j = plain_width j) -> (forall j, i <= j -> bw j = 0) ->
    10 <= ow <= 12 -> (forall j, 0 <= j < i -> plain_width j + (if j <? omit then 1 else 0) <= ow) ->
    exists bw' ow', width_loop k omit counts i bw ow = Some (bw', ow') /\ (forall j, 0 <= j < n -> bw' j = plain_width j) /\ 10 <= ow' <= 12 /\
      (forall j, 0 <= j < n -> plain_width j + (if j <? omit then 1 else 0) <= ow').
  Proof. clear -Hn Hlen Hcnt Hbefore.
    induction k as [|k IH]; intros i bw ow Hk Hi Hb Hz Ho Hw; cbn [width_loop].
    - exists bw, ow. replace i with n in * by lia. split; [reflexivity|]. split; [exact Hb|]. split; assumption.
    - rewrite counts_at by lia. pose proof (plain_width_range i ltac:(lia)) as (R1 & R2). pose proof (Hcnt i ltac:(lia)) as Hc.
      destruct (negb (i =? omit) && (0 <? cnt counts i)) eqn:Q.
      + assert (E : plain_width i = Z.log2 (cnt counts i) + 1) by (unfold plain_width; now rewrite Q). rewrite <- E. replace (w8 (plain_width i)) with (plain_width i) by (unfold w8; rewrite Z.mod_small; lia).
        rewrite set_ok by (unfold ANS_MAX_ALPHABET_SIZE; lia). apply IH; [lia|lia| | | |].
        * intros j Hj. destruct (Z.eqb_spec j i) as [->|]; [reflexivity|]. apply Hb. lia.
        * intros j Hj. replace (j =? i) with false by lia. apply Hz. lia.
        * destruct (Z.ltb_spec i omit); lia.
        * intros j Hj. destruct (Z.eq_dec j i) as [->|]; [lia|]. specialize (Hw j ltac:(lia)). lia.
      + assert (E : plain_width i = 0) by (unfold plain_width; now rewrite Q). apply IH; [lia|lia| | |exact Ho|].
        * intros j Hj. destruct (Z.eq_dec j i) as [->|]; [|apply Hb; lia]. rewrite E. apply Hz. lia.
        * intros j Hj. apply Hz. lia.
        * intros j Hj. destruct (Z.eq_dec j i) as [->|]; [|apply Hw; lia]. rewrite E. destruct (i <? omit); lia.
  Qed.

  Variables (same W : Z -> Z).
  Hypothesis Hsame : seg_ok same n.
  Hypothesis HW : forall i, 0 <= i < n -> i <> omit -> W i = plain_width i.
  Hypothesis HWo : 10 <= W omit <= 12.
  Hypothesis HWb : forall i, 0 <= i < omit -> W i < W omit.
  Hypothesis HWa : forall i, omit < i < n -> W i <= W omit.

  Lemma W_range i : 0 <= i < n -> 0 <= W i <= 12.
  Proof. clear -Hcnt Hbefore HW HWo. intros H. destruct (Z.eq_dec i omit) as [->|N]; [lia|]. rewrite HW by assumption. apply plain_width_range. exact H. Qed.

  Definition vis (i : Z) : Prop := forall a, a < i < a + same a -> same a < 5.
  Lemma vis_next i : vis i -> same i < 5 -> vis (i + 1).
  Proof. clear. intros V H a Ha. destruct (Z.eq_dec a i) as [->|N]; [exact H|]. apply V. lia. Qed.
  Lemma vis_jump i : 5 <= same i -> vis (i + same i).
  Proof. clear -Hsame.
    intros H a Ha. destruct (Z_lt_ge_dec (same a) 5) as [|G]; [assumption|exfalso]. destruct (Hsame i) as (_ & Si). destruct (Si ltac:(lia)) as (_ & _ & _ & S4). destruct (Hsame a) as (_ & Sa). destruct (Sa ltac:(lia)) as (_ & _ & _ & S4').
    destruct (Z.lt_trichotomy a i) as [L|[->|L]]; [|lia|].
    - destruct (S4' i ltac:(lia)) as (E & _). lia.
    - destruct (S4 a ltac:(lia)) as (E & _). lia.
  Qed.
  Lemma vis_omit : vis omit.
  Proof. clear -Hsame. intros a Ha. destruct (Z_lt_ge_dec (same a) 5) as [|G]; [assumption|exfalso]. destruct (Hsame a) as (_ & Sa). destruct (Sa ltac:(lia)) as (_ & _ & _ & S4). destruct (S4 omit Ha) as (_ & _ & ?). lia. Qed.
  Lemma vis_omit1 : vis (omit + 1).
  Proof. clear -Hsame.
    apply vis_next; [exact vis_omit|]. destruct (Hsame omit) as (B & S'). destruct (Z_lt_ge_dec (same omit) 5) as [|G]; [assumption|]. destruct (S' ltac:(lia)) as (_ & _ & S3 & _). specialize (S3 eq_refl). lia.
  Qed.
  Lemma vis_prev i : vis i -> same (i - 1) < 5.
  Proof. clear. intros V. destruct (Z_lt_ge_dec (same (i - 1)) 5) as [|G]; [assumption|]. apply V. lia. Qed.
  Lemma omit_short i : 5 <= same i -> i <> omit /\ 0 <= i /\ i + same i <= n /\ forall j, i < j < i + same i -> same j = 0 /\ cnt counts j = cnt counts i /\ j <> omit.
  Proof. clear -Hsame. intros H. destruct (Hsame i) as (B & S'). destruct (S' ltac:(lia)) as (S1 & S2 & S3 & S4). split; [intros E; specialize (S3 E); lia|]. split; [exact S1|]. split; [exact S2|exact S4]. Qed.

  (* the reader's same *)
  Definition RS (j : Z) : Z := if 5 <=? same (j - 1) then same (j - 1) else 0.

  Definition logs_ok (i : Z) (r : logs) : Prop :=
    (forall j, 0 <= j < i -> r_same r j = RS j) /\ (forall j, 0 <= j < i -> vis j -> logcounts r j = W j - 1) /\
    (forall j, i <= j -> r_same r j = 0) /\ -1 <= omit_log r /\
    (omit < i -> r_omit r = omit /\ omit_log r = W omit - 1) /\ (i <= omit -> omit_log r < W omit - 1).

  Lemma widths_roundtrip : forall m i, n - i <= Z.of_nat m -> 0 <= i <= n -> vis i -> forall fw fr r, n - i <= Z.of_nat fw -> n - i <= Z.of_nat fr -> logs_ok i r ->
    exists fs r', write_widths fw n same W i = Some fs /\ Forall field_ok fs /\ parses (read_logs fr n i r) (fields_bits fs) (Some r') /\ logs_ok n r'.
  Proof. clear -Hn Homit Hcnt Hbefore Hsame HW HWo HWb HWa.
    induction m as [|m IH]; intros i Hm Hi V fw fr r Hfw Hfr Hok.
    { assert (i = n) by lia. subst i. exists [], r. destruct fw, fr; cbn [write_widths read_logs]; replace (n <? n) with false by lia; (split; [reflexivity|]; split; [constructor|]; split; [apply parses_ret|exact Hok]). }
    destruct (Z.eq_dec i n) as [->|Hin].
    { exists [], r. destruct fw, fr; cbn [write_widths read_logs]; replace (n <? n) with false by lia; (split; [reflexivity|]; split; [constructor|]; split; [apply parses_ret|exact Hok]). }
    destruct fw as [|fw]; [lia|]. destruct fr as [|fr]; [lia|]. cbn [write_widths]. replace (i <? n) with true by lia.
    rewrite !get_ok by (unfold ANS_MAX_ALPHABET_SIZE; lia). pose proof (W_range i ltac:(lia)) as Rw. destruct (width_ok (W i) ltac:(lia)) as (nb & sy & Ef & Fok & Hpeek). rewrite Ef.
    destruct Hok as (O1 & O2 & O3 & O4 & O5 & O6).
    (* the entry of position i *)
    set (lc := fun j => if j =? i then W i - 1 else logcounts r j).
    set (r1 := if omit_log r <? W i - 1 then Logs lc (r_same r) (W i - 1) i else Logs lc (r_same r) (omit_log r) (r_omit r)).
    assert (E1 : logcounts r1 = lc /\ r_same r1 = r_same r) by (unfold r1; destruct (omit_log r <? W i - 1); split; reflexivity). destruct E1 as (E1 & E2).
    assert (Ho1 : -1 <= omit_log r1 /\ (omit <= i -> r_omit r1 = omit /\ omit_log r1 = W omit - 1) /\ (i < omit -> omit_log r1 < W omit - 1)).
    { unfold r1. destruct (Z.ltb_spec (omit_log r) (W i - 1)) as [L|L]; cbn [omit_log r_omit].
      - split; [lia|]. split; [|intros H; specialize (HWb i ltac:(lia)); lia]. intros H. destruct (Z.eq_dec i omit) as [->|N]; [lia|]. destruct (O5 ltac:(lia)) as (_ & E). specialize (HWa i ltac:(lia)). lia.
      - split; [lia|]. split; [|intros H; apply O6; lia]. intros H. destruct (Z.eq_dec i omit) as [->|N]; [specialize (O6 ltac:(lia)); lia|]. apply O5. lia. }
    destruct Ho1 as (P1 & P2 & P3).
    assert (Step : forall e a, parses (read_logs fr n (i + 1) r1) e a -> parses (read_logs (S fr) n i r) (fields_bits [(nb, sy)] ++ e) a).
    { intros e a Hp. cbn [read_logs]. replace (i <? n) with true by lia. apply Hpeek. rewrite set_ok by lia. replace (W i - 1 =? ANS_LOG_TAB_SIZE) with false by (unfold ANS_LOG_TAB_SIZE; lia).
      unfold r1, lc in Hp. destruct (omit_log r <? W i - 1); exact Hp. }
    assert (E1' : forall j, logcounts r1 j = if j =? i then W i - 1 else logcounts r j) by (intros j; rewrite E1; reflexivity).
    clear E1. rename E1' into E1. clearbody r1. clear lc Hpeek HW HWb HWa Hcnt Hbefore.
    unfold kMinReps. destruct (Z.leb_spec 5 (same i)) as [Lr|Lr].
    - (* a run *)
      destruct (omit_short i Lr) as (Nio & _ & Hsi & Hrun). destruct (Hsame i) as (Bi & _). pose proof (vis_jump i Lr) as Vjump. remember (same i) as k eqn:Hk0.
      destruct (width_ok rep ltac:(unfold rep, ANS_LOG_TAB_SIZE; lia)) as (nb2 & sy2 & Ef2 & Fok2 & Hpeek2). rewrite Ef2.
      destruct (var_len_ok 3 (k - 5) ltac:(lia)) as (Fv & Pv). { change (2 ^ 2 ^ 3) with 256. lia. }
      destruct fr as [|fr]; [lia|].
      set (r2 := Logs (fun j => if j =? i + 1 then 12 else logcounts r1 j) (fun j => if j =? i + 1 then k else r_same r1 j) (omit_log r1) (r_omit r1)).
      destruct (IH (i + k) ltac:(lia) ltac:(lia) Vjump fw fr r2 ltac:(lia) ltac:(lia)) as (fs & r' & Ew & Ff & Pf & Hr').
      { unfold r2. split; [|split; [|split; [|split; [|split]]]]; cbn [logcounts r_same omit_log r_omit].
        - intros j Hj. destruct (Z.eqb_spec j (i + 1)) as [->|N].
          + unfold RS. replace (i + 1 - 1) with i by lia. rewrite <- Hk0. replace (5 <=? k) with true by lia. reflexivity.
          + rewrite E2. destruct (Z_lt_ge_dec j i) as [L|G]; [apply O1; lia|]. rewrite O3 by lia. unfold RS. destruct (Z.eq_dec j i) as [->|N2].
            * pose proof (vis_prev i V). replace (5 <=? same (i - 1)) with false by lia. reflexivity.
            * destruct (Hrun (j - 1) ltac:(lia)) as (-> & _). reflexivity.
        - intros j Hj Vj. assert (~ (i < j < i + k)) by (intros C; specialize (Vj i); rewrite <- Hk0 in Vj; specialize (Vj C); lia). replace (j =? i + 1) with false by lia. rewrite E1. destruct (Z.eqb_spec j i) as [->|N]; [reflexivity|]. apply O2; [lia|exact Vj].
        - intros j Hj. replace (j =? i + 1) with false by lia. rewrite E2. apply O3. lia.
        - exact P1.
        - intros H. apply P2. destruct (Z_le_gt_dec omit i) as [|G]; [assumption|exfalso]. destruct (Hrun omit ltac:(lia)) as (_ & _ & ?). lia.
        - intros H. apply P3. lia. }
      replace (i + (k - 1) + 1) with (i + k) by lia. rewrite Ew. eexists _, r'. split; [reflexivity|]. split.
      { constructor; [exact Fok|]. constructor; [exact Fok2|]. apply Forall_app. split; assumption. }
      split; [|exact Hr']. change ((nb, sy) :: (nb2, sy2) :: store_var_len 3 (k - 5) ++ fs) with ([(nb, sy)] ++ [(nb2, sy2)] ++ store_var_len 3 (k - 5) ++ fs). rewrite !fields_bits_app. apply Step.
      cbn [read_logs]. replace (i + 1 <? n) with true by lia. apply Hpeek2. rewrite set_ok by lia. change (rep - 1 =? ANS_LOG_TAB_SIZE) with true. cbv iota.
      eapply parses_bind; [exact Pv|]. cbv beta. rewrite set_ok by lia. replace (i + 1 + (k - 5 + 3) + 1) with (i + k) by lia. replace (k - 5 + 5) with k by lia. exact Pf.
    - destruct (IH (i + 1) ltac:(lia) ltac:(lia) (vis_next i V Lr) fw fr r1 ltac:(lia) ltac:(lia)) as (fs & r' & Ew & Ff & Pf & Hr').
      { split; [|split; [|split; [|split; [|split]]]].
        - intros j Hj. rewrite E2. destruct (Z.eq_dec j i) as [->|N]; [|apply O1; lia]. rewrite O3 by lia. unfold RS. pose proof (vis_prev i V). replace (5 <=? same (i - 1)) with false by lia. reflexivity.
        - intros j Hj Vj. rewrite E1. destruct (Z.eqb_spec j i) as [->|N]; [reflexivity|]. apply O2; [lia|exact Vj].
        - intros j Hj. rewrite E2. apply O3. lia.
        - exact P1.
        - intros H. apply P2. lia.
        - intros H. apply P3. lia. }
      rewrite Ew. eexists _, r'. split; [reflexivity|]. split; [constructor; assumption|]. split; [|exact Hr'].
      change ((nb, sy) :: fs) with ([(nb, sy)] ++ fs). rewrite fields_bits_app. now apply Step.
  Qed.
End General.
