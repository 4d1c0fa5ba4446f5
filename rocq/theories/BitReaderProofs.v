(* Proofs about the bit reader: it refines the cursor of BitReaderSpec. *)
From Verif Require Import Base BitReaderModel BitReaderSpec.

Lemma load_le_spec bs n p :
  bytes_ok bs -> 0 <= p -> p + Z.of_nat n <= zlen bs ->
  exists w, load_le n bs p = Some w /\ 0 <= w < 2 ^ (8 * Z.of_nat n) /\
    forall j, 0 <= j < 8 * Z.of_nat n -> Z.testbit w j = sbit bs (8 * p + j).
Proof.
  intros Hok. revert p; induction n as [|n IH]; intros p Hp Hn.
  - exists 0. cbn. repeat split; lia.
  - destruct (IH (p + 1)) as (r & Hr & Hrr & Hrb); [lia|lia|].
    cbn [load_le]. rewrite Hr, (znth_some bs p 0) by lia.
    set (b := nth (Z.to_nat p) bs 0). assert (is_u8 b) as Hb by now apply bytes_ok_nth.
    unfold is_u8 in Hb. change (2 ^ 8) with 256 in Hb.
    exists (b + 256 * r). split; [reflexivity|].
    replace (8 * Z.of_nat (S n)) with (8 * Z.of_nat n + 8) by lia.
    rewrite Z.pow_add_r by lia. change (2 ^ 8) with 256. split; [nia|].
    intros j Hj.
    replace (b + 256 * r) with (Z.lor b (Z.shiftl r 8)).
    + rewrite Z.lor_spec, Z.shiftl_spec by lia.
      destruct (Z.ltb_spec j 8) as [Hj8|Hj8].
      * rewrite (Z.testbit_neg_r r) by lia. rewrite orb_false_r.
        unfold b. rewrite <- sbit_byte by lia. reflexivity.
      * rewrite (testbit_small b 8) by (cbn; lia). rewrite Hrb by lia.
        cbn [orb]. f_equal. lia.
    + rewrite lor_shiftl_add by (cbn; lia). change (2 ^ 8) with 256. reflexivity.
Qed.

(* The refinement relation. *)
Record RInv (bs : list Z) (r : reader) (c : cursor) : Prop := {
  ri_bits : 0 <= rbits r < 64;
  ri_next : 0 <= rnext r <= zlen bs;
  ri_over : 0 <= rover r;
  ri_over_end : 0 < rover r -> rnext r = zlen bs;
  ri_pos : 0 <= total_bits_consumed r;
  ri_buf : 0 <= rbuf r;
  ri_valid : forall i, 0 <= i < rbits r ->
     Z.testbit (rbuf r) i = sbit bs (total_bits_consumed r + i);
  ri_junk : forall i, rbits r <= i -> Z.testbit (rbuf r) i = true ->
     sbit bs (total_bits_consumed r + i) = true;
  ri_cpos : total_bits_consumed r = cpos c \/
     (8 * zlen bs < total_bits_consumed r /\ 8 * zlen bs < cpos c);
  ri_mod : (total_bits_consumed r - cpos c) mod 8 = 0;
  ri_avail : 0 <= cavail c <= rbits r /\ cavail c <= 56
}.

Lemma RInv_avail bs r p a a' :
  RInv bs r (mkCursor p a) -> 0 <= a' <= rbits r -> a' <= 56 -> RInv bs r (mkCursor p a').
Proof. intros [] H1 H2. constructor; auto. Qed.

Lemma w64_shiftl_bit w b i :
  0 <= b -> 0 <= i < 64 -> Z.testbit (w64 (Z.shiftl w b)) i = Z.testbit w (i - b).
Proof.
  intros Hb Hi. unfold w64. rewrite Z.mod_pow2_bits_low by lia.
  now rewrite Z.shiftl_spec by lia.
Qed.

Lemma w64_shiftl_bit_high w b i : 64 <= i -> Z.testbit (w64 (Z.shiftl w b)) i = false.
Proof.
  intros Hi. unfold w64. apply Z.mod_pow2_bits_high. lia.
Qed.

Lemma lor_56 b : 0 <= b < 64 -> Z.lor b 56 = b + 8 * Z.shiftr (63 - b) 3 /\ 56 <= Z.lor b 56 < 64.
Proof.
  intros H.
  assert (forallb (fun b => (Z.lor b 56 =? b + 8 * Z.shiftr (63 - b) 3) && (56 <=? Z.lor b 56)
       && (Z.lor b 56 <? 64)) (map Z.of_nat (seq 0 64)) = true) as Hall by (vm_compute; reflexivity).
  rewrite forallb_forall in Hall. specialize (Hall b).
  assert (In b (map Z.of_nat (seq 0 64))) as Hin.
  { apply in_map_iff. exists (Z.to_nat b). split; [lia|]. apply in_seq. lia. }
  specialize (Hall Hin). lia.
Qed.

Lemma refill_bytes_inv fuel bs r c :
  bytes_ok bs -> RInv bs r c -> 56 <= rbits r + 8 * Z.of_nat fuel ->
  exists r', refill_bytes fuel bs r = Some r' /\ RInv bs r' c /\
     total_bits_consumed r' = total_bits_consumed r /\ rbits r <= rbits r' /\
     (56 <= rbits r' \/ rnext r' = zlen bs).
Proof.
  intros Hok. revert r; induction fuel as [|fuel IH]; intros r HI Hf.
  - exists r. cbn [refill_bytes]. destruct (Z.ltb_spec (rbits r) (64 - 8)); [lia|].
    split; [reflexivity|]. split; [exact HI|]. lia.
  - cbn [refill_bytes]. destruct (Z.ltb_spec (rbits r) (64 - 8)) as [Hlt|Hge].
    2:{ exists r. split; [reflexivity|]. split; [exact HI|]. lia. }
    destruct (Z.leb_spec (zlen bs) (rnext r)) as [Hend|Hmore].
    { exists r. split; [reflexivity|]. split; [exact HI|]. destruct HI. lia. }
    destruct HI.
    rewrite (znth_some bs (rnext r) 0) by lia.
    set (b := nth (Z.to_nat (rnext r)) bs 0).
    assert (0 <= b < 2 ^ 8) as Hb by (apply (bytes_ok_nth bs (Z.to_nat (rnext r)) Hok)).
    assert (rover r = 0) as Hov by (destruct (Z.eq_dec (rover r) 0); auto; lia).
    match goal with |- context [refill_bytes fuel bs ?rr] => set (r1 := rr) end.
    assert (total_bits_consumed r1 = total_bits_consumed r) as Hq
      by (unfold total_bits_consumed, r1; cbn [rnext rover rbits]; lia).
    destruct (IH r1) as (r' & Hr' & HI' & Hq' & Hb' & Hd').
    + constructor; rewrite ?Hq; cbn [r1 rbits rnext rover rbuf]; auto; try lia.
      * apply Z.lor_nonneg. split; auto. unfold w64. lia.
      * intros i Hi. rewrite Z.lor_spec, w64_shiftl_bit by lia.
        destruct (Z.ltb_spec i (rbits r)) as [Hi1|Hi1].
        -- rewrite ri_valid0 by lia. rewrite (Z.testbit_neg_r b) by lia. apply orb_false_r.
        -- assert (sbit bs (total_bits_consumed r + i) = Z.testbit b (i - rbits r)) as Hs.
           { unfold b. rewrite <- sbit_byte by lia. f_equal.
             unfold total_bits_consumed. lia. }
           rewrite Hs. destruct (Z.testbit (rbuf r) i) eqn:Hj; [|reflexivity].
           apply ri_junk0 in Hj; [|lia]. rewrite <- Hs, Hj. reflexivity.
      * intros i Hi. rewrite Z.lor_spec, orb_true_iff. intros [Hj|Hj].
        -- apply ri_junk0; auto; lia.
        -- destruct (Z.ltb_spec i 64) as [Hi64|Hi64].
           ++ rewrite w64_shiftl_bit in Hj by lia.
              rewrite (testbit_small b 8) in Hj by lia. discriminate.
           ++ rewrite w64_shiftl_bit_high in Hj by lia. discriminate.
    + subst r1; cbn [rbits]; lia.
    + exists r'. split; [exact Hr'|]. split; [exact HI'|]. subst r1; cbn [rbits] in Hb'; lia.
Qed.

Lemma refill_inv bs r p a :
  bytes_ok bs -> RInv bs r (mkCursor p a) ->
  exists r', refill bs r = Some r' /\ RInv bs r' (mkCursor p 56) /\
     total_bits_consumed r' = total_bits_consumed r.
Proof.
  intros Hok HI. unfold refill.
  destruct (Z.ltb_spec (zlen bs - 8) (rnext r)) as [Hslow|Hfast].
  - unfold bounds_checked_refill.
    destruct (refill_bytes_inv 8 bs r (mkCursor p a)) as (r1 & Hr1 & HI1 & Hq1 & Hb1 & Hd1);
      auto. { destruct HI. lia. }
    rewrite Hr1.
    match goal with |- context [Some ?rr] => set (r2 := rr) end.
    exists r2. split; [reflexivity|].
    assert (total_bits_consumed r2 = total_bits_consumed r1) as Hq2
      by (unfold total_bits_consumed, r2; cbn [rnext rover rbits]; lia).
    split; [|congruence].
    destruct HI1. cbn [cpos cavail] in *.
    constructor; rewrite ?Hq2; cbn [r2 rbits rnext rover rbuf cpos cavail]; auto; try lia.
    + intros i Hi. destruct (Z.ltb_spec i (rbits r1)) as [Hi1|Hi1]; [apply ri_valid0; lia|].
      assert (sbit bs (total_bits_consumed r1 + i) = false) as Hs.
      { apply sbit_end. unfold total_bits_consumed. lia. }
      rewrite Hs. destruct (Z.testbit (rbuf r1) i) eqn:Hj; [|reflexivity].
      apply ri_junk0 in Hj; [congruence|lia].
    + intros i Hi Hj. apply ri_junk0; auto; lia.
  - destruct HI. cbn [cpos cavail] in *.
    destruct (load_le_spec bs 8 (rnext r)) as (w & Hw & Hwr & Hwb); auto; try lia.
    rewrite Hw.
    assert (rover r = 0) as Hov by (destruct (Z.eq_dec (rover r) 0); auto; lia).
    destruct (lor_56 (rbits r)) as [H56 H56b]; [lia|].
    match goal with |- context [Some ?rr] => set (r2 := rr) end.
    exists r2. split; [reflexivity|].
    assert (total_bits_consumed r2 = total_bits_consumed r) as Hq2.
    { unfold total_bits_consumed, r2; cbn [rnext rover rbits]; lia. }
    split; [|exact Hq2].
    assert (forall i, 0 <= i < 64 ->
       Z.testbit (Z.lor (rbuf r) (w64 (Z.shiftl w (rbits r)))) i =
       sbit bs (total_bits_consumed r + i)) as Hall.
    { intros i Hi. rewrite Z.lor_spec, w64_shiftl_bit by lia.
      destruct (Z.ltb_spec i (rbits r)) as [Hi1|Hi1].
      - rewrite ri_valid0 by lia. rewrite (Z.testbit_neg_r w) by lia. apply orb_false_r.
      - assert (sbit bs (total_bits_consumed r + i) = Z.testbit w (i - rbits r)) as Hs.
        { rewrite Hwb by lia. f_equal. unfold total_bits_consumed. lia. }
        rewrite Hs. destruct (Z.testbit (rbuf r) i) eqn:Hj; [|reflexivity].
        apply ri_junk0 in Hj; [|lia]. rewrite <- Hs, Hj. reflexivity. }
    assert (Z.shiftr (63 - rbits r) 3 <= 7 /\ 0 <= Z.shiftr (63 - rbits r) 3) by lia.
    constructor; rewrite ?Hq2; cbn [r2 rbits rnext rover rbuf cpos cavail]; auto; try lia.
    + apply Z.lor_nonneg. split; auto. unfold w64. lia.
    + intros i Hi. apply Hall. lia.
    + intros i Hi. destruct (Z.ltb_spec i 64) as [Hi64|Hi64].
      * rewrite Hall by lia. auto.
      * rewrite Z.lor_spec, w64_shiftl_bit_high, orb_false_r by lia.
        apply ri_junk0. lia.
Qed.

Lemma testbit_stream_value bs p n j :
  0 <= p -> 0 <= n -> 0 <= j ->
  Z.testbit (stream_value bs p n) j = if j <? n then sbit bs (p + j) else false.
Proof.
  intros Hp Hn Hj. unfold stream_value.
  replace j with (Z.of_nat (Z.to_nat j)) at 1 by lia. rewrite testbit_of_bits.
  destruct (Z.ltb_spec j n) as [Hlt|Hge].
  - rewrite nth_window by lia. unfold sbit. f_equal. lia.
  - apply nth_overflow. rewrite length_window. lia.
Qed.

(* Beyond the end the two positions may differ, but both see zeros only. *)
Lemma stream_value_far bs p n : 8 * zlen bs <= p -> 0 <= n -> stream_value bs p n = 0.
Proof.
  intros Hp Hn. pose proof (zlen_nonneg bs). apply Z.bits_inj'. intros j Hj.
  rewrite testbit_stream_value, Z.bits_0 by lia.
  destruct (j <? n); [|reflexivity]. apply sbit_end. lia.
Qed.

Lemma stream_value_R bs r c n :
  RInv bs r c -> 0 <= n -> stream_value bs (total_bits_consumed r) n = stream_value bs (cpos c) n.
Proof.
  intros [] Hn. destruct ri_cpos0 as [->|[H1 H2]]; [reflexivity|].
  rewrite !stream_value_far; auto; lia.
Qed.

Lemma peek_inv bs r p a n :
  RInv bs r (mkCursor p a) -> 0 <= n <= a ->
  peek_bits r n = Some (stream_value bs p n).
Proof.
  intros HI Hn. pose proof (stream_value_R bs r (mkCursor p a) n HI ltac:(lia)) as HR. cbn [cpos] in HR. rewrite <- HR. clear HR.
  destruct HI. cbn [cpos cavail] in *. unfold peek_bits, kMaxBitsPerCall.
  destruct (Z.leb_spec n 56); [|lia]. f_equal.
  apply Z.bits_inj'. intros j Hj.
  replace (2 ^ n - 1) with (Z.ones n) by (rewrite Z.ones_equiv; lia).
  rewrite testbit_stream_value by lia.
  rewrite Z.land_spec. destruct (Z.ltb_spec j n).
  - rewrite Z.ones_spec_low, andb_true_r by lia. apply ri_valid0. lia.
  - rewrite Z.ones_spec_high by lia. apply andb_false_r.
Qed.

Lemma consume_inv bs r p a n :
  RInv bs r (mkCursor p a) -> 0 <= n <= rbits r ->
  exists r', consume r n = Some r' /\ RInv bs r' (mkCursor (p + n) (Z.max 0 (a - n))) /\
     total_bits_consumed r' = total_bits_consumed r + n.
Proof.
  intros [] Hn. cbn [cpos cavail] in *. unfold consume.
  destruct (Z.leb_spec n (rbits r)); [|lia].
  match goal with |- context [Some ?rr] => set (r2 := rr) end.
  exists r2. split; [reflexivity|].
  assert (total_bits_consumed r2 = total_bits_consumed r + n) as Hq2.
  { unfold total_bits_consumed, r2; cbn [rnext rover rbits]; lia. }
  split; [|exact Hq2].
  constructor; rewrite ?Hq2; cbn [r2 rbits rnext rover rbuf cpos cavail]; auto; try lia.
  - now apply Z.shiftr_nonneg.
  - intros i Hi. rewrite Z.shiftr_spec, ri_valid0 by lia. f_equal. lia.
  - intros i Hi. rewrite Z.shiftr_spec by lia. intros Hj. apply ri_junk0 in Hj; [|lia].
    rewrite <- Hj. f_equal. lia.
Qed.

Lemma read_inv bs r p a n :
  bytes_ok bs -> RInv bs r (mkCursor p a) -> 0 <= n <= 56 ->
  exists r', read_bits bs r n = Some (stream_value bs p n, r') /\
     RInv bs r' (mkCursor (p + n) (56 - n)) /\
     total_bits_consumed r' = total_bits_consumed r + n.
Proof.
  intros Hok HI Hn. unfold read_bits.
  destruct (refill_inv bs r p a Hok HI) as (r1 & -> & HI1 & Hq1).
  rewrite (peek_inv bs r1 p 56 n HI1) by lia.
  assert (56 <= rbits r1) by (destruct HI1; cbn [cavail] in *; lia).
  destruct (consume_inv bs r1 p 56 n HI1) as (r2 & -> & HI2 & Hq2); [lia|].
  exists r2. split; [reflexivity|]. split; [|lia].
  replace (56 - n) with (Z.max 0 (56 - n)) by lia. exact HI2.
Qed.

(* an empty buffer positioned at a byte *)
Lemma RInv_empty bs nx ov p :
  0 <= nx <= zlen bs -> 0 <= ov -> (0 < ov -> nx = zlen bs) -> 
  (8 * (nx + ov) = p \/ (8 * zlen bs < 8 * (nx + ov) /\ 8 * zlen bs < p)) ->
  (8 * (nx + ov) - p) mod 8 = 0 ->
  RInv bs (mkReader 0 0 nx ov) (mkCursor p 0).
Proof.
  intros. assert (total_bits_consumed (mkReader 0 0 nx ov) = 8 * (nx + ov)) as Hq
    by (unfold total_bits_consumed; cbn [rnext rover rbits]; lia).
  constructor; rewrite ?Hq; cbn [rbits rnext rover rbuf cpos cavail]; auto; try lia.
  intros i Hi. rewrite Z.testbit_0_l. discriminate.
Qed.

Lemma skip_inv bs r p a n :
  bytes_ok bs -> RInv bs r (mkCursor p a) -> 0 <= n ->
  exists r', skip_bits bs r n = Some r' /\ RInv bs r' (mkCursor (p + n) 0).
Proof.
  intros Hok HI Hn. pose proof (zlen_nonneg bs) as Hlen. unfold skip_bits.
  destruct (Z.leb_spec n (rbits r)) as [Hin|Hout].
  { destruct (consume_inv bs r p a n HI) as (r' & -> & HI' & _); [lia|].
    exists r'. split; [reflexivity|]. eapply RInv_avail; [exact HI'| |lia].
    destruct HI'. lia. }
  destruct HI. cbn [cpos cavail] in *. unfold total_bits_consumed in *.
  destruct (Z.ltb_spec (zlen bs - rnext r) ((n - rbits r) / 8)) as [Hfar|Hnear].
  - (* saturating branch: virtual start one byte past the end *)
    assert (RInv bs (mkReader 0 0 (zlen bs) (rover r))
              (mkCursor (8 * (zlen bs + rover r)) 0)) as HI0.
    { apply RInv_empty; auto; try lia. }
    destruct (refill_inv bs _ _ _ Hok HI0) as (r1 & -> & HI1 & Hq1).
    assert (56 <= rbits r1) by (destruct HI1; cbn [cavail] in *; lia).
    destruct (consume_inv bs r1 _ _ ((n - rbits r) mod 8 + 8) HI1) as (r2 & -> & HI2 & Hq2); [lia|].
    exists r2. split; [reflexivity|].
    assert (total_bits_consumed (mkReader 0 0 (zlen bs) (rover r)) = 8 * (zlen bs + rover r)) as Hq0
      by (unfold total_bits_consumed; cbn [rnext rover rbits]; lia).
    destruct HI2. constructor; cbn [cpos cavail] in *; auto; lia.
  - assert (RInv bs (mkReader 0 0 (rnext r + (n - rbits r) / 8) (rover r))
              (mkCursor (p + rbits r + 8 * ((n - rbits r) / 8)) 0)) as HI0.
    { apply RInv_empty; auto; try lia. }
    destruct (refill_inv bs _ _ _ Hok HI0) as (r1 & -> & HI1 & Hq1).
    assert (56 <= rbits r1) by (destruct HI1; cbn [cavail] in *; lia).
    destruct (consume_inv bs r1 _ _ ((n - rbits r) mod 8) HI1) as (r2 & -> & HI2 & Hq2); [lia|].
    exists r2. split; [reflexivity|].
    replace (p + n) with (p + rbits r + 8 * ((n - rbits r) / 8) + (n - rbits r) mod 8) by lia.
    eapply RInv_avail; [exact HI2| |lia]. destruct HI2. lia.
Qed.

Lemma check_inv bs r c :
  RInv bs r c -> all_reads_within_bounds bs r = (cpos c <=? 8 * zlen bs).
Proof.
  intros []. unfold all_reads_within_bounds. lia.
Qed.

Lemma rstep_inv bs r c o out c' :
  bytes_ok bs -> RInv bs r c -> spec_step bs c o = Some (out, c') ->
  exists r', rstep bs r o = Some (out, r') /\ RInv bs r' c'.
Proof.
  intros Hok HI. destruct c as [p a].
  destruct o as [|n|n|n|n| |]; cbn [spec_step rstep cpos cavail].
  - intros [= <- <-]. destruct (refill_inv bs r p a Hok HI) as (r1 & -> & HI1 & _).
    exists r1. auto.
  - destruct ((0 <=? n) && (n <=? a)) eqn:Hn; [|discriminate].
    intros [= <- <-]. rewrite (peek_inv bs r p a n HI) by lia. exists r. auto.
  - destruct ((0 <=? n) && (n <=? a)) eqn:Hn; [|discriminate].
    intros [= <- <-].
    assert (a <= rbits r) by (destruct HI; cbn [cavail] in *; lia).
    destruct (consume_inv bs r p a n HI) as (r1 & -> & HI1 & _); [lia|].
    exists r1. replace (a - n) with (Z.max 0 (a - n)) by lia. auto.
  - destruct ((0 <=? n) && (n <=? 56)) eqn:Hn; [|discriminate].
    intros [= <- <-].
    destruct (read_inv bs r p a n Hok HI) as (r1 & -> & HI1 & _); [lia|]. exists r1. auto.
  - destruct (Z.leb_spec 0 n); [|discriminate]. intros [= <- <-].
    destruct (skip_inv bs r p a n Hok HI) as (r1 & -> & HI1); [lia|]. exists r1. auto.
  - intros [= <- <-]. unfold jump_to_byte_boundary.
    assert ((- p) mod 8 = (- total_bits_consumed r) mod 8) as Hm
      by (destruct HI; cbn [cpos] in *; lia).
    destruct (Z.eqb_spec (total_bits_consumed r mod 8) 0) as [Hz|Hnz].
    + exists r. replace ((- p) mod 8) with 0 by lia. rewrite Z.add_0_r. split.
      * reflexivity.
      * eapply RInv_avail; [exact HI| |lia]. destruct HI; lia.
    + replace (8 - total_bits_consumed r mod 8) with ((- p) mod 8) by lia.
      destruct (read_inv bs r p a ((- p) mod 8) Hok HI) as (r1 & -> & HI1 & _); [lia|].
      exists r1. split; [reflexivity|]. eapply RInv_avail; [exact HI1| |lia].
      destruct HI1; cbn [cavail] in *; lia.
  - intros [= <- <-]. exists r. rewrite (check_inv bs r (mkCursor p a) HI). auto.
Qed.

Lemma rrun_inv bs ops r c outs c' :
  bytes_ok bs -> RInv bs r c -> spec_run bs c ops = Some (outs, c') ->
  exists r', rrun bs r ops = Some (outs, r') /\ RInv bs r' c'.
Proof.
  intros Hok. revert r c outs c'; induction ops as [|o ops IH]; intros r c outs c' HI; cbn [spec_run rrun].
  - intros [= <- <-]. exists r. auto.
  - destruct (spec_step bs c o) as [[out c1]|] eqn:Ho; [|discriminate].
    destruct (spec_run bs c1 ops) as [[outs1 c2]|] eqn:Hs; [|discriminate].
    intros [= <- <-].
    destruct (rstep_inv bs r c o out c1 Hok HI Ho) as (r1 & -> & HI1).
    destruct (IH r1 c1 outs1 c2 HI1 Hs) as (r2 & -> & HI2). exists r2. auto.
Qed.

Lemma reader_init_inv bs :
  bytes_ok bs -> exists r, reader_init bs = Some r /\ RInv bs r (mkCursor 0 56).
Proof.
  intros Hok. unfold reader_init. pose proof (zlen_nonneg bs).
  assert (RInv bs (mkReader 0 0 0 0) (mkCursor 0 0)) as HI0 by (apply RInv_empty; auto; lia).
  destruct (refill_inv bs _ _ _ Hok HI0) as (r1 & -> & HI1 & _). exists r1. auto.
Qed.

Lemma reader_refines bs ops outs c :
  bytes_ok bs -> spec_run bs (mkCursor 0 56) ops = Some (outs, c) ->
  exists r0 r, reader_init bs = Some r0 /\ rrun bs r0 ops = Some (outs, r) /\
    (cpos c <= 8 * zlen bs -> total_bits_consumed r = cpos c) /\
    all_reads_within_bounds bs r = (cpos c <=? 8 * zlen bs) /\
    close bs r 0 = (cpos c <=? 8 * zlen bs).
Proof.
  intros Hok Hs. destruct (reader_init_inv bs Hok) as (r0 & Hr0 & HI0).
  destruct (rrun_inv bs ops r0 _ outs c Hok HI0 Hs) as (r & Hr & HI).
  exists r0, r. split; [exact Hr0|]. split; [exact Hr|].
  pose proof (check_inv _ _ _ HI) as Hc. destruct HI.
  split; [|split]; auto.
  - lia.
  - unfold close. pose proof (zlen_nonneg bs). lia.
Qed.
