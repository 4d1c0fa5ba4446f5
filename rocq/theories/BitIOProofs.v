(* Corollaries used by BitIOProps.v *)
From Verif Require Import Base BitReaderModel BitReaderSpec BitReaderProofs
  BitWriterModel BitWriterSpec BitWriterProofs.

Lemma spec_ops_top_own l b b' own : spec_ops true l b = Some (b', own) -> own = 0.
Proof.
  revert b b' own; induction l as [|o l IH]; intros b b' own; cbn [spec_ops].
  - intros [= <- <-]. reflexivity.
  - destruct (spec_op true o b) as [[b1 k1]|] eqn:E; [|discriminate].
    destruct (spec_ops true l b1) as [[b2 k2]|] eqn:E2; [|discriminate].
    intros [= <- <-]. apply IH in E2. subst k2.
    destruct o as [n v| |m body|s|].
    + cbn [spec_op negb andb] in E. discriminate.
    + cbn [spec_op negb orb] in E. destruct (Z.eqb_spec (pad_bits b) 0) as [Hz|]; [|discriminate].
      injection E as <- <-. lia.
    + rewrite spec_op_with in E. destruct (spec_ops false body b) as [[b3 k3]|]; [|discriminate].
      destruct (_ && _); [|discriminate]. injection E as <- <-. lia.
    + cbn [spec_op] in E. destruct (_ && _); [|discriminate]. injection E as <- <-. lia.
    + cbn [spec_op] in E. injection E as <- <-. lia.
Qed.

Lemma nth_ext_bool (l1 l2 : list bool) :
  length l1 = length l2 -> (forall i, (i < length l1)%nat -> nth i l1 false = nth i l2 false) -> l1 = l2.
Proof. intros. apply nth_ext with false false; auto. Qed.

Lemma take_bytes_spec alloc w b :
  WInv w b -> zlen b mod 8 = 0 ->
  exists bytes, take_bytes alloc w = WOk bytes /\ bytes_bits bytes = b /\ bytes_ok bytes.
Proof.
  intros HI Hm. pose proof (zlen_nonneg b). pose proof HI as HI2. destruct HI. unfold take_bytes.
  destruct (Z.eqb_spec (wpos w mod 8) 0); [|lia]. cbn [negb].
  unfold resize, reserve.
  assert ((wpos w + 7) / 8 <= wcap w) as Hle.
  { destruct (wdata w) eqn:Ed.
    - destruct (wi_null eq_refl). lia.
    - destruct (wi_cap ltac:(congruence)). lia. }
  destruct (Z.leb_spec ((wpos w + 7) / 8) (wcap w)); [|lia]. cbn [bindo wsize wdata].
  eexists. split; [reflexivity|].
  assert (Z.of_nat (length (firstn (Z.to_nat ((wpos w + 7) / 8)) (wdata w))) = (wpos w + 7) / 8) as Hl.
  { rewrite firstn_length. destruct (wdata w) eqn:Ed.
    - destruct (wi_null eq_refl) as (_ & _ & ->). reflexivity.
    - destruct (wi_cap ltac:(congruence)) as [Hz _]. unfold zlen in Hz. lia. }
  split.
  - apply nth_ext_bool.
    + rewrite length_bytes_bits. unfold zlen in *. lia.
    + rewrite length_bytes_bits. intros i Hi.
      pose proof (wi_bits (Z.of_nat i) ltac:(lia)) as Hb. unfold sbit, bnth in Hb.
      rewrite Nat2Z.id in Hb. rewrite <- Hb. rewrite !nth_bytes_bits. f_equal.
      rewrite <- (firstn_skipn (Z.to_nat ((wpos w + 7) / 8)) (wdata w)) at 2.
      rewrite app_nth1; [reflexivity|]. lia.
  - unfold bytes_ok in *. rewrite <- (firstn_skipn (Z.to_nat ((wpos w + 7) / 8)) (wdata w)) in wi_ok.
    apply Forall_app in wi_ok. tauto.
Qed.

Lemma writer_safe alloc l b own :
  alloc_ok alloc -> spec_ops true l [] = Some (b, own) ->
  match run_ops alloc writer0 l with
  | WOk w => wpos w = zlen b /\
      (zlen b mod 8 = 0 ->
       exists bytes, take_bytes alloc w = WOk bytes /\ bytes_bits bytes = b /\ bytes_ok bytes)
  | WFail => (exists k n, alloc k n = None) \/ 2 ^ 62 < requests l
  | WBad => False
  end.
Proof.
  intros Ha Hs. pose proof (spec_ops_top_own _ _ _ _ Hs) as ->.
  pose proof (requests_nonneg _ _ _ _ Hs) as Hr.
  pose proof (run_ops_good alloc l
    ltac:(apply Forall_forall; intros; apply op_good_all; auto)
    (requests l) true writer0 [] b 0 0 WInv0) as H.
  specialize (H ltac:(auto) ltac:(discriminate) Hs).
  specialize (H ltac:(lia) ltac:(cbn; lia) ltac:(cbn [writer0 wsize]; lia) ltac:(cbn [writer0 wcap]; lia)).
  destruct (run_ops alloc writer0 l) as [w| |]; cbn [runs_ok] in H; auto.
  destruct H as (HI & _). split; [destruct HI; auto|]. intros Hm. now apply take_bytes_spec.
Qed.

Lemma zlen_fields_bits fs : Forall field_ok fs -> zlen (fields_bits fs) = width_sum fs.
Proof.
  induction 1 as [|f fs Hf _ IH]; [reflexivity|]. unfold fields_bits in *. cbn [flat_map width_sum fold_right].
  rewrite zlen_app, zlen_to_bits, IH. destruct Hf. unfold width_sum. lia.
Qed.

Lemma spec_ops_fields fs b : Forall field_ok fs ->
  spec_ops false (map (fun f => PWrite (fst f) (snd f)) fs) b = Some (b ++ fields_bits fs, width_sum fs).
Proof.
  intros Hf; revert b; induction Hf as [|f fs Hf _ IH]; intros b; cbn [map spec_ops spec_op].
  - cbn. now rewrite app_nil_r.
  - destruct Hf. replace (negb false && (0 <=? fst f) && (fst f <=? 56) && (0 <=? snd f) && (snd f <? 2 ^ fst f)) with true by lia.
    rewrite IH. unfold fields_bits. cbn [flat_map]. now rewrite <- app_assoc.
Qed.

Lemma spec_ops_app top l1 l2 b :
  spec_ops top (l1 ++ l2) b =
  match spec_ops top l1 b with
  | None => None
  | Some (b1, k1) => match spec_ops top l2 b1 with None => None | Some (b2, k2) => Some (b2, k1 + k2) end
  end.
Proof.
  revert b; induction l1 as [|o l1 IH]; intros b; cbn [app spec_ops].
  - destruct (spec_ops top l2 b) as [[b2 k2]|]; auto.
  - destruct (spec_op top o b) as [[b1 k1]|]; auto. rewrite IH.
    destruct (spec_ops top l1 b1) as [[b2 k2]|]; auto.
    destruct (spec_ops top l2 b2) as [[b3 k3]|]; auto. do 2 f_equal. lia.
Qed.

(* reading fields back from any byte string whose bits start with them *)
Lemma spec_run_fields bs fs pre post a :
  Forall field_ok fs -> bytes_bits bs = pre ++ fields_bits fs ++ post ->
  exists a', spec_run bs (mkCursor (zlen pre) a) (map (fun f => ORead (fst f)) fs) =
    Some (map (fun f => RVal (snd f)) fs, mkCursor (zlen pre + width_sum fs) a').
Proof.
  intros Hf; revert pre a; induction Hf as [|f fs Hf Hfs IH]; intros pre a Hb; cbn [map spec_run].
  - exists a. unfold width_sum. cbn. now rewrite Z.add_0_r.
  - cbn [spec_step cpos]. destruct Hf as [Hn Hv].
    replace ((0 <=? fst f) && (fst f <=? 56)) with true by lia.
    unfold fields_bits in Hb. cbn [flat_map] in Hb. fold (fields_bits fs) in Hb.
    specialize (IH (pre ++ to_bits (Z.to_nat (fst f)) (snd f)) (56 - fst f)).
    rewrite <- !app_assoc in IH. specialize (IH ltac:(rewrite Hb; rewrite <- !app_assoc; reflexivity)).
    destruct IH as (a' & IH). rewrite zlen_app, zlen_to_bits, Z2Nat.id in IH by lia.
    rewrite IH. exists a'. unfold width_sum. cbn [fold_right]. rewrite Z.add_assoc. do 2 f_equal.
    f_equal. f_equal. unfold stream_value. rewrite Hb.
    replace (Z.to_nat (zlen pre)) with (length pre) by (unfold zlen; lia).
    rewrite <- app_assoc.
    pose proof (window_app_exact pre (to_bits (Z.to_nat (fst f)) (snd f)) (fields_bits fs ++ post)) as Hw.
    rewrite length_to_bits in Hw. rewrite Hw. apply of_bits_to_bits. rewrite Z2Nat.id by lia. lia.
Qed.

Lemma write_read_roundtrip alloc fs max :
  alloc_ok alloc -> alloc_never_fails alloc -> Forall field_ok fs ->
  width_sum fs + 7 <= max -> max <= 2 ^ 62 ->
  exists w bytes r0 r,
    run_ops alloc writer0 [PWith max (map (fun f => PWrite (fst f) (snd f)) fs ++ [PPad])] = WOk w /\
    take_bytes alloc w = WOk bytes /\
    zlen bytes = (width_sum fs + 7) / 8 /\
    reader_init bytes = Some r0 /\
    rrun bytes r0 (map (fun f => ORead (fst f)) fs) = Some (map (fun f => RVal (snd f)) fs, r) /\
    total_bits_consumed r = width_sum fs /\
    all_reads_within_bounds bytes r = true /\ close bytes r 0 = true.
Proof.
  intros Ha Hnf Hf Hmax Hmax2.
  assert (0 <= width_sum fs) as Hws by (rewrite <- zlen_fields_bits by auto; apply zlen_nonneg).
  set (b := fields_bits fs ++ repeat false (Z.to_nat (pad_bits (fields_bits fs)))).
  assert (zlen (fields_bits fs) = width_sum fs) as Hzl by (apply zlen_fields_bits; auto).
  assert (0 <= pad_bits (fields_bits fs) < 8) as Hpad by (unfold pad_bits; lia).
  assert (zlen b = width_sum fs + pad_bits (fields_bits fs)) as Hb.
  { unfold b. rewrite zlen_app, Hzl. unfold zlen. rewrite repeat_length. lia. }
  assert (zlen b mod 8 = 0) as Hbm by (rewrite Hb; unfold pad_bits; rewrite Hzl; lia).
  pose proof (writer_safe alloc [PWith max (map (fun f => PWrite (fst f) (snd f)) fs ++ [PPad])] b 0 Ha) as Hw.
  assert (spec_ops true [PWith max (map (fun f => PWrite (fst f) (snd f)) fs ++ [PPad])] [] = Some (b, 0)) as Hs.
  { cbn [spec_ops]. rewrite spec_op_with. rewrite spec_ops_app, spec_ops_fields by auto.
    cbn [spec_ops spec_op negb orb app]. fold b.
    replace (width_sum fs + (pad_bits (fields_bits fs) + 0) <=? max) with true by lia.
    replace (0 <? max) with true by lia. reflexivity. }
  specialize (Hw Hs).
  assert (requests [PWith max (map (fun f => PWrite (fst f) (snd f)) fs ++ [PPad])] = (max + 7) / 8) as Hrq.
  { unfold requests. cbn [fold_right request].
    assert (forall l, fold_right (fun o' s => request o' + s) 0 (map (fun f : Z * Z => PWrite (fst f) (snd f)) l ++ [PPad]) = 0) as ->; [|lia].
    induction l as [|x l IH]; cbn [map app fold_right request]; lia. }
  destruct (run_ops alloc writer0 _) as [w| |] eqn:Hrun; [| |contradiction].
  2:{ exfalso. destruct Hw as [[k [n Hk]]|Hbig]; [exact (Hnf k n Hk)|]. rewrite Hrq in Hbig. lia. }
  destruct Hw as [Hpos Htake]. destruct (Htake Hbm) as (bytes & Htb & Hbits & Hbok).
  destruct (spec_run_fields bytes fs [] (repeat false (Z.to_nat (pad_bits (fields_bits fs)))) 56 Hf) as (a' & Hsr).
  { rewrite Hbits. reflexivity. }
  cbn [app] in Hsr. change (zlen (@nil bool)) with 0 in Hsr. rewrite Z.add_0_l in Hsr.
  destruct (reader_refines bytes _ _ _ Hbok Hsr) as (r0 & r & Hr0 & Hr & Htot & Hwb & Hcl).
  cbn [cpos] in *.
  assert (8 * zlen bytes = zlen b) as H8.
  { rewrite <- Hbits. unfold zlen. rewrite length_bytes_bits. lia. }
  assert ((width_sum fs <=? 8 * zlen bytes) = true) as Hle by lia.
  rewrite Hle in Hwb, Hcl.
  exists w, bytes, r0, r. split; [reflexivity|]. split; [exact Htb|]. split; [lia|].
  split; [exact Hr0|]. split; [exact Hr|]. split; [apply Htot; lia|]. auto.
Qed.

(* MarkUnhealthy is sticky: whatever is done afterwards, the reader stays out of bounds. *)
Record Sick (bs : list Z) (r : reader) : Prop := {
  sk_bits : 0 <= rbits r < 64;
  sk_next : rnext r = zlen bs;
  sk_over : rbits r < 8 * rover r }.

Lemma sick_refill bs r : Sick bs r -> exists r', refill bs r = Some r' /\ Sick bs r' /\
   rbits r <= rbits r' /\ 56 <= rbits r' /\ total_bits_consumed r' = total_bits_consumed r.
Proof.
  intros []. unfold refill. destruct (Z.ltb_spec (zlen bs - 8) (rnext r)); [|lia].
  unfold bounds_checked_refill.
  assert (forall f, refill_bytes f bs r = Some r) as ->.
  { intros f. destruct f as [|f]; cbn [refill_bytes];
    (destruct (rbits r <? 64 - 8); auto; destruct (Z.leb_spec (zlen bs) (rnext r)); [auto|lia]). }
  eexists. split; [reflexivity|]. unfold total_bits_consumed. cbn [rnext rover rbits].
  split; [constructor; cbn [rnext rover rbits]; lia|lia].
Qed.

Lemma sick_consume bs r n r' : Sick bs r -> 0 <= n -> consume r n = Some r' -> Sick bs r'.
Proof.
  intros [] Hn. unfold consume. destruct (Z.leb_spec n (rbits r)); [|discriminate].
  intros [= <-]. constructor; cbn [rnext rover rbits]; lia.
Qed.

Definition rop_nonneg (o : rop) : Prop :=
  match o with OPeek n | OConsume n | ORead n | OSkip n => 0 <= n | _ => True end.

Lemma sick_step bs r o out r' :
  Sick bs r -> rop_nonneg o -> rstep bs r o = Some (out, r') -> Sick bs r'.
Proof.
  intros HS Ho. destruct (sick_refill bs r HS) as (r1 & Hr1 & HS1 & Hb1 & _).
  assert (forall n v rr, 0 <= n -> read_bits bs r n = Some (v, rr) -> Sick bs rr) as Hread.
  { intros n v rr Hn. unfold read_bits. rewrite Hr1. destruct (peek_bits r1 n); [|discriminate].
    destruct (consume r1 n) as [r2|] eqn:Hc; [|discriminate]. intros [= <- <-].
    eapply sick_consume; eauto. }
  destruct o as [|n|n|n|n| |]; cbn [rstep rop_nonneg] in *.
  - rewrite Hr1. intros [= <- <-]. auto.
  - destruct (peek_bits r n); [|discriminate]. intros [= <- <-]. auto.
  - destruct (consume r n) as [r2|] eqn:Hc; [|discriminate]. intros [= <- <-].
    eapply sick_consume; [exact HS|exact Ho|exact Hc].
  - destruct (read_bits bs r n) as [[v rr]|] eqn:Hrd; [|discriminate]. intros [= <- <-]. eauto.
  - destruct (skip_bits bs r n) as [rr|] eqn:Hsk; [|discriminate]. intros [= <- <-].
    unfold skip_bits in Hsk. destruct (Z.leb_spec n (rbits r)); [eapply sick_consume; [exact HS|exact Ho|exact Hsk]|].
    assert (forall k, zlen bs <= k + 0 -> k = zlen bs -> Sick bs (mkReader 0 0 k (rover r))) as Hm.
    { intros k _ ->. destruct HS. constructor; cbn [rnext rover rbits]; lia. }
    destruct HS as [h1 h2 h3].
    destruct (Z.ltb_spec (zlen bs - rnext r) ((n - rbits r) / 8)).
    + destruct (sick_refill bs _ (Hm (zlen bs) ltac:(lia) eq_refl)) as (r2 & Hr2 & HS2 & _).
      rewrite Hr2 in Hsk. eapply sick_consume; [exact HS2| |exact Hsk]. lia.
    + destruct (sick_refill bs _ (Hm (rnext r + (n - rbits r) / 8) ltac:(lia) ltac:(lia))) as (r2 & Hr2 & HS2 & _).
      rewrite Hr2 in Hsk. eapply sick_consume; [exact HS2| |exact Hsk]. lia.
  - unfold jump_to_byte_boundary. destruct (Z.eqb_spec (total_bits_consumed r mod 8) 0).
    + intros [= <- <-]. auto.
    + destruct (read_bits bs r (8 - total_bits_consumed r mod 8)) as [[v rr]|] eqn:Hrd; [|discriminate].
      intros [= <- <-]. eapply Hread; [|eauto]. lia.
  - intros [= <- <-]. auto.
Qed.

Lemma sick_run bs ops r outs r' :
  Sick bs r -> Forall rop_nonneg ops -> rrun bs r ops = Some (outs, r') -> Sick bs r'.
Proof.
  revert r outs r'; induction ops as [|o ops IH]; intros r outs r' HS Hf; cbn [rrun].
  - intros [= <- <-]. auto.
  - inversion Hf; subst. destruct (rstep bs r o) as [[out r1]|] eqn:E; [|discriminate].
    destruct (rrun bs r1 ops) as [[outs1 r2]|] eqn:E2; [|discriminate].
    intros [= <- <-]. apply (IH r1 outs1 r2); auto. eapply sick_step; [exact HS| |exact E]; auto.
Qed.

Lemma mark_unhealthy_sticky bs ops0 outs0 c r0 r1 ops outs r :
  bytes_ok bs -> spec_run bs (mkCursor 0 56) ops0 = Some (outs0, c) ->
  reader_init bs = Some r0 -> rrun bs r0 ops0 = Some (outs0, r1) ->
  Forall rop_nonneg ops -> rrun bs (mark_unhealthy bs r1) ops = Some (outs, r) ->
  all_reads_within_bounds bs r = false /\ close bs r 0 = false.
Proof.
  intros Hok Hs Hr0 Hr1 Hf Hr.
  destruct (reader_init_inv bs Hok) as (r0' & Hr0' & HI0). rewrite Hr0 in Hr0'. injection Hr0' as <-.
  destruct (rrun_inv bs ops0 r0 _ outs0 c Hok HI0 Hs) as (r1' & Hr1' & HI).
  rewrite Hr1 in Hr1'. injection Hr1' as <-.
  assert (Sick bs (mark_unhealthy bs r1)) as HS.
  { destruct HI. constructor; cbn [mark_unhealthy rnext rover rbits]; lia. }
  pose proof (sick_run bs ops _ _ _ HS Hf Hr) as [].
  unfold all_reads_within_bounds, close, total_bits_consumed. pose proof (zlen_nonneg bs). lia.
Qed.
