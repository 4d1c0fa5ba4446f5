From Verif Require Import Base BitWriterModel BitWriterSpec.

Lemma store_spec l p src :
  0 <= p -> p + zlen src <= zlen l ->
  exists l', store l p src = Some l' /\ zlen l' = zlen l /\
    (bytes_ok l -> bytes_ok src -> bytes_ok l') /\
    (forall i, 0 <= i -> nth (Z.to_nat i) l' 0 =
       if (p <=? i) && (i <? p + zlen src) then nth (Z.to_nat (i - p)) src 0
       else nth (Z.to_nat i) l 0).
Proof.
  intros Hp Hl. unfold store.
  destruct ((0 <=? p) && (p + zlen src <=? zlen l)) eqn:E; [|lia].
  unfold zlen in *. eexists; split; [reflexivity|].
  assert (length (firstn (Z.to_nat p) l) = Z.to_nat p) as Hf by (rewrite firstn_length; lia).
  split; [|split].
  - rewrite !app_length, skipn_length, Hf. lia.
  - intros H1 H2. unfold bytes_ok in *. rewrite Forall_forall in *. intros x Hx.
    rewrite !in_app_iff in Hx. destruct Hx as [Hx|[Hx|Hx]]; auto.
    + apply H1. rewrite <- (firstn_skipn (Z.to_nat p) l). apply in_app_iff. auto.
    + apply H1. rewrite <- (firstn_skipn (Z.to_nat p + length src) l). apply in_app_iff. auto.
  - intros i Hi.
    destruct ((p <=? i) && (i <? p + Z.of_nat (length src))) eqn:E2.
    + rewrite app_nth2, Hf by lia. rewrite app_nth1 by lia. f_equal. lia.
    + destruct (Z.ltb_spec i p).
      * rewrite app_nth1 by lia.
        rewrite <- (firstn_skipn (Z.to_nat p) l) at 2. rewrite app_nth1 by lia. reflexivity.
      * rewrite app_nth2, Hf by lia. rewrite app_nth2 by lia.
        rewrite <- (firstn_skipn (Z.to_nat p + length src) l) at 2.
        rewrite app_nth2 by (rewrite firstn_length; lia).
        f_equal. rewrite firstn_length. lia.
Qed.

Lemma sbit_nth bs i : 0 <= i -> sbit bs i = Z.testbit (nth (Z.to_nat (i / 8)) bs 0) (i mod 8).
Proof.
  intros Hi. unfold sbit. rewrite nth_bytes_bits.
  replace (Z.to_nat i / 8)%nat with (Z.to_nat (i / 8)) by lia. f_equal. lia.
Qed.

Lemma store_sbit l p src l' :
  0 <= p -> p + zlen src <= zlen l -> store l p src = Some l' ->
  forall i, 0 <= i -> sbit l' i =
    if (8 * p <=? i) && (i <? 8 * (p + zlen src)) then sbit src (i - 8 * p) else sbit l i.
Proof.
  intros Hp Hl Hs i Hi. destruct (store_spec l p src Hp Hl) as (l2 & Hs2 & _ & _ & Hn).
  rewrite Hs in Hs2; injection Hs2 as <-.
  rewrite sbit_nth, Hn by lia.
  destruct ((8 * p <=? i) && (i <? 8 * (p + zlen src))) eqn:E.
  - replace ((p <=? i / 8) && (i / 8 <? p + zlen src)) with true by lia.
    rewrite sbit_nth by lia. replace ((i - 8 * p) / 8) with (i / 8 - p) by lia.
    f_equal. lia.
  - replace ((p <=? i / 8) && (i / 8 <? p + zlen src)) with false by lia.
    now rewrite sbit_nth by lia.
Qed.

Lemma zlen_le_bytes n v : zlen (le_bytes n v) = Z.of_nat n.
Proof. revert v; induction n as [|n IH]; intros v; [reflexivity|].
  unfold zlen in *. cbn [le_bytes length]. rewrite Nat2Z.inj_succ, IH. lia. Qed.

Lemma bytes_ok_le_bytes n v : bytes_ok (le_bytes n v).
Proof.
  revert v; induction n as [|n IH]; intros v; cbn [le_bytes]; constructor; [|apply IH].
  unfold is_u8. change (2 ^ 8) with 256. lia.
Qed.

Lemma sbit_le_bytes n v i : 0 <= i < 8 * Z.of_nat n -> sbit (le_bytes n v) i = Z.testbit v i.
Proof.
  revert v i; induction n as [|n IH]; intros v i Hi; [lia|].
  destruct (Z.ltb_spec i 8).
  - rewrite sbit_nth by lia. replace (i / 8) with 0 by lia. cbn [Z.to_nat le_bytes nth].
    replace (i mod 8) with i by lia.
    change 256 with (2 ^ 8). now rewrite Z.mod_pow2_bits_low by lia.
  - assert (sbit (le_bytes (S n) v) i = sbit (le_bytes n (v / 256)) (i - 8)) as ->.
    { rewrite !sbit_nth by lia. replace (Z.to_nat (i / 8)) with (S (Z.to_nat ((i - 8) / 8))) by lia.
      cbn [le_bytes nth]. f_equal. lia. }
    rewrite IH by lia. change 256 with (2 ^ 8).
    rewrite Z.div_pow2_bits by lia. f_equal. lia.
Qed.

Definition bnth (b : list bool) (i : Z) : bool := nth (Z.to_nat i) b false.

Record WInv (w : writer) (b : list bool) : Prop := {
  wi_pos : wpos w = zlen b;
  wi_ok : bytes_ok (wdata w);
  wi_null : wdata w = [] -> wsize w = 0 /\ wcap w = 0 /\ wpos w = 0;
  wi_cap : wdata w <> [] -> zlen (wdata w) = wcap w + 8 /\ wsize w <= wcap w;
  wi_nn : 0 <= wcap w;
  wi_size : 0 <= wsize w;
  wi_fit : wpos w <= 8 * wsize w;
  wi_bits : forall i, 0 <= i < wpos w -> sbit (wdata w) i = bnth b i;
  wi_zero : forall i, wpos w <= i < 8 * (wpos w / 8) + 8 -> sbit (wdata w) i = false
}.

Lemma WInv0 : WInv writer0 [].
Proof.
  constructor; cbn; try lia; auto; try congruence.
  - constructor.
  - intros i _. unfold sbit. now destruct (Z.to_nat i).
Qed.

(* fields that do not take part in the invariant *)
Lemma WInv_frames w b fr :
  WInv w b -> WInv (mkWriter (wpos w) (wdata w) (wsize w) (wcap w) fr (wallocs w)) b.
Proof. intros []. constructor; cbn; auto. Qed.

Section WP.
Variable alloc : nat -> Z -> option (list Z).
Hypothesis Halloc : alloc_ok alloc.

Definition keeps (w w' : writer) : Prop := wpos w' = wpos w /\ wframes w' = wframes w.

Lemma change_capacity_inv w b c :
  WInv w b -> wsize w <= c -> 
  match change_capacity alloc w c with
  | WOk w' => WInv w' b /\ wsize w' = wsize w /\ wdata w' <> [] /\ wcap w' = Z.max 64 c /\ keeps w w'
  | WFail => (exists n, alloc (wallocs w) n = None) \/ 2 ^ 64 <= c + 8
  | WBad => False
  end.
Proof.
  intros [] Hc. pose proof (zlen_nonneg b) as Hbn. unfold change_capacity.
  destruct (Z.leb_spec (2 ^ 64) (Z.max 64 c + 8)); [right; lia|].
  destruct (alloc (wallocs w) (Z.max 64 c + 8)) as [fresh|] eqn:Ea.
  2:{ left. eauto. }
  destruct (Halloc (wallocs w) (Z.max 64 c + 8) fresh ltac:(lia) Ea) as [Hfl Hfo].
  destruct (wdata w) as [|x xs] eqn:Ed.
  - destruct (wi_null0 eq_refl) as (Hs & Hcp & Hpz).
    destruct (store_spec fresh 0 [0]) as (d & Hd & Hdl & Hdo & _); [lia|unfold zlen at 1; cbn; lia|].
    rewrite Hd. assert (forall i, 0 <= i -> sbit d i = if i <? 8 then false else sbit fresh i) as Hb.
    { intros i Hi. rewrite (store_sbit fresh 0 [0] d) by (auto; try lia; unfold zlen at 1; cbn; lia).
      change (zlen [0]) with 1. replace ((8 * 0 <=? i) && (i <? 8 * (0 + 1))) with (i <? 8) by lia.
      destruct (Z.ltb_spec i 8); [|reflexivity]. rewrite sbit_nth by lia.
      replace ((i - 8 * 0) / 8) with 0 by lia. cbn. apply Z.testbit_0_l. }
    assert (d <> []) as Hne by (intros ->; unfold zlen in Hdl at 1; cbn in Hdl; lia).
    split; [|cbn; unfold keeps; cbn; auto].
    constructor; cbn [wpos wdata wsize wcap]; auto; try lia.
    + apply Hdo; auto. constructor; [unfold is_u8; lia|constructor].
    + congruence.
    + intros i Hi. rewrite Hb by lia. destruct (Z.ltb_spec i 8); auto; lia.
  - destruct (wi_cap0 ltac:(congruence)) as [Hdl Hsz].
    set (old := x :: xs) in *.
    assert (zlen (firstn (Z.to_nat (wsize w)) old) = wsize w) as Hfl2.
    { unfold zlen. rewrite firstn_length. unfold zlen in Hdl. lia. }
    destruct (store_spec fresh 0 (firstn (Z.to_nat (wsize w)) old)) as (d1 & Hd1 & Hd1l & Hd1o & _); [lia|lia|].
    rewrite Hd1.
    destruct (store_spec d1 (wsize w) [0]) as (d & Hd & Hdl2 & Hdo & _); [lia|change (zlen [0]) with 1; lia|].
    rewrite Hd.
    assert (forall i, 0 <= i < 8 * wsize w + 8 ->
       sbit d i = if i <? 8 * wsize w then sbit old i else false) as Hb.
    { intros i Hi. rewrite (store_sbit d1 (wsize w) [0] d) by (auto; try lia; change (zlen [0]) with 1; lia).
      change (zlen [0]) with 1.
      destruct (Z.ltb_spec i (8 * wsize w)) as [Hlt|Hge].
      - replace ((8 * wsize w <=? i) && (i <? 8 * (wsize w + 1))) with false by lia.
        rewrite (store_sbit fresh 0 (firstn (Z.to_nat (wsize w)) old) d1) by (auto; lia).
        replace ((8 * 0 <=? i) && (i <? 8 * (0 + zlen (firstn (Z.to_nat (wsize w)) old)))) with true by lia.
        rewrite !sbit_nth by lia. replace ((i - 8 * 0) / 8) with (i / 8) by lia.
        f_equal; [|lia].
        rewrite <- (firstn_skipn (Z.to_nat (wsize w)) old) at 2.
        rewrite app_nth1; [reflexivity|]. unfold zlen in Hfl2. lia.
      - replace ((8 * wsize w <=? i) && (i <? 8 * (wsize w + 1))) with true by lia.
        rewrite sbit_nth by lia. replace ((i - 8 * wsize w) / 8) with 0 by lia.
        cbn. apply Z.testbit_0_l. }
    assert (d <> []) as Hne by (intros ->; unfold zlen in Hdl2 at 1; cbn in Hdl2; lia).
    assert (bytes_ok (firstn (Z.to_nat (wsize w)) old)) as Hfo2.
    { unfold bytes_ok in *. rewrite <- (firstn_skipn (Z.to_nat (wsize w)) old) in wi_ok0.
      apply Forall_app in wi_ok0. tauto. }
    split; [|cbn; unfold keeps; cbn; auto].
    constructor; cbn [wpos wdata wsize wcap]; auto; try lia.
    + apply Hdo; auto. constructor; [unfold is_u8; lia|constructor].
    + congruence.
    + intros i Hi. rewrite Hb by lia. destruct (Z.ltb_spec i (8 * wsize w)); [auto|lia].
    + intros i Hi. rewrite Hb by lia. destruct (Z.ltb_spec i (8 * wsize w)); auto.
Qed.

(* With an allocator that never fails, only absurd sizes fail. *)
Definition fail_reason (w : writer) (s : Z) : Prop :=
  (exists n, alloc (wallocs w) n = None) \/ 2 ^ 64 <= s + 8 \/ 2 ^ 64 <= wcap w + wcap w / 2 + 8.

Lemma resize_inv w b s :
  WInv w b -> wpos w <= 8 * s ->
  match resize alloc w s with
  | WOk w' => WInv w' b /\ wsize w' = s /\ keeps w w' /\
      (wdata w' = [] -> wdata w = [] /\ s <= 0) /\
      wcap w' <= Z.max (wcap w) (Z.max 64 (Z.max s (wcap w + wcap w / 2))) /\
      (wcap w' = wcap w \/ (wcap w < s))
  | WFail => fail_reason w s
  | WBad => False
  end.
Proof.
  intros HI Hs. pose proof (zlen_nonneg b). unfold resize, reserve.
  destruct (Z.leb_spec s (wcap w)) as [Hle|Hgt].
  - cbn [bindo]. destruct HI. split.
    + constructor; cbn [wpos wdata wsize wcap]; auto; try lia;
        intros Hn; first [destruct (wi_null0 Hn) | destruct (wi_cap0 Hn)]; lia.
    + cbn. unfold keeps; cbn. repeat split; auto; try lia; intros Hn; destruct (wi_null0 Hn); lia.
  - destruct (Z.leb_spec (2 ^ 64) (wcap w + wcap w / 2)) as [Hbig|Hsm].
    { cbn [bindo]. right. right. lia. }
    assert (wsize w <= wcap w) as Hsc.
    { destruct HI. destruct (wdata w) eqn:E; [destruct wi_null0; auto; lia|].
      destruct wi_cap0; [congruence|lia]. }
    assert (0 <= wcap w) by (destruct HI; auto).
    pose proof (change_capacity_inv w b (Z.max s (wcap w + wcap w / 2)) HI) as Hcc.
    destruct (change_capacity alloc w (Z.max s (wcap w + wcap w / 2))) as [w1| |]; cbn [bindo].
    + destruct Hcc as (HI1 & Hs1 & Hne & Hc1 & Hp1 & Hf1); [lia|].
      split.
      * destruct HI1. constructor; cbn [wpos wdata wsize wcap]; auto; try lia; try congruence;
        intros Hn; destruct (wi_cap0 Hn); lia.
      * cbn. unfold keeps; cbn. repeat split; auto; try lia; congruence.
    + unfold fail_reason. destruct Hcc as [Hcc|Hcc]; [lia|auto|]. lia.
    + apply Hcc. lia.
Qed.

Lemma bnth_app1 b c i : 0 <= i < zlen b -> bnth (b ++ c) i = bnth b i.
Proof. intros Hi. unfold bnth. rewrite app_nth1; auto. unfold zlen in Hi. lia. Qed.
Lemma bnth_app2 b c i : zlen b <= i -> bnth (b ++ c) i = bnth c (i - zlen b).
Proof. intros Hi. unfold bnth. pose proof (zlen_nonneg b). rewrite app_nth2; unfold zlen in *; [f_equal; lia|lia]. Qed.

Lemma write_inv w b n v :
  WInv w b -> wdata w <> [] -> 0 <= n <= 56 -> 0 <= v < 2 ^ n -> wpos w + n <= 8 * wsize w ->
  exists w', write w n v = WOk w' /\ WInv w' (b ++ to_bits (Z.to_nat n) v) /\
    wsize w' = wsize w /\ wdata w' <> [] /\ wcap w' = wcap w /\ wpos w' = wpos w + n /\
    wframes w' = wframes w /\ wallocs w' = wallocs w.
Proof.
  intros HI Hne Hn Hv Hfit. destruct HI. destruct (wi_cap0 Hne) as [Hdl Hsz].
  unfold write.
  replace (Z.shiftr v n =? 0) with true
    by (rewrite Z.shiftr_div_pow2 by lia; rewrite Z.div_small by lia; reflexivity).
  cbn [negb]. destruct (Z.ltb_spec 56 n); [lia|].
  pose proof (zlen_nonneg b).
  destruct (Z.ltb_spec (wsize w) (wpos w / 8)); [lia|].
  rewrite (znth_some _ _ 0) by lia.
  set (p := wpos w / 8) in *. set (sh := wpos w mod 8) in *.
  set (byte := nth (Z.to_nat p) (wdata w) 0).
  assert (0 <= byte < 2 ^ 8) as Hbyte by (apply bytes_ok_nth; auto).
  assert (forall j, 0 <= j < 8 -> Z.testbit byte j = sbit (wdata w) (8 * p + j)) as Hbb.
  { intros j Hj. unfold byte. rewrite <- sbit_byte by lia. reflexivity. }
  assert (Z.shiftr byte sh = 0) as Hsh0.
  { apply Z.bits_inj'. intros j Hj. rewrite Z.shiftr_spec, Z.bits_0 by lia.
    destruct (Z.ltb_spec (j + sh) 8).
    - rewrite Hbb by lia. apply wi_zero0. lia.
    - apply testbit_small with 8; lia. }
  rewrite Hsh0. cbn [negb Z.eqb].
  set (val := Z.lor byte (w64 (Z.shiftl v sh))).
  destruct (store_spec (wdata w) p (le_bytes 8 val)) as (d & Hd & Hl & Ho & _).
  { lia. } { rewrite zlen_le_bytes. lia. }
  rewrite Hd. eexists. split; [reflexivity|].
  assert (forall i, 8 * p <= i < 8 * p + 64 -> sbit d i =
            if i <? wpos w then bnth b i else Z.testbit v (i - wpos w)) as Hsb.
  { intros i Hi.
    rewrite (store_sbit (wdata w) p (le_bytes 8 val) d) by (auto; rewrite ?zlen_le_bytes; lia).
    rewrite zlen_le_bytes. replace ((8 * p <=? i) && (i <? 8 * (p + Z.of_nat 8))) with true by lia.
    rewrite sbit_le_bytes by lia. unfold val, w64. rewrite Z.lor_spec.
    rewrite Z.mod_pow2_bits_low, Z.shiftl_spec by lia.
    destruct (Z.ltb_spec i (wpos w)).
    - rewrite Hbb, (Z.testbit_neg_r v) by lia. rewrite orb_false_r.
      replace (8 * p + (i - 8 * p)) with i by lia. apply wi_bits0. lia.
    - replace (i - 8 * p - sh) with (i - wpos w) by lia.
      replace (Z.testbit byte (i - 8 * p)) with false; [reflexivity|].
      symmetry. destruct (Z.ltb_spec (i - 8 * p) 8).
      + rewrite Hbb by lia. apply wi_zero0. lia.
      + apply testbit_small with 8; lia. }
  assert (d <> []) as Hne2 by (intros ->; unfold zlen in Hl at 1; cbn in Hl; lia).
  cbn [wsize wdata wcap wpos wframes wallocs].
  split; [|repeat split; auto].
  constructor; cbn [wpos wdata wsize wcap]; auto; try lia.
  - rewrite zlen_app, zlen_to_bits. lia.
  - apply Ho; auto. apply bytes_ok_le_bytes.
  - congruence.
  - intros i Hi. destruct (Z.ltb_spec i (8 * p)) as [Hlo|Hhi].
    + rewrite (store_sbit (wdata w) p (le_bytes 8 val) d) by (auto; rewrite ?zlen_le_bytes; lia).
      replace ((8 * p <=? i) && (i <? 8 * (p + zlen (le_bytes 8 val)))) with false by lia.
      rewrite bnth_app1 by lia. apply wi_bits0. lia.
    + rewrite Hsb by lia. destruct (Z.ltb_spec i (wpos w)).
      * rewrite bnth_app1 by lia. reflexivity.
      * rewrite bnth_app2 by lia. unfold bnth. rewrite nth_to_bits by lia.
        f_equal. lia.
  - intros i Hi. rewrite Hsb by lia. destruct (Z.ltb_spec i (wpos w)); [lia|].
    apply testbit_small with n; lia.
Qed.

Lemma to_bits_0 n : to_bits n 0 = repeat false n.
Proof. induction n as [|n IH]; [reflexivity|]. cbn [to_bits repeat]. change (Z.div2 0) with 0. now rewrite IH. Qed.

Lemma append_inv w b span :
  WInv w b -> zlen b mod 8 = 0 -> bytes_ok span -> wframes w = [] ->
  match append_byte_aligned alloc w span with
  | WOk w' => WInv w' (b ++ bytes_bits span) /\ wframes w' = [] /\ wpos w' = wpos w + 8 * zlen span /\
      (wdata w <> [] -> wdata w' <> []) /\ 8 * wsize w - wpos w <= 8 * wsize w' - wpos w' /\
      wsize w' <= wsize w + (zlen span + 1) /\
      wcap w' <= Z.max (wcap w) (Z.max 64 (Z.max (wsize w + zlen span + 1) (wcap w + wcap w / 2))) /\
      (wcap w' = wcap w \/ wcap w < wsize w + zlen span + 1)
  | WFail => fail_reason w (wsize w + zlen span + 1)
  | WBad => False
  end.
Proof.
  intros HI Hm Hsp Hfr. unfold append_byte_aligned. pose proof (zlen_nonneg b).
  destruct span as [|x xs] eqn:Esp.
  { cbn. rewrite app_nil_r. split; auto. split; auto. unfold zlen; cbn. destruct HI.
    repeat split; auto; lia. }
  rewrite <- Esp in *. clear Esp x xs.
  pose proof (zlen_nonneg span).
  pose proof (resize_inv w b (wsize w + zlen span + 1) HI) as Hr.
  assert (wpos w <= 8 * wsize w) by (destruct HI; auto).
  destruct (resize alloc w (wsize w + zlen span + 1)) as [w1| |]; cbn [bindo].
  2:{ apply Hr; lia. } 2:{ apply Hr; lia. }
  destruct Hr as (HI1 & Hs1 & (Hp1 & Hf1) & Hnull & Hcb & Hcb2); [lia|].
  destruct HI1 as [Hpos1 Hok1 Hnull1 Hcap1 Hc01 Hsz1 Hfit1 Hbits1 Hzero1].
  assert (wsize w >= 0) by (destruct HI; lia).
  assert (wdata w1 <> []) as Hne. { intros Hn. apply Hnull in Hn. lia. }
  destruct (Hcap1 Hne) as [Hdl Hsc].
  destruct (Z.eqb_spec (wpos w1 mod 8) 0); [|lia]. cbn [negb].
  destruct (store_spec (wdata w1) (wpos w1 / 8) span) as (d & Hd & Hl & Ho & _); [lia|lia|].
  rewrite Hd.
  destruct (Z.ltb_spec (wpos w1 / 8 + zlen span) (wsize w1)); [|lia]. cbn [negb].
  destruct (store_spec d (wpos w1 / 8 + zlen span) [0]) as (d2 & Hd2 & Hl2 & Ho2 & _);
    [lia|change (zlen [0]) with 1; lia|].
  rewrite Hd2. cbn [wpos wframes wdata wsize wcap].
  assert (d2 <> []) as Hne2 by (intros ->; unfold zlen in Hl2 at 1; cbn in Hl2; lia).
  split; [|split; [congruence|split; [lia|split; [auto|lia]]]].
  assert (forall i, 0 <= i < 8 * (wpos w1 / 8 + zlen span) + 8 -> sbit d2 i =
     if i <? wpos w1 then sbit (wdata w1) i else
     if i <? wpos w1 + 8 * zlen span then sbit span (i - wpos w1) else false) as Hsb.
  { intros i Hi.
    rewrite (store_sbit d (wpos w1 / 8 + zlen span) [0] d2)
      by (auto; try lia; change (zlen [0]) with 1; lia).
    change (zlen [0]) with 1.
    destruct ((8 * (wpos w1 / 8 + zlen span) <=? i) && (i <? 8 * (wpos w1 / 8 + zlen span + 1))) eqn:E.
    - destruct (Z.ltb_spec i (wpos w1)); [lia|].
      destruct (Z.ltb_spec i (wpos w1 + 8 * zlen span)); [lia|].
      rewrite sbit_nth by lia.
      replace ((i - 8 * (wpos w1 / 8 + zlen span)) / 8) with 0 by lia. cbn. apply Z.testbit_0_l.
    - rewrite (store_sbit (wdata w1) (wpos w1 / 8) span d) by (auto; lia).
      destruct (Z.ltb_spec i (wpos w1)).
      + replace ((8 * (wpos w1 / 8) <=? i) && (i <? 8 * (wpos w1 / 8 + zlen span))) with false by lia.
        reflexivity.
      + replace ((8 * (wpos w1 / 8) <=? i) && (i <? 8 * (wpos w1 / 8 + zlen span))) with true by lia.
        replace (8 * (wpos w1 / 8)) with (wpos w1) by lia.
        destruct (Z.ltb_spec i (wpos w1 + 8 * zlen span)); [reflexivity|lia]. }
  constructor; cbn [wpos wdata wsize wcap]; auto; try lia.
  - rewrite zlen_app. unfold zlen at 3. rewrite length_bytes_bits. unfold zlen in *. lia.
  - apply Ho2; auto. constructor; [unfold is_u8; lia|constructor].
  - intros ->. unfold zlen in Hl2 at 1; cbn in Hl2. lia.
  - intros i Hi. rewrite Hsb by lia. destruct (Z.ltb_spec i (wpos w1)).
    + rewrite bnth_app1 by lia. apply Hbits1. lia.
    + destruct (Z.ltb_spec i (wpos w1 + 8 * zlen span)); [|lia].
      rewrite bnth_app2 by lia. unfold bnth, sbit. do 2 f_equal. lia.
  - intros i Hi. rewrite Hsb by lia. destruct (Z.ltb_spec i (wpos w1)); [lia|].
    destruct (Z.ltb_spec i (wpos w1 + 8 * zlen span)); [lia|reflexivity].
Qed.

(* Nested induction principle for programs. *)
Lemma wop_ind2 (P : wop -> Prop) :
  (forall n v, P (PWrite n v)) -> P PPad ->
  (forall m body, Forall P body -> P (PWith m body)) ->
  (forall s, P (PAppend s)) -> P PShrink -> forall o, P o.
Proof.
  intros H1 H2 H3 H4 H5. fix IH 1. intros [n v| |m body|s|]; [apply H1|apply H2| |apply H4|apply H5].
  apply H3. induction body as [|o body IHb]; constructor; [apply IH|apply IHb].
Qed.

(* the inner loops of run_op and spec_op are run_ops and spec_ops *)
Lemma run_op_with w m body :
  run_op alloc w (PWith m body) =
  bindo (allot_init alloc w m) (fun w1 =>
  bindo (run_ops alloc w1 body) (fun w2 => allot_reclaim alloc w2 m)).
Proof.
  reflexivity.
Qed.

Lemma spec_op_with top m body b :
  spec_op top (PWith m body) b =
  match spec_ops false body b with
  | None => None
  | Some (b', own) =>
      if (own <=? m) && ((0 <? m) || (match body with [] => true | _ => false end))
      then Some (b', 0) else None
  end.
Proof.
  cbn [spec_op].
  match goal with |- match ?f body b with _ => _ end = _ =>
    assert (forall l b, f l b = spec_ops false l b) as -> end; [|reflexivity].
  induction l as [|o l IH]; intros b0; [reflexivity|].
  cbn [spec_ops]. destruct (spec_op false o b0) as [[b1 k1]|]; auto. now rewrite IH.
Qed.

(* Result of running in a context with [slack] bits of budget left; M bounds the memory. *)
Definition runs_ok (M : Z) (w : writer) (b' : list bool) (own slack req : Z)
    (r : outcome writer) : Prop :=
  match r with
  | WOk w' =>
      WInv w' b' /\ (wdata w <> [] -> wdata w' <> []) /\
      (exists nested, wframes w' = map (fun q => q + nested) (wframes w) /\
         wpos w' = wpos w + own + nested /\ 0 <= nested) /\
      slack - own <= 8 * wsize w' - wpos w' /\
      wsize w' <= wsize w + req /\ wcap w' <= Z.max 64 (2 * M)
  | WFail => (exists k n, alloc k n = None) \/ 2 ^ 62 < M
  | WBad => False
  end.

Lemma spec_op_own top o b b' own : spec_op top o b = Some (b', own) -> 0 <= own.
Proof.
  destruct o as [n v| |m body|s|].
  - cbn [spec_op]. destruct (_ && _) eqn:E; [|discriminate]. intros [= <- <-]. lia.
  - cbn [spec_op]. destruct (_ || _); [|discriminate]. intros [= <- <-]. unfold pad_bits. lia.
  - rewrite spec_op_with. destruct (spec_ops false body b) as [[b1 k1]|]; [|discriminate].
    destruct (_ && _); [|discriminate]. intros [= <- <-]. lia.
  - cbn [spec_op]. destruct (_ && _); [|discriminate]. intros [= <- <-]. lia.
  - cbn [spec_op]. intros [= <- <-]. lia.
Qed.

Lemma spec_ops_own top l b b' own : spec_ops top l b = Some (b', own) -> 0 <= own.
Proof.
  revert b b' own; induction l as [|o l IH]; intros b b' own; cbn [spec_ops].
  - intros [= <- <-]. lia.
  - destruct (spec_op top o b) as [[b1 k1]|] eqn:E; [|discriminate].
    destruct (spec_ops top l b1) as [[b2 k2]|] eqn:E2; [|discriminate].
    intros [= <- <-]. apply spec_op_own in E. apply IH in E2. lia.
Qed.

Lemma spec_op_len top o b b' own : spec_op top o b = Some (b', own) -> 
  top = false -> 0 <= own.
Proof. intros H _. eapply spec_op_own; eauto. Qed.

Lemma requests_nonneg_op o top b r : spec_op top o b = Some r -> 0 <= request o.
Proof.
  revert top b r. induction o as [n v| |m body IH|s|] using wop_ind2; intros top b r H; cbn [request]; try lia.
  - rewrite spec_op_with in H. destruct (spec_ops false body b) as [[b1 k1]|] eqn:E; [|discriminate].
    destruct (_ && _) eqn:E2; [|discriminate].
    assert (0 <= fold_right (fun o' s => request o' + s) 0 body) as Hb.
    { clear E2 H r. revert b b1 k1 E. induction IH as [|o body Ho _ IHb]; intros b b1 k1 E; cbn [fold_right]; [lia|].
      cbn [spec_ops] in E. destruct (spec_op false o b) as [[b2 k2]|] eqn:Eo; [|discriminate].
      destruct (spec_ops false body b2) as [[b3 k3]|] eqn:Ebd; [|discriminate].
      apply Ho in Eo. apply IHb in Ebd. lia. }
    apply spec_ops_own in E. lia.
  - pose proof (zlen_nonneg s). lia.
Qed.

Lemma requests_nonneg top l b r : spec_ops top l b = Some r -> 0 <= requests l.
Proof.
  revert b r; induction l as [|o l IH]; intros b r; cbn [spec_ops]; unfold requests; cbn [fold_right]; [lia|].
  destruct (spec_op top o b) as [[b1 k1]|] eqn:E; [|discriminate].
  destruct (spec_ops top l b1) as [[b2 k2]|] eqn:E2; [|discriminate].
  intros _. apply requests_nonneg_op in E. apply IH in E2. unfold requests in E2. lia.
Qed.

Definition op_good (o : wop) : Prop := forall M top w b b' own slack,
  WInv w b -> (top = true -> wframes w = []) -> (top = false -> wdata w <> []) ->
  spec_op top o b = Some (b', own) ->
  own <= slack -> slack <= 8 * wsize w - wpos w -> 0 <= slack ->
  wsize w + request o <= M -> wcap w <= Z.max 64 (2 * M) ->
  runs_ok M w b' own slack (request o) (run_op alloc w o).

Lemma map_add0 l : map (fun q => q + 0) l = l.
Proof. induction l as [|x l IH]; cbn; [reflexivity|]. rewrite IH. f_equal. lia. Qed.

Lemma fail_reason_M w s M :
  fail_reason w s -> s <= M -> 0 <= wcap w <= Z.max 64 (2 * M) -> (exists k n, alloc k n = None) \/ 2 ^ 62 < M.
Proof.
  intros [[n H]|[H|H]] Hs Hc; [left; eauto|right; lia|right; lia].
Qed.

Lemma run_ops_good l : Forall op_good l -> forall M top w b b' own slack,
  WInv w b -> (top = true -> wframes w = []) -> (top = false -> wdata w <> []) ->
  spec_ops top l b = Some (b', own) ->
  own <= slack -> slack <= 8 * wsize w - wpos w ->
  wsize w + requests l <= M -> wcap w <= Z.max 64 (2 * M) ->
  runs_ok M w b' own slack (requests l) (run_ops alloc w l).
Proof.
  intros Hall. induction Hall as [|o l Ho Hl IH]; intros M top w b b' own slack HI Ht Hf Hs Hos Hsl HM Hc.
  - cbn [spec_ops run_ops] in *. injection Hs as <- <-. cbn [runs_ok]. split; auto. split; auto.
    split; [|unfold requests; cbn [fold_right]; lia]. exists 0. rewrite map_add0. split; auto. lia.
  - cbn [spec_ops] in Hs. destruct (spec_op top o b) as [[b1 k1]|] eqn:Eo; [|discriminate].
    destruct (spec_ops top l b1) as [[b2 k2]|] eqn:El; [|discriminate].
    injection Hs as <- <-. pose proof (spec_op_own _ _ _ _ _ Eo). pose proof (spec_ops_own _ _ _ _ _ El).
    pose proof (requests_nonneg _ _ _ _ El). pose proof (requests_nonneg_op _ _ _ _ Eo).
    unfold requests in HM |- *. cbn [fold_right] in HM |- *. fold (requests l) in HM |- *.
    cbn [run_ops].
    pose proof (Ho M top w b b1 k1 slack HI Ht Hf Eo ltac:(lia) Hsl ltac:(lia) ltac:(lia) Hc) as Hrun.
    destruct (run_op alloc w o) as [w1| |]; cbn [bindo runs_ok] in *; auto.
    destruct Hrun as (HI1 & Hne1 & (ne1 & Hfr1 & Hp1 & Hn1) & Hsl1 & Hsz1 & Hc1).
    assert (top = true -> wframes w1 = []) as Ht1 by (intros T; rewrite Hfr1, (Ht T); reflexivity).
    assert (top = false -> wdata w1 <> []) as Hf1 by auto.
    pose proof (IH M top w1 b1 b2 k2 (slack - k1) HI1 Ht1 Hf1 El ltac:(lia) ltac:(lia) ltac:(lia) Hc1) as Hrun2.
    destruct (run_ops alloc w1 l) as [w2| |]; cbn [runs_ok] in *; auto.
    destruct Hrun2 as (HI2 & Hne2 & (ne2 & Hfr2 & Hp2 & Hn2) & Hsl2 & Hsz2 & Hc2).
    split; auto. split; auto. split; [|lia].
    exists (ne1 + ne2). split; [|lia]. rewrite Hfr2, Hfr1, map_map. apply map_ext. intros; lia.
Qed.

Lemma op_good_all o : op_good o.
Proof.
  induction o as [n v| |m body IH|s|] using wop_ind2; unfold op_good;
    intros M top w b b' own slack HI Ht Hf Hs Hos Hsl Hsl0 HM Hc.
  - cbn [spec_op] in Hs. destruct (_ && _) eqn:E; [|discriminate]. injection Hs as <- <-.
    assert (top = false) as -> by (destruct top; auto; discriminate).
    destruct (write_inv w b n v HI (Hf eq_refl)) as (w' & Hw & HI' & Hsz & Hne & Hcp & Hp & Hfr & _); try lia.
    cbn [run_op]. rewrite Hw. cbn [runs_ok request]. split; auto. split; auto. split; [|lia].
    exists 0. rewrite map_add0. split; auto. lia.
  - cbn [spec_op] in Hs. destruct (_ || _) eqn:E; [|discriminate]. injection Hs as <- <-.
    cbn [run_op]. unfold zero_pad_to_byte.
    assert (wpos w = zlen b) as Hpb by (destruct HI; auto).
    assert ((wpos w + 7) / 8 * 8 - wpos w = pad_bits b) as Hpad by (unfold pad_bits; lia).
    rewrite Hpad. destruct (Z.eqb_spec (pad_bits b) 0) as [Hz|Hnz].
    + rewrite Hz. cbn [Z.to_nat repeat]. rewrite app_nil_r. cbn [runs_ok request].
      split; auto. split; auto. split; [|lia].
      exists 0. rewrite map_add0. split; auto. lia.
    + assert (top = false) as -> by (destruct top; auto; lia).
      assert (0 <= pad_bits b < 8) by (unfold pad_bits; lia).
      destruct (write_inv w b (pad_bits b) 0 HI (Hf eq_refl)) as (w' & Hw & HI' & Hsz & Hne & Hcp & Hp & Hfr & _); try lia.
      rewrite to_bits_0 in HI'.
      rewrite Hw. cbn [runs_ok request]. split; auto. split; auto. split; [|lia].
      exists 0. rewrite map_add0. split; auto. lia.
  - rewrite spec_op_with in Hs. destruct (spec_ops false body b) as [[b1 k1]|] eqn:Eb; [|discriminate].
    destruct (_ && _) eqn:E; [|discriminate]. injection Hs as <- <-.
    pose proof (spec_ops_own _ _ _ _ _ Eb) as Hk1. pose proof (requests_nonneg _ _ _ _ Eb) as Hrq.
    cbn [request] in HM |- *. fold (requests body) in HM |- *.
    rewrite run_op_with. unfold allot_init.
    assert (wpos w <= 8 * wsize w /\ 0 <= wcap w) as [Hfit Hcap0] by (destruct HI; auto).
    pose proof (resize_inv w b (wsize w + (m + 7) / 8) HI ltac:(lia)) as Hr.
    destruct (resize alloc w (wsize w + (m + 7) / 8)) as [w1| |]; cbn [bindo]; [|eapply fail_reason_M; eauto; lia|auto].
    destruct Hr as (HI1 & Hs1 & (Hp1 & Hf1) & Hnull & Hc1 & Hc1').
    set (w1' := mkWriter (wpos w1) (wdata w1) (wsize w1) (wcap w1) (wpos w :: wframes w1) (wallocs w1)).
    assert (WInv w1' b) as HI1' by (apply (WInv_frames w1 b (wpos w :: wframes w1)); exact HI1).
    assert (wcap w1 <= Z.max 64 (2 * M)) as Hc1M by lia.
    assert (wsize w >= 0) by (destruct HI; lia).
    destruct body as [|o1 body'] eqn:Ebody.
    { (* empty block *)
      cbn [spec_ops] in Eb. injection Eb as <- <-.
      cbn [run_ops bindo]. unfold allot_reclaim. cbn [wframes w1' wpos wsize].
      replace (wpos w1 - wpos w) with 0 by lia.
      replace ((0 <? 0) || (m <? 0)) with false by lia.
      destruct (Z.ltb_spec (wsize w1) ((m - 0) / 8)); [lia|].
      pose proof (resize_inv w1' b (wsize w1 - (m - 0) / 8) HI1' ltac:(cbn [wpos wsize wcap wdata w1']; lia)) as Hr2.
      assert (wsize w1 <= wcap w1 \/ wdata w1 = [] ) as Hcc.
      { destruct HI1 as [_ _ _ Hx _ _ _ _ _]. destruct (wdata w1) eqn:Ed; [auto|left; apply Hx; congruence]. }
      destruct (resize alloc w1' (wsize w1 - (m - 0) / 8)) as [w2| |]; cbn [bindo]; auto.
      2:{ eapply fail_reason_M; eauto; cbn [wpos wsize wcap wdata w1']; destruct HI1; lia. }
      destruct Hr2 as (HI2 & Hs2 & (Hp2 & Hf2) & Hnull2 & Hc2 & Hc2'). cbn [wpos wframes wcap w1' wdata] in *.
      cbn [runs_ok]. split; [apply WInv_frames; exact HI2|].
      cbn [wdata wframes wpos wsize wcap]. split.
      { intros Hx Hy. apply Hnull2 in Hy. destruct Hy as [Hy _]. apply Hnull in Hy. tauto. }
      split.
      { exists 0. rewrite Hf1. split; [|lia]. apply map_ext; intros; lia. }
      unfold requests; cbn [fold_right]. 
      assert (wcap w2 <= Z.max 64 (2 * M)); [|lia].
      destruct Hc2' as [->|Hlt]; [lia|]. destruct Hcc as [Hcc|Hcc]; [lia|].
      destruct HI1 as [_ _ Hx _ _ _ _ _ _]. destruct (Hx Hcc). lia. }
    rewrite <- Ebody in *. clear Ebody.
    assert (0 < m) as Hm by (destruct body; lia). 
    assert (wdata w1 <> []) as Hne1. { intros Hn. apply Hnull in Hn. lia. }
    pose proof (run_ops_good body IH M false w1' b b1 k1 (slack + m) HI1' ltac:(discriminate)
       ltac:(auto) Eb ltac:(lia) ltac:(cbn [wpos wsize wcap wdata w1']; lia) ltac:(cbn [wpos wsize wcap wdata w1']; lia) ltac:(cbn [wpos wsize wcap wdata w1']; lia)) as Hrun.
    destruct (run_ops alloc w1' body) as [w2| |]; cbn [bindo runs_ok] in *; auto.
    destruct Hrun as (HI2 & Hne2 & (ne2 & Hfr2 & Hp2 & Hn2) & Hsl2 & Hsz2 & Hc2).
    cbn [wframes wpos wsize w1' wdata map] in Hfr2, Hp2, Hsz2, Hne2.
    unfold allot_reclaim. rewrite Hfr2.
    replace (wpos w2 - (wpos w + ne2)) with k1 by lia.
    replace ((k1 <? 0) || (m <? k1)) with false by lia.
    assert (0 <= wpos w2) by (destruct HI2; pose proof (zlen_nonneg b1); lia).
    destruct (Z.ltb_spec (wsize w2) ((m - k1) / 8)); [lia|].
    pose proof (resize_inv w2 b1 (wsize w2 - (m - k1) / 8) HI2 ltac:(lia)) as Hr3.
    assert (wsize w2 <= wcap w2) as Hcc2.
    { destruct HI2 as [_ _ _ Hx _ _ _ _ _]. apply Hx. auto. }
    destruct (resize alloc w2 (wsize w2 - (m - k1) / 8)) as [w3| |]; cbn [bindo]; auto.
    2:{ eapply fail_reason_M; eauto; destruct HI2; lia. }
    destruct Hr3 as (HI3 & Hs3 & (Hp3 & Hf3) & Hnull3 & Hc3 & Hc3').
    cbn [runs_ok]. split; [apply WInv_frames; exact HI3|].
    cbn [wdata wframes wpos wsize wcap]. split.
    { intros _ Hy. apply Hnull3 in Hy. tauto. }
    split; [|lia].
    exists (ne2 + k1). rewrite Hf1, map_map. split; [|lia]. apply map_ext; intros; lia.
  - cbn [spec_op] in Hs. destruct (_ && _) eqn:E; [|discriminate]. injection Hs as <- <-.
    assert (top = true) as -> by (destruct top; auto).
    assert (bytes_ok s) as Hbs.
    { apply andb_true_iff in E. destruct E as [_ E]. rewrite forallb_forall in E.
      apply Forall_forall. intros x Hx. specialize (E x Hx). unfold is_u8. change (2 ^ 8) with 256. lia. }
    cbn [run_op request] in *. pose proof (zlen_nonneg s).
    pose proof (append_inv w b s HI ltac:(lia) Hbs (Ht eq_refl)) as Ha.
    assert (0 <= wcap w) by (destruct HI; auto).
    destruct (append_byte_aligned alloc w s) as [w'| |]; cbn [runs_ok]; auto.
    2:{ eapply fail_reason_M; eauto; lia. }
    destruct Ha as (HI' & Hfr & Hp & Hne & Hsl' & Hsz & Hc').
    split; auto. split; auto. split; [|lia].
    exists (8 * zlen s). rewrite Hfr, (Ht eq_refl). split; [reflexivity|lia].
  - cbn [spec_op run_op request] in *. injection Hs as <- <-. unfold shrink.
    pose proof (change_capacity_inv w b (wsize w) HI ltac:(lia)) as Hr.
    assert (0 <= wsize w) by (destruct HI; auto).
    destruct (change_capacity alloc w (wsize w)) as [w'| |]; cbn [runs_ok]; auto.
    2:{ destruct Hr as [[n Hr]|Hr]; [left; eauto|right; lia]. }
    destruct Hr as (HI' & Hsz & Hne & Hc' & Hp & Hfr).
    split; auto. split; auto. split; [|lia]. exists 0. rewrite map_add0. split; auto. lia.
Qed.
End WP.
