(* Filling the second-level tables. *)
From Verif Require Import Base ListAux Wrap HuffModel HuffSpec HuffCanon HuffRoot.

Ltac Zify.zify_post_hook ::= idtac.

Definition g (b : Z) : Z := 2 ^ b - b - 1.
Lemma w16_small x : 0 <= x < 2 ^ 16 -> w16 x = x.
Proof. apply Z.mod_small. Qed.
Lemma g_mono a b : 0 <= a <= b -> g a <= g b.
Proof.
  intros H. replace b with (a + Z.of_nat (Z.to_nat (b - a))) by lia. induction (Z.to_nat (b - a)) as [|d IH]; [rewrite Z.add_0_r; lia|].
  replace (a + Z.of_nat (S d)) with (a + Z.of_nat d + 1) by lia. unfold g in *. rewrite (Z.pow_add_r 2 (a + Z.of_nat d) 1) by lia.
  pose proof (p2 (a + Z.of_nat d) ltac:(lia)). lia.
Qed.

Lemma join_key rb l low j x : 0 <= rb < l -> x mod 2 ^ rb = low -> j mod 2 ^ (l - rb) = x / 2 ^ rb -> (low + 2 ^ rb * j) mod 2 ^ l = x.
Proof.
  intros H El Ej. pose proof (p2 rb ltac:(lia)) as P. pose proof (p2 (l - rb) ltac:(lia)) as P'.
  replace (2 ^ l) with (2 ^ rb * 2 ^ (l - rb)) by (rewrite <- Z.pow_add_r by lia; f_equal; lia).
  pose proof (Z.mod_pos_bound x (2 ^ rb) P) as B. rewrite El in B.
  rewrite Z.rem_mul_r by lia. rewrite (Z.mul_comm (2 ^ rb) j), Z.mod_add, (Z.mod_small low) by lia.
  rewrite Z.div_add, (Z.div_small low), Z.add_0_l, Ej by lia. pose proof (Z.div_mod x (2 ^ rb) ltac:(lia)) as D. rewrite El in D. clear - D. lia.
Qed.
Opaque C off.
Section Sub.
Variable cnt : Z -> Z.
Hypothesis Hcnt : forall l, 0 <= cnt l.
Hypothesis Hkraft : C cnt 15 + cnt 15 = 2 ^ 15.
Variable n : Z.
Variable sorted : Z -> Z.
Hypothesis Hn : forall l, 0 <= l <= 15 -> off cnt l + cnt l <= n.
Hypothesis Hn15 : n <= 2 ^ 15.
Variables size rb : Z.
Hypothesis Hrb : 1 <= rb <= 14.
Hypothesis Hbig : 2 ^ rb + n + g (15 - rb) <= size.
Hypothesis H16 : 2 ^ rb + n + g (15 - rb) < 2 ^ 16.

Notation W := (2 ^ (15 - rb)).
Notation word := (word cnt).
Notation keyc := (keyc cnt).
Notation sym := (sym cnt sorted).
Notation vars_at := (vars_at cnt).
Notation st := (st cnt).
Notation idx := (idx cnt).
Notation root_ok := (root_ok cnt sorted).

Lemma W_split : 2 ^ 15 = 2 ^ rb * W.
Proof. rewrite <- Z.pow_add_r by lia. f_equal. lia. Qed.
Lemma W_pos : 0 < W.
Proof. apply p2. lia. Qed.

Lemma word_st l i : word l i -> 0 <= st l i < 2 ^ 15.
Proof.
  intros (Hl & Hi). pose proof (st_le cnt Hcnt Hkraft l i ltac:(lia) ltac:(lia)). split; [lia|].
  pose proof (st_le cnt Hcnt Hkraft l (i + 1) ltac:(lia) ltac:(lia)) as X. unfold HuffCanon.st in *.
  pose proof (p2 (15 - l) ltac:(lia)). lia.
Qed.
Lemma word_div l i : word l i -> rb < l -> st l i / W = (C cnt l + i) / 2 ^ (l - rb).
Proof.
  intros (Hl & Hi) L. unfold HuffCanon.st. replace W with (2 ^ (l - rb) * 2 ^ (15 - l)) by (rewrite <- Z.pow_add_r by lia; f_equal; lia).
  pose proof (p2 (15 - l) ltac:(lia)). pose proof (p2 (l - rb) ltac:(lia)). apply Z.div_mul_cancel_r; lia.
Qed.
Lemma word_a l i : word l i -> 0 <= st l i / W < 2 ^ rb.
Proof.
  intros Hw. pose proof (word_st l i Hw) as R. pose proof W_pos. rewrite W_split in R. split; [apply Z.div_pos; lia|]. apply Z.div_lt_upper_bound; lia.
Qed.
Lemma word_low l i : word l i -> rb < l -> keyc l i mod 2 ^ rb = rv rb (st l i / W).
Proof.
  intros Hw L. rewrite word_div by assumption. unfold HuffRoot.keyc. replace l with (rb + (l - rb)) at 1 by lia. rewrite rv_prefix by lia. reflexivity.
Qed.
Lemma word_high l i : word l i -> rb < l -> 0 <= keyc l i / 2 ^ rb < 2 ^ (l - rb).
Proof.
  intros Hw L. unfold HuffRoot.keyc. replace l with (rb + (l - rb)) at 1 3 by lia. rewrite rv_high by lia. apply rv_range. lia.
Qed.
Lemma same_a x a : a * W <= x < (a + 1) * W -> x / W = a.
Proof. intros H. symmetry. apply Z.div_unique with (x - a * W); [left|]; lia. Qed.
Lemma div_W x : x / W * W <= x < (x / W + 1) * W.
Proof. pose proof W_pos. pose proof (Z.div_mod x W ltac:(lia)). pose proof (Z.mod_pos_bound x W ltac:(lia)). lia. Qed.

Definition region_end (a b ie : Z) : Prop :=
  0 <= a < 2 ^ rb /\ 1 <= b <= 15 - rb /\ 0 <= ie <= cnt (rb + b) /\ st (rb + b) ie = (a + 1) * W.

Lemma w64_double x : 0 <= x <= 2 ^ 15 -> w64 (Z.shiftl (w64 x) 1) = 2 * x.
Proof. intros H. unfold w64 at 2. rewrite Z.mod_small by lia. rewrite Z.shiftl_mul_pow2 by lia. unfold w64. rewrite Z.mod_small by lia. lia. Qed.
Lemma left_small left e x a : 0 <= e <= 15 -> 0 < left -> left * 2 ^ (15 - e) = (a + 1) * W - x -> 0 <= x -> (a + 1) * W <= 2 ^ 15 -> left <= 2 ^ 15.
Proof. intros He Hl E Hx H. pose proof (p2 (15 - e) ltac:(lia)) as P. assert (left * 1 <= left * 2 ^ (15 - e)) by (apply Z.mul_le_mono_nonneg_l; lia). lia. Qed.

(* ---- NextTableBitSize ---- *)
Lemma next_table_loop_ok count l i a : rb < l -> (forall l', l < l' <= 15 -> count l' = cnt l') -> 0 <= a < 2 ^ rb ->
  forall fuel e i0 left, l <= e <= 15 -> 15 - e <= Z.of_nat fuel -> 0 <= i0 <= cnt e -> count e = cnt e - i0 -> 0 < left ->
  left * 2 ^ (15 - e) = (a + 1) * W - st e i0 -> idx l i + 2 ^ (l - rb) + (e - l) <= idx e i0 + left ->
  exists e' ie, next_table_loop fuel count left e = Some e' /\ e <= e' <= 15 /\ 0 <= ie <= cnt e' /\ st e' ie = (a + 1) * W /\
    idx l i + 2 ^ (l - rb) + (e' - l) <= idx e' ie.
Proof.
  intros Hl Hc' Ha.
  assert (Stop : forall e i0 left, l <= e <= 15 -> 0 <= i0 -> 0 < left -> left <= cnt e - i0 -> left * 2 ^ (15 - e) = (a + 1) * W - st e i0 ->
    idx l i + 2 ^ (l - rb) + (e - l) <= idx e i0 + left ->
    exists ie, 0 <= ie <= cnt e /\ st e ie = (a + 1) * W /\ idx l i + 2 ^ (l - rb) + (e - l) <= idx e ie).
  { intros e i0 left He Hi0 Hlt L E F. exists (i0 + left). split; [lia|]. unfold HuffCanon.st, HuffCanon.idx in *. split; lia. }
  assert (AW : (a + 1) * W <= 2 ^ 15). { rewrite W_split. apply Z.mul_le_mono_nonneg_r; [pose proof W_pos; lia|lia]. }
  assert (Last : forall i0 left, 0 <= i0 -> 0 < left -> left * 2 ^ (15 - 15) = (a + 1) * W - st 15 i0 -> left <= cnt 15 - i0).
  { intros i0 left Hi0 Hlt E. change (15 - 15) with 0 in E. rewrite Z.pow_0_r in E. unfold HuffCanon.st in E. change (15 - 15) with 0 in E. rewrite Z.pow_0_r in E. lia. }
  induction fuel as [|fuel IH]; intros e i0 left He Hf Hi0 Hce Hlt E F.
  - assert (e = 15) as -> by lia. cbn [next_table_loop]. change (15 <? PREFIX_MAX_BITS) with false. cbv iota.
    destruct (Stop 15 i0 left) as (ie & A & B & D); try assumption; try lia; try (apply (Last i0); try assumption; lia).
    exists 15, ie. repeat split; try assumption; lia.
  - cbn [next_table_loop]. unfold PREFIX_MAX_BITS. destruct (Z.ltb_spec e 15) as [L15|L15].
    + rewrite get_ok by lia. rewrite Hce. destruct (left <=? cnt e - i0) eqn:G.
      * destruct (Stop e i0 left) as (ie & A & B & D); try assumption; try lia.
        exists e, ie. repeat split; try assumption; lia.
      * pose proof (p2 (15 - e) ltac:(lia)) as P. pose proof (p2_le (15 - e) 15 ltac:(lia)).
        assert (2 ^ (15 - e) = 2 * 2 ^ (15 - (e + 1))) as P2. { replace (15 - e) with (15 - (e + 1) + 1) by lia. rewrite Z.pow_add_r by lia. lia. }
        pose proof (left_small left e (st e i0) a ltac:(lia) Hlt E (proj1 (st_le cnt Hcnt Hkraft e i0 ltac:(lia) ltac:(lia))) AW) as Ls.
        rewrite w64_double by lia.
        destruct (IH (e + 1) 0 (2 * (left - (cnt e - i0)))) as (e' & ie & A & B & D).
        { lia. } { lia. } { split; [lia|apply Hcnt]. } { rewrite Hc' by lia. lia. } { lia. }
        { rewrite (st_next cnt Hcnt e) by lia. unfold HuffCanon.st in *. rewrite P2 in *. lia. }
        { rewrite (idx_next cnt Hcnt e) by lia. unfold HuffCanon.idx in *. lia. }
        exists e', ie. split; [exact A|]. split; [lia|exact D].
    + assert (e = 15) as -> by lia.
      destruct (Stop 15 i0 left) as (ie & A & B & D); try assumption; try lia; try (apply (Last i0); try assumption; lia).
      exists 15, ie. repeat split; try assumption; lia.
Qed.
Lemma next_table_ok count l i a : word l i -> rb < l -> count l = cnt l - i -> (forall l', l < l' <= 15 -> count l' = cnt l') ->
  st l i = a * W ->
  exists b ie, next_table_bit_size count l rb = Some b /\ l - rb <= b /\ region_end a b ie /\
    idx l i + 2 ^ (l - rb) + (b - (l - rb)) <= idx (rb + b) ie.
Proof.
  intros Hw L Hc Hc' E. pose proof Hw as (Hl & Hi). pose proof W_pos.
  assert (Ha : 0 <= a < 2 ^ rb). { pose proof (word_a l i Hw) as R. rewrite E, Z.div_mul in R by lia. exact R. }
  pose proof (p2 (l - rb) ltac:(lia)) as P.
  destruct (next_table_loop_ok count l i a L Hc' Ha 16 l i (2 ^ (l - rb))) as (e & ie & A & B & D & F & G); try assumption; try lia.
  { rewrite E. rewrite <- Z.pow_add_r by lia. replace (l - rb + (15 - l)) with (15 - rb) by lia. lia. }
  exists (e - rb), ie. unfold next_table_bit_size. rewrite Z.shiftl_mul_pow2, Z.mul_1_l by lia. rewrite A. split; [reflexivity|].
  unfold region_end. replace (rb + (e - rb)) with e by lia. repeat split; try assumption; lia.
Qed.

(* ---- the invariant ---- *)
Definition sub_ok (t : Z -> Z * Z) (total tbl tsz low l' i' : Z) : Prop :=
  exists b' T', t (keyc l' i' mod 2 ^ rb) = (rb + b', T' - keyc l' i' mod 2 ^ rb) /\ 2 ^ rb <= T' /\ T' + 2 ^ b' <= total /\
    l' - rb <= b' <= 15 - rb /\
    (forall j, 0 <= j < 2 ^ b' -> j mod 2 ^ (l' - rb) = keyc l' i' / 2 ^ rb -> t (T' + j) = (l' - rb, sym l' i')) /\
    ((keyc l' i' mod 2 ^ rb = low /\ T' = tbl /\ 2 ^ b' = tsz) \/ (keyc l' i' mod 2 ^ rb <> low /\ T' + 2 ^ b' <= tbl)).

Definition fresh (s : sub) (l i : Z) : Prop :=
  s_low s = -1 /\ s_table s = 0 /\ s_tsize s = 2 ^ rb /\ s_total s = 2 ^ rb /\ idx l i = idx (rb + 1) 0 /\ st l i = st (rb + 1) 0.
Definition active (s : sub) (l i a b ie : Z) : Prop :=
  region_end a b ie /\ s_low s = rv rb a /\ s_tsize s = 2 ^ b /\ 2 ^ rb <= s_table s /\ s_table s + s_tsize s = s_total s /\
  f_table (s_fill s) (s_low s) = (rb + b, s_table s - s_low s) /\ a * W <= st l i <= (a + 1) * W /\
  s_total s <= 2 ^ rb + (idx (rb + b) ie - idx (rb + 1) 0) + g b.
Definition tables_ok (s : sub) (l i : Z) : Prop :=
  (forall l' i', word l' i' -> l' <= rb -> root_ok rb (f_table (s_fill s)) l' i') /\
  (forall l' i', word l' i' -> rb < l' -> before l' i' l i ->
     sub_ok (f_table (s_fill s)) (s_total s) (s_table s) (s_tsize s) (s_low s) l' i').
Definition sub_inv (l i : Z) (s : sub) : Prop :=
  vars_at l i (s_fill s) /\ tables_ok s l i /\ (fresh s l i \/ exists a b ie, active s l i a b ie).

(* the size of the table *)
Lemma idx_le_n l i : 0 <= l <= 15 -> 0 <= i <= cnt l -> idx l i <= n.
Proof. intros Hl Hi. unfold HuffCanon.idx. pose proof (Hn l Hl). lia. Qed.
Lemma idx_first : 0 <= idx (rb + 1) 0.
Proof. unfold HuffCanon.idx. pose proof (off_nonneg cnt Hcnt (rb + 1) ltac:(lia)). lia. Qed.
Lemma active_total s l i a b ie : active s l i a b ie -> s_total s <= 2 ^ rb + n + g (15 - rb).
Proof.
  intros ((Ha & Hb & Hie & _) & _ & _ & _ & _ & _ & _ & T). pose proof (idx_le_n (rb + b) ie ltac:(lia) Hie). pose proof idx_first.
  pose proof (g_mono b (15 - rb) ltac:(lia)). lia.
Qed.

(* positions with the same start have the same index *)
Lemma st_eq_idx l i l' i' : 0 <= l <= 15 -> 0 <= l' <= 15 -> 0 <= i <= cnt l -> 0 <= i' <= cnt l' -> st l i = st l' i' -> idx l i = idx l' i'.
Proof.
  intros Hl Hl' Hi Hi' E. destruct (Z.lt_trichotomy l l') as [L|[->|L]].
  - pose proof (st_idx cnt Hcnt l i l' i' ltac:(lia) ltac:(lia) Hi ltac:(lia) ltac:(lia)). lia.
  - destruct (Z.le_gt_cases i i').
    + pose proof (st_idx cnt Hcnt l' i l' i' ltac:(lia) ltac:(lia) Hi ltac:(lia) ltac:(lia)). lia.
    + pose proof (st_idx cnt Hcnt l' i' l' i ltac:(lia) ltac:(lia) Hi' ltac:(lia) ltac:(lia)). lia.
  - pose proof (st_idx cnt Hcnt l' i' l i ltac:(lia) ltac:(lia) Hi' ltac:(lia) ltac:(lia)). lia.
Qed.
(* a word starting before a position is before it *)
Lemma st_lt_before l i l' i' : 0 <= l <= 15 -> 0 <= l' <= 15 -> 0 <= i -> 0 <= i' <= cnt l' -> st l i < st l' i' -> before l i l' i'.
Proof.
  intros Hl Hl' Hi Hi' E. unfold before. destruct (Z.lt_trichotomy l l') as [L|[->|L]]; [left; assumption| |].
  - right. split; [reflexivity|]. destruct (Z.lt_ge_cases i i') as [|G]; [assumption|].
    pose proof (st_idx cnt Hcnt l' i' l' i ltac:(lia) ltac:(lia) Hi' ltac:(lia) ltac:(lia)). lia.
  - pose proof (st_idx cnt Hcnt l' i' l i ltac:(lia) ltac:(lia) Hi' ltac:(lia) ltac:(lia)). lia.
Qed.
(* the root entry of a long word is not used by short words *)
Lemma low_not_short l i l' i' : word l i -> rb < l -> word l' i' -> l' <= rb -> (keyc l i mod 2 ^ rb) mod 2 ^ l' = keyc l' i' -> False.
Proof.
  intros Hw L Hw' L' E. destruct Hw as (Hl & Hi). destruct Hw' as (Hl' & Hi').
  apply (prefix_free cnt Hcnt Hkraft l' i' l i (keyc l i)); try assumption; [left; lia| |].
  - fold (keyc l' i'). rewrite <- E. symmetry. apply mod_mod_p2. lia.
  - apply Z.mod_small. apply keyc_range. lia.
Qed.

(* ---- opening a table ---- *)
Definition open_step (len mask : Z) (s : sub) : option sub :=
  let f := s_fill s in
  if negb (Z.land (f_key f) mask =? s_low s) then
     let table := s_table s + s_tsize s in
     do table_bits <- next_table_bit_size (f_count f) len rb;
     let table_size := Z.shiftl 1 table_bits in
     let low := Z.land (f_key f) mask in
     do t <- set size (f_table f) low (w8 (table_bits + rb), w16 (table - low));
     Some (Sub (Fill t (f_count f) (f_key f) (f_symbol f)) table table_size (s_total s + table_size) low)
   else Some s.

Lemma open_new l i s a : word l i -> rb < l -> vars_at l i (s_fill s) -> tables_ok s l i -> f_key (s_fill s) = keyc l i ->
  st l i = a * W ->
  (forall l' i', word l' i' -> rb < l' -> before l' i' l i -> keyc l' i' mod 2 ^ rb = s_low s -> s_table s + s_tsize s <= s_total s) ->
  2 ^ rb <= s_table s + s_tsize s -> s_table s + s_tsize s = s_total s -> 0 <= s_table s ->
  s_total s <= 2 ^ rb + (idx l i - idx (rb + 1) 0) + g (l - rb) ->
  exists s' b ie, (do table_bits <- next_table_bit_size (f_count (s_fill s)) l rb;
     let table_size := Z.shiftl 1 table_bits in
     let low := keyc l i mod 2 ^ rb in
     do t <- set size (f_table (s_fill s)) low (w8 (table_bits + rb), w16 (s_table s + s_tsize s - low));
     Some (Sub (Fill t (f_count (s_fill s)) (f_key (s_fill s)) (f_symbol (s_fill s))) (s_table s + s_tsize s) table_size (s_total s + table_size) low)) = Some s' /\
    vars_at l i (s_fill s') /\ tables_ok s' l i /\ active s' l i a b ie /\ l - rb <= b.
Proof.
  intros Hw L V (T1 & T2) K E Hd Hge Hend Htbl Htot. pose proof Hw as (Hl & Hi). pose proof W_pos as WP.
  destruct V as (V1 & V2 & V3 & V4).
  destruct (next_table_ok (f_count (s_fill s)) l i a Hw L V3 V4 E) as (b & ie & -> & Hb & Re & F). cbv zeta.
  pose proof Re as (Ha & Hb' & Hie & Est).
  pose proof (p2 rb ltac:(lia)) as Prb. pose proof (Z.mod_pos_bound (keyc l i) (2 ^ rb) ltac:(lia)) as Hlow.
  pose proof (p2 b ltac:(lia)) as Pb.
  assert (A0 : st l i / W = a) by (rewrite E; apply Z.div_mul; lia).
  assert (Hlow_a : keyc l i mod 2 ^ rb = rv rb a) by (rewrite word_low by assumption; now rewrite A0).
  (* bound *)
  assert (Tot : s_total s + 2 ^ b <= 2 ^ rb + (idx (rb + b) ie - idx (rb + 1) 0) + g b).
  { unfold g in *. lia. }
  pose proof (idx_le_n (rb + b) ie ltac:(lia) Hie) as In. pose proof idx_first as If. pose proof (g_mono b (15 - rb) ltac:(lia)) as Gm.
  assert (Hsz : s_total s + 2 ^ b <= size) by lia.
  assert (g0 : forall x, 0 <= x -> 0 <= g x). { intros x Hx. pose proof (g_mono 0 x ltac:(lia)) as G0. unfold g in G0 at 1. change (2 ^ 0) with 1 in G0. lia. }
  rewrite set_ok by lia. rewrite Z.shiftl_mul_pow2, Z.mul_1_l by lia.
  eexists _, b, ie. split; [reflexivity|]. cbn [s_fill s_table s_tsize s_total s_low f_table f_count f_key f_symbol].
  replace (w8 (b + rb)) with (rb + b) by (unfold w8; rewrite Z.mod_small; lia).
  replace (w16 (s_table s + s_tsize s - keyc l i mod 2 ^ rb)) with (s_table s + s_tsize s - keyc l i mod 2 ^ rb).
  2:{ symmetry. apply w16_small. lia. }
  split; [|split; [|split]].
  - unfold HuffRoot.vars_at. cbn [f_key f_symbol f_count]. auto.
  - split; cbn [s_fill s_table s_tsize s_total s_low f_table].
    + intros l' i' W' L' r Hr Hm. cbv beta. destruct (Z.eqb_spec r (keyc l i mod 2 ^ rb)) as [->|Nr].
      * exfalso. apply (low_not_short l i l' i'); assumption.
      * now apply T1.
    + intros l' i' W' L' Bf. destruct (T2 l' i' W' L' Bf) as (b' & T' & S1 & S2 & S3 & S4 & S5 & S6).
      assert (Nlow : keyc l' i' mod 2 ^ rb <> keyc l i mod 2 ^ rb).
      { rewrite (word_low l' i'), Hlow_a by assumption. intros Q. apply rv_inj in Q; [|lia|apply word_a; assumption|lia].
        destruct W' as (W1 & W2). pose proof (before_st cnt Hcnt l' i' l i ltac:(lia) ltac:(lia) W2 ltac:(lia) Bf) as Bs.
        pose proof (p2 (15 - l') ltac:(lia)). pose proof (div_W (st l' i')). rewrite Q in *. lia. }
      exists b', T'. cbv beta. replace (keyc l' i' mod 2 ^ rb =? keyc l i mod 2 ^ rb) with false by lia.
      split; [exact S1|]. split; [exact S2|]. split; [lia|]. split; [exact S4|]. split.
      * intros j Hj Hm. replace (T' + j =? keyc l i mod 2 ^ rb) with false by lia. now apply S5.
      * right. split; [exact Nlow|]. destruct S6 as [(Q1 & Q2 & Q3)|(Q1 & Q2)]; [rewrite Q2, Q3; lia|]. pose proof (p2 b' ltac:(lia)). lia.
  - unfold active. cbn [s_fill s_table s_tsize s_total s_low f_table]. rewrite Z.eqb_refl.
    split; [exact Re|]. split; [exact Hlow_a|]. split; [reflexivity|]. split; [exact Hge|]. split; [lia|]. split; [reflexivity|]. split; [lia|exact Tot].
  - exact Hb.
Qed.

Lemma land_mask x k : 0 <= k -> 0 <= x -> Z.land x (2 ^ k - 1) = x mod 2 ^ k.
Proof. intros Hk Hx. rewrite <- Z.land_ones by lia. f_equal. rewrite Z.ones_equiv. lia. Qed.

Lemma open_ok l i s : word l i -> rb < l -> sub_inv l i s ->
  exists s' a b ie, open_step l (2 ^ rb - 1) s = Some s' /\ vars_at l i (s_fill s') /\ tables_ok s' l i /\ active s' l i a b ie /\
    st l i < (a + 1) * W /\ l - rb <= b.
Proof.
  intros Hw L (V & T & FA). pose proof Hw as (Hl & Hi). pose proof W_pos as WP.
  assert (K : f_key (s_fill s) = keyc l i).
  { destruct V as (V1 & _). apply V1. pose proof (code_range_lt cnt Hcnt Hkraft l i ltac:(lia) Hi). lia. }
  pose proof (keyc_range cnt l i ltac:(lia)) as Kr.
  unfold open_step. cbv zeta. rewrite K. rewrite !land_mask by lia. pose proof (p2 rb ltac:(lia)) as Prb.
  pose proof (Z.mod_pos_bound (keyc l i) (2 ^ rb) ltac:(lia)) as Hlow.
  destruct FA as [(F1 & F2 & F3 & F4 & F5 & F6)|(a & b & ie & A)].
  - replace (negb (keyc l i mod 2 ^ rb =? s_low s)) with true by lia.
    assert (E : exists a, st l i = a * W).
    { exists (C cnt rb + cnt rb). rewrite F6. unfold HuffCanon.st. rewrite C_succ by lia. replace (15 - rb) with (15 - (rb + 1) + 1) by lia.
      rewrite Z.pow_add_r by lia. lia. }
    destruct E as (a & E).
    destruct (open_new l i s a Hw L V T K E) as (s' & b & ie & Q & V' & T' & A' & Hb); try lia.
    { pose proof (g_mono 0 (l - rb) ltac:(lia)) as G0. unfold g in G0 at 1. change (2 ^ 0) with 1 in G0. lia. }
    rewrite K in Q. exists s', a, b, ie. split; [exact Q|]. split; [exact V'|]. split; [exact T'|]. split; [exact A'|]. split; lia.
  - pose proof A as (Re & A1 & A2 & A3 & A4 & A5 & A6 & A7). pose proof Re as (Ha & Hb & Hie & Est). pose proof (p2 b ltac:(lia)) as Pb.
    destruct (Z.eqb_spec (keyc l i mod 2 ^ rb) (s_low s)) as [Eq|Ne]; cbn [negb].
    + rewrite word_low, A1 in Eq by assumption. apply rv_inj in Eq; [|lia|apply word_a; assumption|assumption].
      pose proof (div_W (st l i)) as D. rewrite Eq in D.
      assert (Bf : before l i (rb + b) ie). { apply st_lt_before; try lia. }
      exists s, a, b, ie. split; [reflexivity|]. split; [exact V|]. split; [exact T|]. split; [exact A|]. split; [lia|].
      destruct Bf; lia.
    + assert (E : st l i = (a + 1) * W).
      { destruct (Z.eq_dec (st l i) ((a + 1) * W)) as [|N]; [assumption|]. exfalso. apply Ne. rewrite word_low, A1 by assumption. f_equal. apply same_a. lia. }
      assert (Hbl : b <= l - rb).
      { destruct (Z.le_gt_cases b (l - rb)) as [|G]; [assumption|]. exfalso.
        pose proof (before_st cnt Hcnt l i (rb + b) ie ltac:(lia) ltac:(lia) Hi ltac:(lia) ltac:(left; lia)). pose proof (p2 (15 - l) ltac:(lia)). lia. }
      assert (Ei : idx (rb + b) ie = idx l i) by (apply st_eq_idx; lia).
      pose proof (g_mono b (l - rb) ltac:(lia)).
      destruct (open_new l i s (a + 1) Hw L V T K E) as (s' & b' & ie' & Q & V' & T' & A' & Hb2); try lia.
      rewrite K in Q. exists s', (a + 1), b', ie'. split; [exact Q|]. split; [exact V'|]. split; [exact T'|]. split; [exact A'|]. split; lia.
Qed.

Lemma sub_step_open len mask s : sub_step size n rb sorted len (Z.shiftl 2 (len - rb - 1)) mask s =
  do s <- open_step len mask s;
  let f := s_fill s in
  do v <- get n sorted (f_symbol f);
  do t <- replicate size (f_table f) (s_table s + Z.shiftr (f_key f) rb) (Z.shiftl 2 (len - rb - 1)) (s_tsize s) (w8 (len - rb), v);
  do key <- get_next_key (f_key f) len;
  do c <- get 16 (f_count f) len;
  do count <- set 16 (f_count f) len (w16 (c - 1));
  Some (Sub (Fill t count key (f_symbol f + 1)) (s_table s) (s_tsize s) (s_total s) (s_low s)).
Proof. reflexivity. Qed.

Lemma sub_step_ok l i s : word l i -> rb < l -> sub_inv l i s ->
  exists s', sub_step size n rb sorted l (2 ^ (l - rb)) (2 ^ rb - 1) s = Some s' /\ sub_inv l (i + 1) s' /\ f_count (s_fill s') l = cnt l - (i + 1).
Proof.
  intros Hw L I. pose proof Hw as (Hl & Hi). pose proof W_pos as WP.
  replace (2 ^ (l - rb)) with (Z.shiftl 2 (l - rb - 1)).
  2:{ rewrite Z.shiftl_mul_pow2 by lia. replace (l - rb) with (l - rb - 1 + 1) at 2 by lia. rewrite Z.pow_add_r by lia. lia. }
  rewrite sub_step_open. destruct (open_ok l i s Hw L I) as (s1 & a & b & ie & -> & V & (T1 & T2) & A & Hlt & Hb).
  replace (Z.shiftl 2 (l - rb - 1)) with (2 ^ (l - rb)).
  2:{ rewrite Z.shiftl_mul_pow2 by lia. replace (l - rb) with (l - rb - 1 + 1) at 1 by lia. rewrite Z.pow_add_r by lia. lia. }
  cbv zeta. pose proof A as (Re & A1 & A2 & A3 & A4 & A5 & A6 & A7). pose proof Re as (Ha & Hbr & Hie & Est).
  pose proof (active_total s1 l i a b ie A) as Tot. pose proof (word_index cnt Hcnt n sorted Hn l i Hw) as Ix.
  pose proof (p2 rb ltac:(lia)) as Prb.
  assert (Low : keyc l i mod 2 ^ rb = s_low s1) by (rewrite word_low, A1 by assumption; f_equal; apply same_a; lia).
  set (t0 := f_table (s_fill s1)) in *.
  destruct (replicate_ok size t0 (s_table s1) (keyc l i / 2 ^ rb) (l - rb) b (l - rb, sym l i) ltac:(lia) (word_high l i Hw L) ltac:(lia) ltac:(lia))
    as (t' & E & R1 & R2 & R3).
  destruct (vars_step cnt Hcnt Hkraft n sorted Hn Hn15 l i (s_fill s1) t' Hw V) as (Ke & key' & Ek & V').
  pose proof V as (V1 & V2 & V3 & V4).
  rewrite V2, get_ok by lia. fold (sym l i). rewrite Ke, Z.shiftr_div_pow2 by lia.
  replace (w8 (l - rb)) with (l - rb) by (unfold w8; rewrite Z.mod_small; lia). rewrite A2, E.
  rewrite <- Ke, Ek. rewrite get_ok, set_ok by lia.
  eexists. split; [reflexivity|]. rewrite V2 in V'. split.
  2:{ cbn [s_fill f_count]. rewrite Z.eqb_refl, V3. pose proof (Hn l ltac:(lia)). pose proof (off_nonneg cnt Hcnt l ltac:(lia)). unfold w16. rewrite Z.mod_small; lia. }
  split; [exact V'|]. cbn [s_fill s_table s_tsize s_total s_low f_table].
  assert (Lowr : 0 <= s_low s1 < 2 ^ rb) by (rewrite <- Low; apply Z.mod_pos_bound; lia).
  assert (Xk : forall l' i', rb < l' -> keyc l' i' mod 2 ^ rb = s_low s1 -> forall j, j mod 2 ^ (l' - rb) = keyc l' i' / 2 ^ rb ->
    (s_low s1 + 2 ^ rb * j) mod 2 ^ l' = keyc l' i').
  { intros l' i' L' El j Ej. apply join_key; [clear - Hrb L'; lia|assumption..]. }
  assert (Pf : forall l' i', word l' i' -> rb < l' -> before l' i' l i -> keyc l' i' mod 2 ^ rb = s_low s1 ->
    forall j, j mod 2 ^ (l' - rb) = keyc l' i' / 2 ^ rb -> j mod 2 ^ (l - rb) <> keyc l i / 2 ^ rb).
  { intros l' i' (W1 & W2) L' Bf El j Ej Ej'.
    exact (prefix_free cnt Hcnt Hkraft l' i' l i (s_low s1 + 2 ^ rb * j) W1 Hl W2 Hi Bf (Xk l' i' L' El j Ej) (Xk l i L Low j Ej')). }
  clear Xk. split.
  - split; cbn [s_fill s_table s_tsize s_total s_low f_table].
    + intros l' i' W' L' r Hr Hm. rewrite R3 by lia. now apply (T1 l' i').
    + intros l' i' W' L' Bf. destruct (Z.eq_dec l' l) as [El|Nl]; [destruct (Z.eq_dec i' i) as [Ei|Ni]|].
      * subst l' i'. exists b, (s_table s1). rewrite Low. split; [rewrite R3 by lia; exact A5|]. split; [lia|]. split; [lia|]. split; [lia|]. split; [|left; auto].
        intros j Hj Hm. now apply R1.
      * assert (Bf' : before l' i' l i) by (right; split; [assumption|destruct Bf; lia]).
        destruct (T2 l' i' W' L' Bf') as (b' & T' & S1 & S2 & S3 & S4 & S5 & S6). exists b', T'.
        pose proof (Z.mod_pos_bound (keyc l' i') (2 ^ rb) ltac:(lia)).
        split; [rewrite R3 by lia; exact S1|]. split; [exact S2|]. split; [exact S3|]. split; [exact S4|]. split; [|rewrite A2 in S6; exact S6].
        intros j Hj Hm. destruct S6 as [(Q1 & Q2 & Q3)|(Q1 & Q2)].
        -- subst T'. rewrite A2 in Q3. rewrite R2; [|clear - Hj Q3; lia|exact (Pf l' i' W' L' Bf' Q1 j Hm)].
           now apply S5.
        -- rewrite R3 by lia. now apply S5.
      * assert (Bf' : before l' i' l i) by (left; destruct Bf; lia).
        destruct (T2 l' i' W' L' Bf') as (b' & T' & S1 & S2 & S3 & S4 & S5 & S6). exists b', T'.
        pose proof (Z.mod_pos_bound (keyc l' i') (2 ^ rb) ltac:(lia)).
        split; [rewrite R3 by lia; exact S1|]. split; [exact S2|]. split; [exact S3|]. split; [exact S4|]. split; [|rewrite A2 in S6; exact S6].
        intros j Hj Hm. destruct S6 as [(Q1 & Q2 & Q3)|(Q1 & Q2)].
        -- subst T'. rewrite A2 in Q3. rewrite R2; [|clear - Hj Q3; lia|exact (Pf l' i' W' L' Bf' Q1 j Hm)].
           now apply S5.
        -- rewrite R3 by lia. now apply S5.
  - right. exists a, b, ie. unfold active. cbn [s_fill s_table s_tsize s_total s_low f_table].
    split; [exact Re|]. split; [exact A1|]. split; [reflexivity|]. split; [exact A3|]. split; [rewrite <- A2; exact A4|]. split; [rewrite R3 by lia; exact A5|].
    split; [|exact A7]. assert (Bf : before l i (rb + b) ie) by (apply st_lt_before; lia).
    pose proof (before_st cnt Hcnt l i (rb + b) ie ltac:(lia) ltac:(lia) Hi ltac:(lia) Bf) as Bs. unfold HuffCanon.st in *.
    pose proof (p2 (15 - l) ltac:(lia)). lia.
Qed.

Lemma sub_inner_ok l : rb < l <= 15 -> forall fuel i s, 0 <= i <= cnt l -> cnt l - i <= Z.of_nat fuel -> sub_inv l i s ->
  exists s', sub_inner fuel size n rb sorted l (2 ^ (l - rb)) (2 ^ rb - 1) s = Some s' /\ sub_inv l (cnt l) s'.
Proof.
  intros Hl. induction fuel as [|fuel IH]; intros i s Hi Hf I.
  - cbn [sub_inner]. pose proof I as ((K & Sy & Co & Co') & _). rewrite get_ok by lia. replace (f_count (s_fill s) l =? 0) with true by lia.
    exists s. split; [reflexivity|]. replace (cnt l) with i by lia. assumption.
  - cbn [sub_inner]. pose proof I as ((K & Sy & Co & Co') & _). rewrite get_ok by lia. destruct (f_count (s_fill s) l =? 0) eqn:Z0.
    + exists s. split; [reflexivity|]. replace (cnt l) with i by lia. assumption.
    + destruct (sub_step_ok l i s ltac:(split; lia) ltac:(lia) I) as (s1 & -> & I1 & _). apply (IH (i + 1)); [lia|lia|exact I1].
Qed.

Lemma sub_inv_next l s : rb < l <= 14 -> sub_inv l (cnt l) s -> sub_inv (l + 1) 0 s.
Proof.
  intros Hl (V & (T1 & T2) & FA). split; [apply (vars_next cnt Hcnt n sorted Hn l); [lia|exact V]|]. split.
  - split; [exact T1|]. intros l' i' W' L' Bf. apply T2; [assumption..|].
    destruct Bf as [Bf|(-> & Bf)]; [|destruct W'; lia].
    destruct (Z.eq_dec l' l) as [->|]; [right; split; [reflexivity|destruct W'; lia]|left; lia].
  - unfold fresh, active in *. rewrite (st_next cnt Hcnt l), (idx_next cnt Hcnt l) by lia. exact FA.
Qed.

Lemma sub_loop_ok m : rb <= m <= 15 -> forall fuel l s, rb < l <= m + 1 -> m - l < Z.of_nat fuel -> (l <= m -> sub_inv l 0 s) -> (m < l -> sub_inv m (cnt m) s) ->
  exists s', sub_loop fuel size n rb sorted l (2 ^ (l - rb)) (2 ^ rb - 1) m s = Some s' /\ sub_inv m (cnt m) s'.
Proof.
  intros Hm. induction fuel as [|fuel IH]; intros l s Hl Hf I I'.
  - assert (G : m < l) by lia. cbn [sub_loop]. replace (l <=? m) with false by lia. exists s. split; [reflexivity|auto].
  - cbn [sub_loop]. destruct (l <=? m) eqn:G; [|exists s; split; [reflexivity|apply I'; lia]].
    specialize (I ltac:(lia)). pose proof (Hn l ltac:(lia)). pose proof (off_nonneg cnt Hcnt l ltac:(lia)). pose proof (Hcnt l).
    destruct (sub_inner_ok l ltac:(lia) (Z.to_nat 32768) 0 s ltac:(lia) ltac:(lia) I) as (s1 & -> & I1).
    replace (Z.shiftl (2 ^ (l - rb)) 1) with (2 ^ (l + 1 - rb)).
    2:{ rewrite Z.shiftl_mul_pow2 by lia. replace (l + 1 - rb) with (l - rb + 1) by lia. rewrite Z.pow_add_r by lia. reflexivity. }
    apply IH; [lia|lia| |].
    + intros Hlt. apply sub_inv_next; [lia|exact I1].
    + intros ?. assert (l = m) as -> by lia. exact I1.
Qed.

End Sub.
