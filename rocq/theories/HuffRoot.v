(* Filling the root table. *)
From Verif Require Import Base ListAux Wrap HuffModel HuffSpec HuffCanon.

Lemma p2 k : 0 <= k -> 0 < 2 ^ k.
Proof. intros H. apply Z.pow_pos_nonneg; lia. Qed.
Lemma p2_split a b : 0 <= a <= b -> 2 ^ b = 2 ^ (b - a) * 2 ^ a.
Proof. intros H. rewrite <- Z.pow_add_r by lia. f_equal. lia. Qed.
Lemma p2_le a b : a <= b -> 2 ^ a <= 2 ^ b.
Proof. intros H. apply Z.pow_le_mono_r; lia. Qed.
Lemma mod_mod_p2 x a b : 0 <= a <= b -> (x mod 2 ^ b) mod 2 ^ a = x mod 2 ^ a.
Proof.
  intros H. rewrite (p2_split a b) by lia. rewrite (Z.mul_comm (2 ^ (b - a))).
  pose proof (p2 a ltac:(lia)). pose proof (p2 (b - a) ltac:(lia)).
  rewrite Z.rem_mul_r by lia. rewrite (Z.mul_comm (2 ^ a)), Z.mod_add, Z.mod_mod by lia. reflexivity.
Qed.

(* ---- ReplicateValue ---- *)
Definition hits (base step end_ j : Z) : Prop := base <= j < base + end_ /\ (j - base) mod step = 0.

Lemma replicate_value_ok size step base code : 0 < step -> 0 <= base ->
  forall fuel m t, 0 < m <= Z.of_nat fuel -> base + m * step - step < size ->
  exists t', replicate_value fuel size t base step (m * step) code = Some t' /\
    forall j, (hits base step (m * step) j -> t' j = code) /\ (~ hits base step (m * step) j -> t' j = t j).
Proof.
  intros Hs Hb. induction fuel as [|fuel IH]; intros m t Hm B; [lia|]. cbn [replicate_value].
  replace (m * step - step) with ((m - 1) * step) by lia.
  assert (0 <= (m - 1) * step) by (apply Z.mul_nonneg_nonneg; lia).
  rewrite set_ok by lia. destruct (0 <? (m - 1) * step) eqn:G.
  - assert (1 < m). { destruct (Z.ltb_spec 1 m) as [|L]; [assumption|]. replace m with 1 in G by lia. lia. }
    destruct (IH (m - 1) (fun j => if j =? base + (m - 1) * step then code else t j) ltac:(lia) ltac:(lia)) as (t' & E & Ht').
    exists t'. split; [exact E|]. intros j. destruct (Ht' j) as (P & Q). unfold hits in *. split.
    + intros (R & M0). destruct (Z.eq_dec j (base + (m - 1) * step)) as [->|N].
      * rewrite Q; [rewrite Z.eqb_refl; reflexivity|lia].
      * apply P. split; [|assumption]. split; [lia|]. apply Z.mod_divide in M0; [|lia]. destruct M0 as (k & K).
        assert (k <= m - 1) by nia. assert (k <> m - 1) by (intros ->; lia). nia.
    + intros N. rewrite Q.
      * destruct (Z.eqb_spec j (base + (m - 1) * step)) as [->|]; [|reflexivity]. exfalso. apply N. split; [lia|].
        replace (base + (m - 1) * step - base) with ((m - 1) * step) by lia. apply Z.mod_mul. lia.
      * intros (R & M0). apply N. split; [lia|assumption].
  - assert (m = 1) as ->. { destruct (Z.eq_dec m 1) as [|N]; [assumption|]. exfalso. assert (1 * 1 <= (m - 1) * step) by (apply Z.mul_le_mono_nonneg; lia). lia. }
    eexists. split; [reflexivity|]. intros j. unfold hits. cbv beta. replace (base + (1 - 1) * step) with base by lia. split.
    + intros (R & M0). destruct (Z.eqb_spec j base) as [|N]; [reflexivity|]. rewrite Z.mod_small in M0 by lia. lia.
    + intros N. destruct (Z.eqb_spec j base) as [->|]; [|reflexivity]. exfalso. apply N. split; [lia|]. rewrite Z.sub_diag. now rewrite Z.mod_0_l by lia.
Qed.
(* with powers of two, and the base taken modulo the step *)
Lemma replicate_ok size t tbl base l b code : 0 <= l <= b -> 0 <= base < 2 ^ l -> 0 <= tbl -> tbl + 2 ^ b <= size ->
  exists t', replicate size t (tbl + base) (2 ^ l) (2 ^ b) code = Some t' /\
    (forall j, 0 <= j < 2 ^ b -> j mod 2 ^ l = base -> t' (tbl + j) = code) /\
    (forall j, 0 <= j < 2 ^ b -> j mod 2 ^ l <> base -> t' (tbl + j) = t (tbl + j)) /\
    (forall j, j < tbl \/ tbl + 2 ^ b <= j -> t' j = t j).
Proof.
  intros Hl Hb Ht B. pose proof (p2 l ltac:(lia)) as Pl. pose proof (p2 b ltac:(lia)) as Pb. pose proof (p2 (b - l) ltac:(lia)) as Pd.
  unfold replicate.
  assert (F : 2 ^ (b - l) <= 2 ^ b) by (apply p2_le; lia).
  destruct (replicate_value_ok size (2 ^ l) (tbl + base) code Pl ltac:(lia) (S (Z.to_nat (2 ^ b))) (2 ^ (b - l)) t ltac:(lia)) as (t' & E & Ht').
  { rewrite <- p2_split by lia. lia. }
  rewrite <- p2_split in Ht' by lia. rewrite <- p2_split in E by lia. exists t'. split; [exact E|].
  assert (Hh : forall j, hits (tbl + base) (2 ^ l) (2 ^ b) (tbl + j) <-> 0 <= j < 2 ^ b /\ j mod 2 ^ l = base).
  { intros j. unfold hits. replace (tbl + j - (tbl + base)) with (j - base) by lia. split.
    - intros (R & M0). apply Z.mod_divide in M0; [|lia]. destruct M0 as (k & K). assert (j = base + k * 2 ^ l) as -> by lia.
      assert (0 <= k) by nia. assert (k < 2 ^ (b - l)). { rewrite (p2_split l b) in R by lia. nia. }
      split; [|rewrite Z.mod_add, Z.mod_small by lia; reflexivity].
      split; [nia|]. assert ((k + 1) * 2 ^ l <= 2 ^ (b - l) * 2 ^ l) by (apply Z.mul_le_mono_nonneg_r; lia).
      rewrite <- p2_split in H1 by lia. lia.
    - intros (R & M0). pose proof (Z.div_mod j (2 ^ l) ltac:(lia)) as D. rewrite M0 in D.
      assert (0 <= j / 2 ^ l) by (apply Z.div_pos; lia). split; [nia|].
      replace (j - base) with (j / 2 ^ l * 2 ^ l) by lia. apply Z.mod_mul. lia. }
  split; [|split].
  - intros j Hj M. apply Ht', Hh. auto.
  - intros j Hj M. apply Ht'. rewrite Hh. intros (_ & M'). contradiction.
  - intros j Hj. apply Ht'. replace j with (tbl + (j - tbl)) by lia. rewrite Hh. lia.
Qed.

(* ---- memcpy doubling ---- *)
Lemma copy_range_ok size : forall count t dst src, 0 <= src -> src + Z.of_nat count <= dst -> dst + Z.of_nat count <= size ->
  exists t', copy_range count size t dst src = Some t' /\
    (forall j, 0 <= j < Z.of_nat count -> t' (dst + j) = t (src + j)) /\
    (forall j, j < dst \/ dst + Z.of_nat count <= j -> t' j = t j).
Proof.
  induction count as [|c IH]; intros t dst src Hs Hd Hz; cbn [copy_range].
  - exists t. split; [reflexivity|]. split; intros; [lia|reflexivity].
  - rewrite get_ok, set_ok by lia.
    destruct (IH (fun j => if j =? dst then t src else t j) (dst + 1) (src + 1) ltac:(lia) ltac:(lia) ltac:(lia)) as (t' & E & A & B).
    exists t'. split; [exact E|]. split.
    + intros j Hj. destruct (Z.eq_dec j 0) as [->|N].
      * rewrite B by lia. rewrite !Z.add_0_r, Z.eqb_refl. reflexivity.
      * replace (dst + j) with (dst + 1 + (j - 1)) by lia. rewrite A by lia.
        replace (src + 1 + (j - 1) =? dst) with false by lia. f_equal. lia.
    + intros j Hj. rewrite B by lia. replace (j =? dst) with false by lia. reflexivity.
Qed.
Lemma double_loop_ok size tb rb : 0 <= tb <= rb -> 2 ^ rb <= size -> forall (t0 : Z -> Z * Z) fuel k t, tb <= k <= rb -> rb - k <= Z.of_nat fuel ->
  (forall r, 0 <= r < 2 ^ k -> t r = t0 (r mod 2 ^ tb)) ->
  exists t', double_loop fuel size t (2 ^ k) (2 ^ rb) = Some t' /\ forall r, 0 <= r < 2 ^ rb -> t' r = t0 (r mod 2 ^ tb).
Proof.
  intros Htb Hz t0. induction fuel as [|fuel IH]; intros k t Hk Hf Ht.
  - replace k with rb in * by lia. cbn [double_loop]. rewrite Z.eqb_refl. eauto.
  - cbn [double_loop]. destruct (Z.eqb_spec (2 ^ k) (2 ^ rb)) as [E|N].
    + exists t. split; [reflexivity|]. rewrite <- E. assumption.
    + assert (k < rb). { destruct (Z.eq_dec k rb) as [->|]; [congruence|lia]. }
      pose proof (p2 k ltac:(lia)) as P. assert (P' : 2 ^ (k + 1) = 2 * 2 ^ k) by (rewrite Z.pow_add_r by lia; lia).
      pose proof (p2_le (k + 1) rb ltac:(lia)) as L.
      destruct (copy_range_ok size (Z.to_nat (2 ^ k)) t (2 ^ k) 0 ltac:(lia) ltac:(lia) ltac:(lia)) as (t1 & -> & A & B).
      replace (Z.shiftl (2 ^ k) 1) with (2 ^ (k + 1)) by (rewrite Z.shiftl_mul_pow2 by lia; lia).
      apply IH; [lia|lia|]. intros r Hr. destruct (Z.ltb_spec r (2 ^ k)).
      * rewrite B by lia. apply Ht. lia.
      * replace r with (2 ^ k + (r - 2 ^ k)) at 1 by lia. rewrite A by lia. rewrite Z.add_0_l, Ht by lia. f_equal.
        rewrite (p2_split tb k) by lia. pose proof (p2 tb ltac:(lia)).
        replace (r - 2 ^ (k - tb) * 2 ^ tb) with (r + (- 2 ^ (k - tb)) * 2 ^ tb) by lia. apply Z.mod_add. lia.
Qed.
Lemma fill_all_ok size code : forall count t key, 0 <= key -> key + Z.of_nat count <= size ->
  exists t', fill_all count size t key code = Some t' /\
    (forall j, key <= j < key + Z.of_nat count -> t' j = code) /\ (forall j, j < key -> t' j = t j).
Proof.
  induction count as [|c IH]; intros t key Hk Hz; cbn [fill_all].
  - exists t. repeat split; intros; try reflexivity; lia.
  - rewrite set_ok by lia. destruct (IH (fun j => if j =? key then code else t j) (key + 1) ltac:(lia) ltac:(lia)) as (t' & E & A & B).
    exists t'. split; [exact E|]. split.
    + intros j Hj. destruct (Z.eq_dec j key) as [->|]; [|apply A; lia]. rewrite B by lia. now rewrite Z.eqb_refl.
    + intros j Hj. rewrite B by lia. replace (j =? key) with false by lia. reflexivity.
Qed.

(* ---- the root table ---- *)
Section Root.
Variable cnt : Z -> Z.
Hypothesis Hcnt : forall l, 0 <= cnt l.
Hypothesis Hkraft : C cnt 15 + cnt 15 = 2 ^ 15.
Variable n : Z.
Variable sorted : Z -> Z.
Hypothesis Hn : forall l, 0 <= l <= 15 -> off cnt l + cnt l <= n.
Hypothesis Hn15 : n <= 2 ^ 15.

Definition keyc (l i : Z) : Z := rv l (C cnt l + i).
Definition sym (l i : Z) : Z := sorted (off cnt l + i).
Definition word (l i : Z) : Prop := 1 <= l <= 15 /\ 0 <= i < cnt l.

(* the loop variables at position (l, i) *)
Definition vars_at (l i : Z) (f : fill) : Prop :=
  (C cnt l + i < 2 ^ l -> f_key f = keyc l i) /\ f_symbol f = off cnt l + i /\
  f_count f l = cnt l - i /\ (forall l', l < l' <= 15 -> f_count f l' = cnt l').

Lemma cnt_le l : 0 <= l <= 15 -> cnt l <= n.
Proof. intros H. pose proof (Hn l H). pose proof (off_nonneg cnt Hcnt l ltac:(lia)). lia. Qed.

Lemma keyc_range l i : 0 <= l -> 0 <= keyc l i < 2 ^ l.
Proof. intros H. unfold keyc. now apply rv_range. Qed.

(* moving to the next word, whatever happens to the table *)
Lemma vars_step l i f t : word l i -> vars_at l i f ->
  f_key f = keyc l i /\
  exists key', get_next_key (f_key f) l = Some key' /\
    vars_at l (i + 1) (Fill t (fun j => if j =? l then w16 (f_count f l - 1) else f_count f j) key' (f_symbol f + 1)).
Proof.
  intros (Hl & Hi) (K & Sy & Co & Co').
  pose proof (code_range_lt cnt Hcnt Hkraft l i ltac:(lia) Hi) as R. specialize (K ltac:(lia)). split; [exact K|].
  assert (X : exists key', get_next_key (f_key f) l = Some key' /\ (C cnt l + (i + 1) < 2 ^ l -> key' = keyc l (i + 1))).
  { rewrite K. unfold keyc. destruct (Z.ltb_spec (C cnt l + i + 1) (2 ^ l)) as [L|L].
    - rewrite next_key_ok by lia. eexists. split; [reflexivity|]. intros _. f_equal. lia.
    - replace (C cnt l + i) with (2 ^ l - 1) by lia. destruct (last_key_ok l Hl) as (k & E). exists k. split; [exact E|]. lia. }
  destruct X as (key' & E & Hk). exists key'. split; [exact E|]. unfold vars_at. cbn [f_key f_symbol f_count].
  split; [exact Hk|]. split; [lia|]. split.
  - rewrite Z.eqb_refl. pose proof (cnt_le l ltac:(lia)). rewrite Co. unfold w16. rewrite Z.mod_small; lia.
  - intros l' Hl'. replace (l' =? l) with false by lia. now apply Co'.
Qed.
Lemma vars_next l f : 1 <= l <= 14 -> vars_at l (cnt l) f -> vars_at (l + 1) 0 f.
Proof.
  intros Hl (K & Sy & Co & Co'). unfold vars_at. rewrite C_succ, off_succ, !Z.add_0_r by lia.
  assert (2 ^ (l + 1) = 2 * 2 ^ l) by (rewrite Z.pow_add_r by lia; lia).
  split; [|split; [assumption|split]].
  - intros B. rewrite K by lia. unfold keyc. rewrite C_succ, Z.add_0_r by lia. rewrite (Z.mul_comm 2).
    change 2 with (2 ^ 1). rewrite rv_shift by lia. reflexivity.
  - rewrite Co' by lia. lia.
  - intros l' Hl'. apply Co'. lia.
Qed.

Definition root_ok (tb : Z) (t : Z -> Z * Z) (l' i' : Z) : Prop :=
  forall r, 0 <= r < 2 ^ tb -> r mod 2 ^ l' = keyc l' i' -> t r = (l', sym l' i').
Definition root_inv (tb l i : Z) (f : fill) : Prop :=
  vars_at l i f /\ forall l' i', word l' i' -> before l' i' l i -> root_ok tb (f_table f) l' i'.

Lemma word_index l i : word l i -> 0 <= off cnt l + i < n.
Proof. intros (Hl & Hi). pose proof (off_nonneg cnt Hcnt l ltac:(lia)). pose proof (Hn l ltac:(lia)). lia. Qed.

Lemma root_inner_ok size tb : 1 <= tb <= 15 -> 2 ^ tb <= size -> forall l, 1 <= l <= tb -> forall fuel i f,
  0 <= i <= cnt l -> cnt l - i <= Z.of_nat fuel -> root_inv tb l i f ->
  exists f', root_inner fuel size n sorted l (2 ^ l) (2 ^ tb) f = Some f' /\ root_inv tb l (cnt l) f'.
Proof.
  intros Htb Hsz l Hl. induction fuel as [|fuel IH]; intros i f Hi Hf (V & T).
  - cbn [root_inner]. pose proof V as (K & Sy & Co & Co'). rewrite get_ok by lia. replace (f_count f l =? 0) with true by lia.
    exists f. split; [reflexivity|]. replace (cnt l) with i by lia. split; assumption.
  - cbn [root_inner]. pose proof V as (K & Sy & Co & Co'). rewrite get_ok by lia. destruct (f_count f l =? 0) eqn:Z0.
    + exists f. split; [reflexivity|]. replace (cnt l) with i by lia. split; assumption.
    + assert (Wd : word l i) by (split; lia). pose proof (word_index l i Wd) as Ix.
      rewrite Sy, get_ok by lia. fold (sym l i).
      pose proof (keyc_range l i ltac:(lia)) as Kr.
      destruct (replicate_ok size (f_table f) 0 (keyc l i) l tb (l, sym l i) ltac:(lia) Kr ltac:(lia) ltac:(lia)) as (t' & E & A & B & _).
      destruct (vars_step l i f t' Wd V) as (Ke & key' & Ek & V').
      rewrite <- Ke in E. rewrite Z.add_0_l in E. rewrite E, Ek. rewrite set_ok by lia. rewrite Sy in V'.
      apply (IH (i + 1)); [lia|lia|]. split; [exact V'|]. cbn [f_table].
      intros l' i' W' Bf r Hr Hm. destruct (Z.eq_dec (r mod 2 ^ l) (keyc l i)) as [M|M].
      * assert (l' = l /\ i' = i) as (-> & ->).
        { destruct Bf as [Bf|(-> & Bf)].
          - exfalso. destruct W' as (W1 & W2). apply (prefix_free cnt Hcnt Hkraft l' i' l i r); try assumption; try lia. left. lia.
          - split; [reflexivity|]. destruct (Z.eq_dec i' i) as [|Ne]; [assumption|]. exfalso. destruct W' as (W1 & W2).
            apply (prefix_free cnt Hcnt Hkraft l i' l i r); try assumption; try lia. right. lia. }
        specialize (A r Hr M). rewrite Z.add_0_l in A. exact A.
      * specialize (B r Hr M). rewrite !Z.add_0_l in B. rewrite B. apply (T l' i' W'); try assumption.
        destruct Bf as [Bf|(-> & Bf)]; [left; assumption|]. right. split; [reflexivity|].
        destruct (Z.eq_dec i' i) as [->|]; [contradiction|lia].
Qed.
Lemma root_loop_ok size tb : 1 <= tb <= 15 -> 2 ^ tb <= size -> forall fuel l f, 1 <= l <= tb -> tb - l < Z.of_nat fuel -> root_inv tb l 0 f ->
  exists f', root_loop fuel size n sorted l (2 ^ l) tb (2 ^ tb) f = Some f' /\ root_inv tb tb (cnt tb) f'.
Proof.
  intros Htb Hsz. induction fuel as [|fuel IH]; intros l f Hl Hf I; [lia|]. cbn [root_loop].
  pose proof (cnt_le l ltac:(lia)). pose proof (Hcnt l).
  destruct (root_inner_ok size tb Htb Hsz l Hl (Z.to_nat 32768) 0 f ltac:(lia) ltac:(lia) I) as (f1 & -> & I1).
  destruct (l + 1 <=? tb) eqn:G.
  - replace (Z.shiftl (2 ^ l) 1) with (2 ^ (l + 1)) by (rewrite Z.shiftl_mul_pow2, Z.pow_add_r by lia; reflexivity).
    apply IH; [lia|lia|]. destruct I1 as (V & T). split; [apply vars_next; [lia|assumption]|].
    intros l' i' W' Bf. apply T; [assumption|]. destruct Bf as [Bf|(-> & Bf)]; [|destruct W'; lia].
    destruct (Z.eq_dec l' l) as [->|]; [right; split; [reflexivity|destruct W'; lia]|left; lia].
  - assert (l = tb) as -> by lia. exists f1. split; [reflexivity|assumption].
Qed.

End Root.
