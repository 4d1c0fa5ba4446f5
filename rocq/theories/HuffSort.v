(* Counting sort of the symbols by length, and the numbers of words per length. *)
From Verif Require Import Base ListAux Wrap HuffModel HuffSpec HuffCanon.

Definition cntf (lengths : list Z) (l : Z) : Z := if l =? 0 then 0 else count_len l lengths.
Definition rank (lengths : list Z) (s l : Z) : Z := count_len l (firstn (Z.to_nat s) lengths).

Lemma count_len_nil l : count_len l [] = 0.
Proof. reflexivity. Qed.
Lemma count_len_cons l x t : count_len l (x :: t) = (if l =? x then 1 else 0) + count_len l t.
Proof. unfold count_len. cbn [filter]. destruct (l =? x); unfold zlen; cbn [length]; lia. Qed.
Lemma count_len_app l a b : count_len l (a ++ b) = count_len l a + count_len l b.
Proof. unfold count_len. rewrite filter_app, zlen_app. reflexivity. Qed.
Lemma count_len_nonneg l a : 0 <= count_len l a.
Proof. unfold count_len, zlen. lia. Qed.
Lemma count_len_le l a : count_len l a <= zlen a.
Proof. induction a as [|x a IH]; [cbn; lia|]. rewrite count_len_cons. unfold zlen in *. cbn [length]. destruct (l =? x); lia. Qed.
Lemma cntf_nonneg ls l : 0 <= cntf ls l.
Proof. unfold cntf. destruct (l =? 0); [lia|apply count_len_nonneg]. Qed.
Lemma cntf_0 ls : cntf ls 0 = 0.
Proof. reflexivity. Qed.
Lemma cntf_pos ls l : 0 < l -> cntf ls l = count_len l ls.
Proof. intros H. unfold cntf. replace (l =? 0) with false by lia. reflexivity. Qed.

Lemma firstn_snoc (ls : list Z) s l : znth ls s = Some l -> firstn (Z.to_nat (s + 1)) ls = firstn (Z.to_nat s) ls ++ [l].
Proof.
  unfold znth. destruct (s <? 0) eqn:E; [discriminate|]. intros H. replace (Z.to_nat (s + 1)) with (S (Z.to_nat s)) by lia.
  revert H. generalize (Z.to_nat s). clear. intros n. revert ls. induction n as [|n IH]; intros [|x ls]; cbn [nth_error]; try discriminate.
  - intros [= ->]. reflexivity.
  - intros H. rewrite (firstn_cons (S n)), IH by assumption. reflexivity.
Qed.
Lemma rank_lt ls s l : znth ls s = Some l -> 0 <= rank ls s l < count_len l ls.
Proof.
  intros H. split; [apply count_len_nonneg|]. unfold rank.
  rewrite <- (firstn_skipn (Z.to_nat (s + 1)) ls) at 2. rewrite (firstn_snoc _ _ _ H), !count_len_app.
  rewrite count_len_cons, Z.eqb_refl, count_len_nil. pose proof (count_len_nonneg l (skipn (Z.to_nat (s + 1)) ls)). lia.
Qed.

(* weights *)
Lemma zsum_app a b : zsum (a ++ b) = zsum a + zsum b.
Proof. induction a as [|x a IH]; cbn; [reflexivity|]. unfold zsum in *. lia. Qed.
Lemma zseq_snoc z n : zseq z (S n) = zseq z n ++ [z + Z.of_nat n].
Proof.
  revert z. induction n as [|n IH]; intros z; [cbn; now rewrite Z.add_0_r|].
  change (zseq z (S (S n))) with (z :: zseq (z + 1) (S n)). rewrite IH. change (zseq z (S n)) with (z :: zseq (z + 1) n).
  cbn [app]. do 3 f_equal. lia.
Qed.
Lemma C_sum ls l : 1 <= l <= 15 ->
  C (cntf ls) l * 2 ^ (15 - l) = zsum (map (fun k => 2 ^ (15 - k) * count_len k ls) (zseq 1 (Z.to_nat (l - 1)))).
Proof.
  intros Hl. assert (G : forall n : nat, Z.of_nat n <= 14 ->
    C (cntf ls) (Z.of_nat n + 1) * 2 ^ (14 - Z.of_nat n) = zsum (map (fun k => 2 ^ (15 - k) * count_len k ls) (zseq 1 n))).
  { induction n as [|n IH]; intros B; [reflexivity|]. rewrite zseq_snoc, map_app, zsum_app, <- IH by lia.
    replace (Z.of_nat (S n)) with (Z.of_nat n + 1) by lia. rewrite C_succ by lia. cbn [map zsum fold_right].
    rewrite cntf_pos by lia. replace (15 - (1 + Z.of_nat n)) with (14 - Z.of_nat n) by lia.
    replace (14 - Z.of_nat n) with (14 - (Z.of_nat n + 1) + 1) by lia. rewrite Z.pow_add_r by lia.
    replace (1 + Z.of_nat n) with (Z.of_nat n + 1) by lia. lia. }
  specialize (G (Z.to_nat (l - 1))). rewrite Z2Nat.id in G by lia. replace (l - 1 + 1) with l in G by lia.
  replace (14 - (l - 1)) with (15 - l) in G by lia. apply G. lia.
Qed.
Lemma start_st ls s l : 1 <= l <= 15 -> start ls s l = st (cntf ls) l (rank ls s l).
Proof. intros Hl. unfold start, st. rewrite <- C_sum by lia. unfold rank. lia. Qed.

Lemma zsum_count f x ls n :
  zsum (map (fun k => f k * count_len k (x :: ls)) (zseq 1 n)) =
  (if (1 <=? x) && (x <=? Z.of_nat n) then f x else 0) + zsum (map (fun k => f k * count_len k ls) (zseq 1 n)).
Proof.
  induction n as [|n IH].
  - replace ((1 <=? x) && (x <=? Z.of_nat 0)) with false by lia. reflexivity.
  - rewrite zseq_snoc, !map_app, !zsum_app, IH. unfold zsum at 2 4. cbn [map fold_right]. rewrite count_len_cons.
    destruct (Z.eqb_spec (1 + Z.of_nat n) x) as [<-|N].
    + replace ((1 <=? 1 + Z.of_nat n) && (1 + Z.of_nat n <=? Z.of_nat n)) with false by lia.
      replace ((1 <=? 1 + Z.of_nat n) && (1 + Z.of_nat n <=? Z.of_nat (S n))) with true by lia. lia.
    + replace ((1 <=? x) && (x <=? Z.of_nat (S n))) with ((1 <=? x) && (x <=? Z.of_nat n)) by lia. lia.
Qed.
Lemma weights ls : lengths_ok ls ->
  zsum (map (fun l => if l =? 0 then 0 else 2 ^ (15 - l)) ls) = zsum (map (fun k => 2 ^ (15 - k) * count_len k ls) (zseq 1 15)).
Proof.
  induction 1 as [|x ls Hx H IH]; [reflexivity|].
  rewrite (zsum_count (fun k => 2 ^ (15 - k))). rewrite <- IH. unfold zsum at 1. cbn [map fold_right]. f_equal.
  destruct (Z.eqb_spec x 0) as [->|]; [reflexivity|]. replace ((1 <=? x) && (x <=? Z.of_nat 15)) with true by lia. reflexivity.
Qed.
Lemma complete_kraft ls : lengths_ok ls -> complete ls -> C (cntf ls) 15 + cntf ls 15 = 2 ^ 15.
Proof.
  intros Hok Hc. unfold complete in Hc. rewrite (weights ls Hok) in Hc. rewrite zseq_snoc, map_app, zsum_app in Hc.
  pose proof (C_sum ls 15 ltac:(lia)) as E. change (Z.to_nat (15 - 1)) with 14%nat in E. rewrite <- E in Hc.
  change (map (fun k => 2 ^ (15 - k) * count_len k ls) [1 + Z.of_nat 14]) with [1 * count_len 15 ls] in Hc.
  change (2 ^ (15 - 15)) with 1 in Hc. rewrite (cntf_pos ls 15) by lia. unfold zsum in Hc. cbn [fold_right] in Hc. lia.
Qed.

Lemma off_sum ls (n : nat) : off (cntf ls) (Z.of_nat n + 1) = zsum (map (fun k => 1 * count_len k ls) (zseq 1 n)).
Proof.
  induction n as [|n IH]; [reflexivity|]. rewrite zseq_snoc, map_app, zsum_app, <- IH.
  replace (Z.of_nat (S n)) with (Z.of_nat n + 1) by lia. rewrite off_succ by lia. unfold zsum. cbn [map fold_right].
  rewrite cntf_pos by lia. replace (1 + Z.of_nat n) with (Z.of_nat n + 1) by lia. lia.
Qed.
Lemma off_total ls : off (cntf ls) 16 <= zlen ls.
Proof.
  change 16 with (Z.of_nat 15 + 1). rewrite off_sum. induction ls as [|x ls IH].
  - unfold zsum. rewrite (map_ext _ (fun _ => 0)) by (intros; rewrite count_len_nil; lia). cbn. lia.
  - rewrite (zsum_count (fun _ => 1)). unfold zlen in *. cbn [length]. destruct (_ && _); lia.
Qed.
Lemma off_mono ls l l' : 0 <= l <= l' -> off (cntf ls) l <= off (cntf ls) l'.
Proof.
  intros H. replace l' with (l + Z.of_nat (Z.to_nat (l' - l))) by lia. induction (Z.to_nat (l' - l)) as [|d IH]; [rewrite Z.add_0_r; lia|].
  replace (l + Z.of_nat (S d)) with (l + Z.of_nat d + 1) by lia. rewrite off_succ by lia. pose proof (cntf_nonneg ls (l + Z.of_nat d)). lia.
Qed.
Lemma off_cnt_le ls l : 0 <= l <= 15 -> off (cntf ls) l + cntf ls l <= zlen ls.
Proof. intros H. rewrite <- off_succ by lia. pose proof (off_mono ls (l + 1) 16 ltac:(lia)). pose proof (off_total ls). lia. Qed.

(* offsets *)
Definition max_spec (ls : list Z) (m : Z) : Prop :=
  1 <= m <= 15 /\ (m = 1 \/ 0 < cntf ls m) /\ forall l, m < l <= 15 -> cntf ls l = 0.

Lemma offsets_loop_ok ls count : zlen ls <= 2 ^ 15 -> (forall l, 1 <= l <= 15 -> count l = cntf ls l) ->
  forall n len m offset, 1 <= len -> len + Z.of_nat n = 16 ->
  1 <= m <= 15 -> m <= Z.max 1 (len - 1) -> (m = 1 \/ 0 < cntf ls m) -> (forall l, m < l < len -> cntf ls l = 0) ->
  (forall l, 1 <= l < len -> offset l = off (cntf ls) l) ->
  exists m' offset', offsets_loop n count len (off (cntf ls) len) m offset = Some (m', offset') /\ max_spec ls m' /\
    forall l, 1 <= l <= 15 -> offset' l = off (cntf ls) l.
Proof.
  intros Hn Hc. induction n as [|n IH]; intros len m offset Hlen E Hm Hm1 Hm2 Hm3 Hoff.
  - cbn [offsets_loop]. eexists _, _. split; [reflexivity|]. split; [|intros l Hl; apply Hoff; lia].
    split; [lia|]. split; [assumption|]. intros l Hl. apply Hm3. lia.
  - cbn [offsets_loop]. rewrite set_ok, get_ok, Hc by lia.
    pose proof (off_cnt_le ls len ltac:(lia)) as B. pose proof (off_nonneg (cntf ls) (cntf_nonneg ls) len ltac:(lia)).
    pose proof (cntf_nonneg ls len).
    assert (Hoff' : forall l, 1 <= l < len + 1 -> (fun j => if j =? len then off (cntf ls) len else offset j) l = off (cntf ls) l).
    { intros l Hl. cbv beta. destruct (Z.eqb_spec l len) as [->|]; [reflexivity|]. apply Hoff. lia. }
    set (o' := fun j => if j =? len then off (cntf ls) len else offset j) in *. clearbody o'.
    destruct (cntf ls len =? 0) eqn:Z0.
    + replace (off (cntf ls) len) with (off (cntf ls) (len + 1)) by (rewrite off_succ by lia; lia).
      apply IH; try lia; try assumption.
      intros l Hl. destruct (Z.eq_dec l len) as [->|]; [lia|]. apply Hm3. lia.
    + replace (w16 (off (cntf ls) len + cntf ls len)) with (off (cntf ls) (len + 1)).
      2:{ rewrite off_succ by lia. unfold w16. rewrite Z.mod_small; lia. }
      apply IH; try lia; try assumption.
Qed.

(* sorting *)
Lemma off_disjoint ls l l' i i' : 1 <= l <= 15 -> 1 <= l' <= 15 -> 0 <= i < cntf ls l -> 0 <= i' < cntf ls l' ->
  off (cntf ls) l + i = off (cntf ls) l' + i' -> l = l' /\ i = i'.
Proof.
  intros Hl Hl' Hi Hi' E.
  assert (l = l') as <-; [|split; [reflexivity|lia]].
  destruct (Z.lt_trichotomy l l') as [L|[L|L]]; [|assumption|].
  - pose proof (off_mono ls (l + 1) l' ltac:(lia)) as M. rewrite off_succ in M by lia. lia.
  - pose proof (off_mono ls (l' + 1) l ltac:(lia)) as M. rewrite off_succ in M by lia. lia.
Qed.

Definition sorted_upto (ls pre : list Z) (sorted : Z -> Z) : Prop :=
  forall s l, znth pre s = Some l -> 1 <= l -> sorted (off (cntf ls) l + rank ls s l) = s.

Lemma znth_lt (ls : list Z) s l : znth ls s = Some l -> 0 <= s < zlen ls.
Proof.
  unfold znth. destruct (s <? 0) eqn:E; [discriminate|]. intros H. assert (nth_error ls (Z.to_nat s) <> None) as N by congruence.
  apply nth_error_Some in N. unfold zlen. lia.
Qed.
Lemma znth_snoc (pre : list Z) x s l : znth (pre ++ [x]) s = Some l -> (znth pre s = Some l) \/ (s = zlen pre /\ l = x).
Proof.
  intros H. pose proof (znth_lt _ _ _ H) as B. rewrite zlen_app in B. change (zlen [x]) with 1 in B. unfold znth in *.
  replace (s <? 0) with false in * by lia. destruct (Z.ltb_spec s (zlen pre)) as [L|L].
  - left. rewrite nth_error_app1 in H by (unfold zlen in L; lia). assumption.
  - right. split; [lia|]. rewrite nth_error_app2 in H by (unfold zlen in *; lia).
    replace (Z.to_nat s - length pre)%nat with 0%nat in H by (unfold zlen in *; lia). cbn in H. congruence.
Qed.

Lemma sort_loop_ok ls : zlen ls <= 2 ^ 15 -> lengths_ok ls -> forall suf pre offset sorted, ls = pre ++ suf ->
  (forall l, 1 <= l <= 15 -> offset l = off (cntf ls) l + count_len l pre) -> sorted_upto ls pre sorted ->
  exists offset' sorted', sort_loop (zlen ls) suf (zlen pre) offset sorted = Some (offset', sorted') /\
    (forall l, 1 <= l <= 15 -> offset' l = off (cntf ls) l + count_len l ls) /\ sorted_upto ls ls sorted'.
Proof.
  intros Hn Hok. induction suf as [|x suf IH]; intros pre offset sorted E Hoff Hs.
  - rewrite app_nil_r in E. subst pre. cbn [sort_loop]. eauto.
  - cbn [sort_loop]. assert (E' : ls = (pre ++ [x]) ++ suf) by (rewrite <- app_assoc; exact E).
    assert (Hx : 0 <= x <= 15). { rewrite E in Hok. apply Forall_app in Hok. destruct Hok as (_ & Hok). now inversion Hok. }
    assert (Hz : zlen (pre ++ [x]) = zlen pre + 1) by (rewrite zlen_app; reflexivity).
    assert (Hzl : zlen pre + 1 <= zlen ls) by (rewrite E', zlen_app, Hz; pose proof (zlen_nonneg suf); lia).
    pose proof (zlen_nonneg pre) as Hp.
    assert (Hcl : forall l, count_len l (pre ++ [x]) = count_len l pre + (if l =? x then 1 else 0)).
    { intros l. rewrite count_len_app, count_len_cons, count_len_nil. lia. }
    rewrite <- Hz. destruct (x =? 0) eqn:X0.
    + apply IH; [assumption| |].
      * intros l Hl. rewrite Hoff, Hcl by lia. replace (l =? x) with false by lia. lia.
      * intros s l Hsl Hl1. apply znth_snoc in Hsl. destruct Hsl as [Hsl|(-> & ->)]; [now apply Hs|lia].
    + assert (Hzx : znth ls (zlen pre) = Some x).
      { rewrite E. unfold znth, zlen. replace (Z.of_nat (length pre) <? 0) with false by lia. rewrite Nat2Z.id, nth_error_app2, Nat.sub_diag by lia. reflexivity. }
      assert (Hrx : rank ls (zlen pre) x = count_len x pre).
      { unfold rank. rewrite E. unfold zlen. rewrite Nat2Z.id, firstn_app, Nat.sub_diag, firstn_all. cbn [firstn]. now rewrite app_nil_r. }
      pose proof (rank_lt ls (zlen pre) x Hzx) as R. rewrite Hrx in R.
      pose proof (off_cnt_le ls x ltac:(lia)) as B. pose proof (off_nonneg (cntf ls) (cntf_nonneg ls) x ltac:(lia)).
      rewrite cntf_pos in B by lia.
      rewrite get_ok, Hoff by lia. rewrite set_ok by lia. rewrite set_ok by lia.
      assert (W : forall y, 0 <= y <= 2 ^ 15 -> w16 y = y) by (intros y Hy; unfold w16; apply Z.mod_small; lia).
      rewrite !W by lia. clear W.
      apply IH; [assumption| |].
      * intros l Hl. rewrite Hcl. cbv beta. destruct (Z.eqb_spec l x) as [->|]; [lia|]. rewrite Hoff by lia. lia.
      * intros s l Hsl Hl1. pose proof (znth_lt _ _ _ Hsl) as Bs. rewrite Hz in Bs. apply znth_snoc in Hsl. cbv beta. destruct Hsl as [Hsl|(-> & ->)].
        -- pose proof (znth_lt _ _ _ Hsl) as Bs'.
           assert (Hl15 : l <= 15). { rewrite E in Hok. apply Forall_app in Hok. destruct Hok as (Hok & _). rewrite Forall_forall in Hok.
             specialize (Hok l). unfold znth in Hsl. replace (s <? 0) with false in Hsl by lia. apply nth_error_In in Hsl. specialize (Hok Hsl). lia. }
           assert (Hsl2 : znth ls s = Some l).
           { rewrite E. unfold znth in *. destruct (s <? 0); [discriminate|]. rewrite nth_error_app1; [assumption|]. unfold zlen in Bs'. lia. }
           pose proof (rank_lt ls s l Hsl2) as R2.
           destruct (off (cntf ls) l + rank ls s l =? off (cntf ls) x + count_len x pre) eqn:Q; [|now apply Hs].
           exfalso. apply Z.eqb_eq in Q. apply off_disjoint in Q; rewrite ?cntf_pos by lia; try lia. destruct Q as (-> & Q).
           assert (rank ls s x < count_len x pre); [|lia].
           assert (rank ls s x = rank pre s x) as ->.
           { unfold rank. rewrite E, firstn_app. replace (Z.to_nat s - length pre)%nat with 0%nat by (unfold zlen in *; lia). cbn [firstn]. now rewrite app_nil_r. }
           now apply rank_lt.
        -- rewrite Hrx, Z.eqb_refl. reflexivity.
Qed.
