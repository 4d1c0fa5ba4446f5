(* Shuffle and Unshuffle visit every index exactly once, in the same order *)
From Coq Require Import Permutation.
From Verif Require Import Base OMap IccModel IccAux.
Ltac Zify.zify_post_hook ::= idtac.

Section Columns.
Variables n h : Z.
Hypothesis H1 : 1 <= h.
Hypothesis H2 : h <= n.
Definition is_mod (s x : Z) : bool := x mod h =? s.
Definition column (s j : Z) : list Z := filter (is_mod s) (zseq j (Z.to_nat (n - j))).
Lemma zseq_app a p q : zseq a (p + q) = zseq a p ++ zseq (a + Z.of_nat p) q.
Proof. revert a. induction p as [|p IH]; intros a; [cbn; f_equal; lia|]. cbn [Nat.add zseq app]. rewrite IH. do 2 f_equal. f_equal. lia. Qed.
Lemma filter_none {A} (f : A -> bool) l : (forall x, In x l -> f x = false) -> filter f l = [].
Proof. induction l as [|a l IH]; intros H; [reflexivity|]. cbn. rewrite (H a) by (left; reflexivity). apply IH. intros. apply H. right. assumption. Qed.
Lemma between s j x : j mod h = s -> j < x < j + h -> is_mod s x = false.
Proof.
  intros M R. unfold is_mod. apply Z.eqb_neq. intros E. assert (K : (x - j) mod h = 0) by (rewrite Zminus_mod, E, M, Z.sub_diag; apply Z.mod_0_l; lia).
  rewrite Z.mod_small in K by lia. lia.
Qed.
Lemma column_step s j : j mod h = s -> j < n -> column s j = j :: (if n <=? j + h then [] else column s (j + h)).
Proof.
  intros M L. unfold column. replace (Z.to_nat (n - j)) with (Datatypes.S (Z.to_nat (n - j - 1))) by lia. cbn [zseq filter].
  replace (is_mod s j) with true by (symmetry; apply Z.eqb_eq; exact M). f_equal. destruct (Z.leb_spec n (j + h)).
  - apply filter_none. intros x I. apply zseq_in in I. apply (between s j); [exact M|lia].
  - replace (Z.to_nat (n - j - 1)) with (Z.to_nat (h - 1) + Z.to_nat (n - (j + h)))%nat by lia. rewrite zseq_app, filter_app.
    rewrite filter_none by (intros x I; apply zseq_in in I; apply (between s j); [exact M|lia]). cbn [app]. do 2 f_equal. lia.
Qed.
Definition columns (s : Z) (k : nat) : list Z := flat_map (fun s => column s s) (zseq s k).
Lemma indices_columns k : forall s j, 0 <= s < h -> j mod h = s -> j < n -> (k <= length (column s j ++ columns (s + 1) (Z.to_nat (h - s - 1))))%nat ->
  indices k n h s j = firstn k (column s j ++ columns (s + 1) (Z.to_nat (h - s - 1))).
Proof.
  induction k as [|k IH]; intros s j S M L K; [reflexivity|]. cbn [indices]. rewrite (column_step s j M L) in *. cbn [app firstn length] in *. f_equal.
  destruct (Z.leb_spec n (j + h)) as [E|E].
  - cbn [app] in *. destruct (Z.eq_dec (s + 1) h) as [E2|E2].
    + replace (Z.to_nat (h - s - 1)) with O in * by lia. cbn in K. destruct k; [reflexivity|lia].
    + replace (Z.to_nat (h - s - 1)) with (Datatypes.S (Z.to_nat (h - (s + 1) - 1))) in * by lia. unfold columns in *. cbn [zseq flat_map] in *. apply IH; [lia|apply Z.mod_small; lia|lia|lia].
  - apply IH; [exact S|rewrite Z.add_mod, Z.mod_same, Z.add_0_r, Z.mod_mod by lia; exact M|lia|lia].
Qed.
Lemma columns_in x s k : 0 <= s -> In x (columns s k) <-> 0 <= x < n /\ s <= x mod h < s + Z.of_nat k.
Proof.
  intros S. unfold columns. rewrite in_flat_map. split.
  - intros (t & I & J). apply zseq_in in I. unfold column in J. apply filter_In in J. destruct J as [J E]. apply zseq_in in J. apply Z.eqb_eq in E. lia.
  - intros (R & M). exists (x mod h). split; [apply in_zseq; lia|]. unfold column. apply filter_In. split; [|apply Z.eqb_refl]. apply in_zseq.
    assert (x mod h <= x) by (apply Z.mod_le; lia). lia.
Qed.
Lemma zseq_nodup' k a : NoDup (zseq a k).
Proof. revert a. induction k as [|k IH]; intros a; [constructor|]. cbn. constructor; [intros I; apply zseq_in in I; lia|apply IH]. Qed.
Lemma columns_nodup k : forall s, 0 <= s -> NoDup (columns s k).
Proof.
  induction k as [|k IH]; intros s S; [constructor|]. change (columns s (Datatypes.S k)) with (column s s ++ columns (s + 1) k).
  assert (N1 : NoDup (column s s)) by (apply NoDup_filter; apply zseq_nodup').
  assert (D : forall x, In x (column s s) -> ~ In x (columns (s + 1) k)).
  { intros x I J. apply columns_in in J; [|lia]. unfold column in I. apply filter_In in I. destruct I as [_ E]. apply Z.eqb_eq in E. lia. }
  specialize (IH (s + 1) ltac:(lia)). revert D. induction N1 as [|x l N N1 IHl]; intros D; [exact IH|]. cbn. constructor.
  - rewrite in_app_iff. intros [I|I]; [contradiction|]. apply (D x); [left; reflexivity|exact I].
  - apply IHl. intros y I. apply D. right. exact I.
Qed.
Lemma all_columns : Permutation (zseq 0 (Z.to_nat n)) (columns 0 (Z.to_nat h)).
Proof.
  apply NoDup_Permutation; [apply zseq_nodup'|apply columns_nodup; lia|]. intros x. rewrite columns_in by lia.
  assert (0 <= x mod h < h) by (apply Z.mod_pos_bound; lia). split; [intros I; apply zseq_in in I; lia|intros I; apply in_zseq; lia].
Qed.
Lemma indices_all : Permutation (zseq 0 (Z.to_nat n)) (indices (Z.to_nat n) n h 0 0).
Proof.
  assert (E : columns 0 (Z.to_nat h) = column 0 0 ++ columns (0 + 1) (Z.to_nat (h - 0 - 1))) by (replace (Z.to_nat h) with (Datatypes.S (Z.to_nat (h - 0 - 1))) by lia; reflexivity).
  assert (L : length (columns 0 (Z.to_nat h)) = Z.to_nat n) by (rewrite <- (Permutation_length all_columns); apply zseq_length).
  rewrite indices_columns; [|lia|apply Z.mod_0_l; lia|lia|rewrite <- E, L; lia]. rewrite <- E, <- L, firstn_all. rewrite L. apply all_columns.
Qed.
End Columns.

Lemma index_list_perm size width : 0 <= size -> 1 <= width -> Permutation (zseq 0 (Z.to_nat size)) (index_list size width).
Proof.
  intros S W. unfold index_list. destruct (Z.eq_dec size 0) as [->|N]; [constructor|]. apply indices_all.
  - apply Z.div_le_lower_bound; lia.
  - apply Z.div_le_upper_bound; [lia|]. assert (size * 1 <= size * width) by (apply Z.mul_le_mono_nonneg_l; lia). assert (0 <= (size - 1) * (width - 1)) by (apply Z.mul_nonneg_nonneg; lia). lia.
Qed.
Lemma index_list_range size width j : 0 <= size -> 1 <= width -> In j (index_list size width) -> 0 <= j < size.
Proof. intros S W I. apply (Permutation_in j (Permutation_sym (index_list_perm size width S W))) in I. apply zseq_in in I. lia. Qed.
Lemma index_list_nodup size width : 0 <= size -> 1 <= width -> NoDup (index_list size width).
Proof. intros S W. apply (Permutation_NoDup (index_list_perm size width S W)). apply zseq_nodup'. Qed.
Lemma index_list_length size width : 0 <= size -> 1 <= width -> length (index_list size width) = Z.to_nat size.
Proof. intros S W. rewrite <- (Permutation_length (index_list_perm size width S W)). apply zseq_length. Qed.

Lemma mapr_at_list l js : Forall (fun j => 0 <= j < zlen l) js -> exists r, mapr (at_ l) js = Ok r /\ length r = length js /\ (bytes_ok l -> bytes_ok r).
Proof.
  induction 1 as [|j js R _ (r & E & L & B)]; [exists []; repeat split; constructor|]. cbn [mapr]. destruct (znth_ex l j R) as [b Zb]. rewrite (at_intro _ _ _ Zb), E. cbn [bind].
  exists (b :: r). split; [reflexivity|]. split; [cbn; congruence|]. intros K. constructor; [eapply bytes_znth; eassumption|exact (B K)].
Qed.
Lemma shuffle_ok data width : 1 <= width -> exists r, shuffle data width = Ok r /\ zlen r = zlen data /\ (bytes_ok data -> bytes_ok r).
Proof.
  intros W. unfold shuffle. destruct (mapr_at_list data (index_list (zlen data) width)) as (r & E & L & B).
  - apply Forall_forall. intros j I. apply index_list_range in I; [exact I|apply zlen_nonneg|exact W].
  - exists r. split; [exact E|]. split; [|exact B]. unfold zlen. rewrite L, index_list_length by (apply zlen_nonneg || exact W). unfold zlen. lia.
Qed.
Lemma scatter_ok : forall js data result, length js = length data -> Forall (fun j => 0 <= j < zlen result) js -> NoDup js ->
  exists r, scatter js data result = Ok r /\ zlen r = zlen result /\ mapr (at_ r) js = Ok data /\ (forall j, ~ In j js -> znth r j = znth result j)
  /\ (bytes_ok result -> bytes_ok data -> bytes_ok r).
Proof.
  induction js as [|j js IH]; intros [|b data] result L R N; try discriminate.
  - exists result. cbn. repeat split; auto.
  - inversion_clear R as [|? ? R1 R2]. inversion_clear N as [|? ? N1 N2]. cbn [scatter].
    replace ((0 <=? j) && (j <? zlen result)) with true by (symmetry; apply andb_true_iff; rewrite Z.leb_le, Z.ltb_lt; lia).
    destruct (IH data (put result j b)) as (r & E & Lr & M & K & B); [cbn in L; lia| |exact N2|].
    { apply Forall_forall. intros x I. rewrite put_len by exact R1. rewrite Forall_forall in R2. apply R2. exact I. }
    exists r. split; [exact E|]. rewrite put_len in Lr by exact R1. split; [exact Lr|]. split.
    + cbn [mapr]. rewrite (at_intro r j b) by (rewrite (K j N1); apply put_same; exact R1). cbn [bind]. rewrite M. reflexivity.
    + split; [intros x I; rewrite K by (intros J; apply I; right; exact J); apply put_other; [exact R1|intros ->; apply I; left; reflexivity]|].
      intros BR BD. inversion_clear BD as [|? ? B1 B2]. apply B; [|exact B2]. unfold put. apply Forall_app. split; [apply Forall_firstn; exact BR|]. constructor; [exact B1|]. apply Forall_skipn. exact BR.
Qed.
Lemma repeat_bytes v n : is_u8 v -> bytes_ok (repeat v n).
Proof. intros H. induction n; constructor; assumption. Qed.
(* Shuffle undoes Unshuffle *)
Lemma unshuffle_ok data width : 1 <= width -> exists r, unshuffle data width = Ok r /\ zlen r = zlen data /\ shuffle r width = Ok data /\ (bytes_ok data -> bytes_ok r).
Proof.
  intros W. unfold unshuffle. assert (LR : zlen (repeat 0 (length data)) = zlen data) by (unfold zlen; rewrite repeat_length; reflexivity).
  destruct (scatter_ok (index_list (zlen data) width) data (repeat 0 (length data))) as (r & E & L & M & _ & B).
  - rewrite index_list_length by (apply zlen_nonneg || exact W). unfold zlen. lia.
  - rewrite LR. apply Forall_forall. intros j I. apply index_list_range in I; [exact I|apply zlen_nonneg|exact W].
  - apply index_list_nodup; [apply zlen_nonneg|exact W].
  - exists r. rewrite LR in L. split; [exact E|]. split; [exact L|]. split; [unfold shuffle; rewrite L; exact M|]. apply B. apply repeat_bytes. unfold is_u8. lia.
Qed.
