(* The table of contents: where the sections are. *)
From Verif Require Import Base HuffRle TocModel LehmerSpec ListAux AliasProofs LzProofs MtfSpec TocSpec PermProofs.
Ltac Zify.zify_post_hook ::= idtac.

Lemma znth_member {A} (l : list A) i x : znth l i = Some x -> In x l.
Proof. unfold znth. destruct (i <? 0); [discriminate|]. apply nth_error_In. Qed.
Lemma total_app a b : total_of (a ++ b) = total_of a + total_of b.
Proof. unfold total_of. induction a as [|x a IH]; cbn [app fold_right]; lia. Qed.
Lemma total_nonneg l : Forall (fun s => 0 <= s) l -> 0 <= total_of l.
Proof. induction 1; unfold total_of in *; cbn [fold_right]; lia. Qed.
Lemma total_cons x l : total_of (x :: l) = x + total_of l.
Proof. reflexivity. Qed.

(* ---- prefix sums ---- *)
Definition start_of (sizes : list Z) (i : Z) : Z := total_of (firstn (Z.to_nat i) sizes).

Lemma prefix_spec sizes : forall off, 0 <= off < 2 ^ 64 -> Forall (fun s => 0 <= s < 2 ^ 32) sizes ->
  (off + total_of sizes < 2 ^ 64 ->
   exists offs, prefix_offsets off sizes = Some (offs, off + total_of sizes) /\ zlen offs = zlen sizes /\
     forall i, 0 <= i < zlen sizes -> znth offs i = Some (off + start_of sizes i)) /\
  (2 ^ 64 <= off + total_of sizes -> prefix_offsets off sizes = None).
Proof.
  induction sizes as [|s sizes IH]; intros off Ho F; cbn [prefix_offsets].
  - rewrite Z.add_0_r. split; [|lia]. intros _. exists []. split; [reflexivity|]. split; [reflexivity|]. intros i Hi. change (zlen (@nil Z)) with 0 in Hi. lia.
  - inversion F as [|x y Hs Fs]; subst. pose proof (total_nonneg sizes) as Tn. rewrite total_cons.
    assert (T : 0 <= total_of sizes). { apply Tn. eapply Forall_impl; [|exact Fs]. cbv beta. lia. }
    assert (W : off + s < 2 ^ 64 -> w64 (off + s) = off + s) by (intros; unfold w64; apply Z.mod_small; lia).
    assert (W' : 2 ^ 64 <= off + s -> w64 (off + s) = off + s - 2 ^ 64).
    { intros. unfold w64. replace (off + s) with (off + s - 2 ^ 64 + 1 * 2 ^ 64) at 1 by lia. rewrite Z.mod_add by lia. apply Z.mod_small. lia. }
    destruct (Z_lt_le_dec (off + s) (2 ^ 64)) as [L|L].
    + rewrite (W L). replace (off + s <? off) with false by lia. destruct (IH (off + s) ltac:(lia) Fs) as (I1 & I2). split.
      * intros L2. destruct (I1 ltac:(lia)) as (offs & E & Z1 & N). rewrite E. exists (off :: offs). split; [do 2 f_equal; lia|]. split; [rewrite !zlen_cons; lia|].
        intros i Hi. rewrite zlen_cons in Hi. unfold start_of. destruct (Z.eq_dec i 0) as [->|]; [cbn; f_equal; lia|].
        replace (Z.to_nat i) with (S (Z.to_nat (i - 1))) by lia. cbn [firstn]. rewrite total_cons.
        replace i with ((i - 1) + 1) at 1 by lia. specialize (N (i - 1) ltac:(lia)). unfold znth in *. replace (i - 1 + 1 <? 0) with false by lia. replace (i - 1 <? 0) with false in N by lia.
        replace (Z.to_nat (i - 1 + 1)) with (S (Z.to_nat (i - 1))) by lia. cbn [nth_error]. rewrite N. unfold start_of. f_equal. lia.
      * intros L2. rewrite I2 by lia. reflexivity.
    + rewrite (W' L). replace (off + s - 2 ^ 64 <? off) with true by lia. split; [lia|reflexivity].
Qed.

Lemma pick_spec v p : Forall (fun j => 0 <= j < zlen v) p ->
  exists l, pick v p = Some l /\ zlen l = zlen p /\ forall i j, znth p i = Some j -> znth l i = znth v j.
Proof.
  induction 1 as [|j p Hj _ (l & E & L & N)]; cbn [pick].
  - exists []. split; [reflexivity|]. split; [reflexivity|]. intros i j H. apply znth_some_inv in H. change (zlen (@nil Z)) with 0 in H. lia.
  - rewrite (znth_some v j 0 Hj), E. eexists. split; [reflexivity|]. split; [rewrite !zlen_cons; lia|]. intros i k H.
    pose proof (znth_some_inv _ _ _ H) as B. unfold znth in H |- * at 1. destruct (Z.ltb_spec i 0); [lia|].
    destruct (Z.to_nat i) as [|i'] eqn:Ei; cbn [nth_error] in *; [apply Some_eq in H; subst k; symmetry; now apply znth_some|].
    specialize (N (Z.of_nat i') k). unfold znth in N at 1 2. replace (Z.of_nat i' <? 0) with false in N by lia. rewrite Nat2Z.id in N. now apply N.
Qed.

Lemma start_mono sizes i j : Forall (fun s => 0 <= s) sizes -> 0 <= i <= j -> start_of sizes i <= start_of sizes j.
Proof.
  intros F H. unfold start_of. replace (Z.to_nat j) with (Z.to_nat i + (Z.to_nat j - Z.to_nat i))%nat by lia.
  rewrite <- (firstn_skipn (Z.to_nat i) (firstn (Z.to_nat i + (Z.to_nat j - Z.to_nat i)) sizes)), firstn_firstn, total_app.
  replace (Nat.min (Z.to_nat i) (Z.to_nat i + (Z.to_nat j - Z.to_nat i))) with (Z.to_nat i) by lia.
  pose proof (total_nonneg (skipn (Z.to_nat i) (firstn (Z.to_nat i + (Z.to_nat j - Z.to_nat i)) sizes)) ltac:(apply Forall_skipn, Forall_firstn, F)). lia.
Qed.
Lemma start_next sizes i s : znth sizes i = Some s -> start_of sizes (i + 1) = start_of sizes i + s.
Proof.
  intros H. pose proof (znth_some_inv _ _ _ H) as B. unfold start_of. replace (Z.to_nat (i + 1)) with (S (Z.to_nat i)) by lia.
  unfold znth in H. destruct (i <? 0); [discriminate|]. clear B. revert sizes H. induction (Z.to_nat i) as [|k IH]; intros [|x sizes] H; try discriminate; cbn [nth_error] in H.
  - apply Some_eq in H. subst. cbn. lia.
  - rewrite !firstn_cons, !total_cons. rewrite (IH _ H). lia.
Qed.
Lemma start_all sizes : start_of sizes (zlen sizes) = total_of sizes.
Proof. unfold start_of, zlen. rewrite Nat2Z.id, firstn_all. reflexivity. Qed.

(* each byte of the total is in exactly one of the consecutive sections *)
Lemma which_section sizes : Forall (fun s => 0 <= s) sizes -> forall b, 0 <= b < total_of sizes ->
  exists i s, znth sizes i = Some s /\ start_of sizes i <= b < start_of sizes i + s /\
    forall i' s', znth sizes i' = Some s' -> start_of sizes i' <= b < start_of sizes i' + s' -> i' = i.
Proof.
  intros F b Hb.
  assert (G : forall n, (n <= length sizes)%nat -> b < start_of sizes (Z.of_nat n) -> exists i s, znth sizes i = Some s /\ start_of sizes i <= b < start_of sizes i + s).
  { induction n as [|n IH]; intros Hn Hl; [cbn in Hl; lia|]. destruct (Z_lt_le_dec b (start_of sizes (Z.of_nat n))) as [L|L]; [apply IH; [lia|exact L]|].
    assert (E : znth sizes (Z.of_nat n) = Some (nth n sizes 0)). { rewrite (znth_some sizes (Z.of_nat n) 0) by (unfold zlen; lia). rewrite Nat2Z.id. reflexivity. }
    exists (Z.of_nat n), (nth n sizes 0). split; [exact E|]. split; [exact L|]. rewrite <- (start_next _ _ _ E). replace (Z.of_nat n + 1) with (Z.of_nat (S n)) by lia. exact Hl. }
  destruct (G (length sizes) ltac:(lia)) as (i & s & E & H). { fold (zlen sizes). rewrite start_all. lia. }
  exists i, s. split; [exact E|]. split; [exact H|]. intros i' s' E' H'.
  pose proof (znth_some_inv _ _ _ E) as B. pose proof (znth_some_inv _ _ _ E') as B'.
  destruct (Z_lt_le_dec i' i) as [L|L].
  - pose proof (start_mono sizes (i' + 1) i F ltac:(lia)) as M. rewrite (start_next _ _ _ E') in M. lia.
  - destruct (Z.eq_dec i i'); [auto|]. pose proof (start_mono sizes (i + 1) i' F ltac:(lia)) as M. rewrite (start_next _ _ _ E) in M. lia.
Qed.

Definition position_of (perm : list Z) (i : Z) : Z := match perm with [] => i | _ => match znth perm i with Some j => j | None => 0 end end.

Lemma permutation_in n perm i : is_permutation n perm -> 0 <= i < n -> exists j, znth perm i = Some j /\ 0 <= j < n.
Proof. intros (L & N & I) Hi. exists (nth (Z.to_nat i) perm 0). split; [apply znth_some; lia|]. apply I. apply nth_In. unfold zlen in L. lia. Qed.
Lemma permutation_onto n perm j : is_permutation n perm -> 0 <= j < n -> exists i, znth perm i = Some j /\ 0 <= i < n.
Proof.
  intros (L & N & I) Hj. apply I in Hj. destruct (In_nth _ _ 0 Hj) as (k & Hk & E). exists (Z.of_nat k). unfold zlen in L. split; [|lia].
  rewrite (znth_some perm (Z.of_nat k) 0) by (unfold zlen; lia). rewrite Nat2Z.id. now rewrite E.
Qed.
Lemma permutation_inj n perm i i' j : is_permutation n perm -> znth perm i = Some j -> znth perm i' = Some j -> i = i'.
Proof.
  intros (L & N & I) H H'. pose proof (znth_some_inv _ _ _ H). pose proof (znth_some_inv _ _ _ H'). rewrite (znth_some perm i 0) in H by lia. rewrite (znth_some perm i' 0) in H' by lia.
  unfold zlen in *. assert (Z.to_nat i = Z.to_nat i'); [|lia]. apply (proj1 (NoDup_nth perm 0) N); [lia|lia|congruence].
Qed.
Lemma permutation_nil n : is_permutation n [] -> n = 0.
Proof. intros (L & _). change (zlen (@nil Z)) with 0 in L. lia. Qed.

(* the position in the codestream of section i *)
Lemma position_range n perm i : perm = [] \/ is_permutation n perm -> 0 <= i < n -> 0 <= position_of perm i < n.
Proof.
  intros [->|H] Hi; [exact Hi|]. unfold position_of. destruct (permutation_in _ _ _ H Hi) as (j & E & Hj). destruct perm as [|x perm]; [apply permutation_nil in H; lia|]. rewrite E. exact Hj.
Qed.
Lemma position_inj n perm i i' : perm = [] \/ is_permutation n perm -> 0 <= i < n -> 0 <= i' < n -> position_of perm i = position_of perm i' -> i = i'.
Proof.
  intros [->|H] Hi Hi' E; [exact E|]. unfold position_of in E. destruct (permutation_in _ _ _ H Hi) as (j & E1 & _). destruct (permutation_in _ _ _ H Hi') as (j' & E2 & _).
  destruct perm as [|x perm]; [apply permutation_nil in H; lia|]. rewrite E1, E2 in E. subst j'. eapply permutation_inj; eassumption.
Qed.
Lemma position_onto n perm j : perm = [] \/ is_permutation n perm -> 0 <= j < n -> exists i, 0 <= i < n /\ position_of perm i = j.
Proof.
  intros [->|H] Hj; [exists j; split; [exact Hj|reflexivity]|]. destruct (permutation_onto _ _ _ H Hj) as (i & E & Hi). exists i. split; [exact Hi|]. unfold position_of. destruct perm as [|x perm]; [apply permutation_nil in H; lia|]. now rewrite E.
Qed.

Theorem offsets_spec sizes perm : Forall (fun s => 0 <= s < 2 ^ 32) sizes -> (perm = [] \/ is_permutation (zlen sizes) perm) ->
  (total_of sizes < 2 ^ 64 ->
   exists offs szs, group_offsets (TocOk sizes perm) = Some (Offsets offs szs (total_of sizes)) /\ zlen offs = zlen sizes /\ zlen szs = zlen sizes /\
     forall i, 0 <= i < zlen sizes -> znth offs i = Some (start_of sizes (position_of perm i)) /\ znth szs i = znth sizes (position_of perm i)) /\
  (2 ^ 64 <= total_of sizes -> group_offsets (TocOk sizes perm) = Some OffsetsFail).
Proof.
  intros F Hp. destruct (prefix_spec sizes 0 ltac:(lia) F) as (P1 & P2). rewrite !Z.add_0_l in *. cbn [group_offsets]. split; intros T.
  - destruct (P1 T) as (offs & E & L & N). rewrite E. destruct perm as [|x perm].
    + exists offs, sizes. split; [reflexivity|]. split; [exact L|]. split; [reflexivity|]. intros i Hi. rewrite (N i Hi), Z.add_0_l. auto.
    + destruct Hp as [|Hp]; [discriminate|]. pose proof Hp as (Lp & _ & I).
      assert (Fp : Forall (fun j => 0 <= j < zlen sizes) (x :: perm)) by (apply Forall_forall; intros; now apply I).
      destruct (pick_spec offs (x :: perm)) as (o2 & E2 & L2 & N2). { now rewrite L. }
      destruct (pick_spec sizes (x :: perm) Fp) as (o3 & E3 & L3 & N3). rewrite E2, E3. exists o2, o3. split; [reflexivity|]. split; [lia|]. split; [lia|].
      intros i Hi. destruct (permutation_in _ _ _ Hp Hi) as (j & Ej & Hj). unfold position_of. rewrite Ej. rewrite (N2 _ _ Ej), (N3 _ _ Ej), (N j Hj), Z.add_0_l. auto.
  - rewrite (P2 T). reflexivity.
Qed.

Theorem offsets_share sizes perm : Forall (fun s => 0 <= s < 2 ^ 32) sizes -> (perm = [] \/ is_permutation (zlen sizes) perm) -> total_of sizes < 2 ^ 64 ->
  exists offs szs, group_offsets (TocOk sizes perm) = Some (Offsets offs szs (total_of sizes)) /\ zlen szs = zlen sizes /\ share_out offs szs (total_of sizes).
Proof.
  intros F Hp T. assert (F0 : Forall (fun s => 0 <= s) sizes) by (eapply Forall_impl; [|exact F]; cbv beta; lia).
  destruct (proj1 (offsets_spec sizes perm F Hp) T) as (offs & szs & E & L1 & L2 & N). exists offs, szs. split; [exact E|]. split; [exact L2|].
  split; [lia|]. split.
  - intros i o s Ho Hs. pose proof (znth_some_inv _ _ _ Ho) as B. destruct (N i ltac:(lia)) as (N1 & N2). rewrite Ho in N1. apply Some_eq in N1. subst o. rewrite Hs in N2. symmetry in N2.
    pose proof (position_range _ _ i Hp ltac:(lia)) as Pr. pose proof (start_mono sizes 0 (position_of perm i) F0 ltac:(lia)) as M0. change (start_of sizes 0) with 0 in M0.
    pose proof (start_mono sizes (position_of perm i + 1) (zlen sizes) F0 ltac:(lia)) as M1. rewrite (start_next _ _ _ N2), start_all in M1.
    assert (0 <= s). { eapply Forall_forall in F0; [exact F0|]. eapply znth_member; exact N2. } lia.
  - intros b Hb. destruct (which_section sizes F0 b Hb) as (j & s & Ej & Hj & U). pose proof (znth_some_inv _ _ _ Ej) as Bj.
    destruct (position_onto _ _ j Hp Bj) as (i & Hi & <-). exists i. destruct (N i Hi) as (N1 & N2). split.
    + exists (start_of sizes (position_of perm i)), s. rewrite N2. auto.
    + intros i' o s' Ho Hs Hb'. pose proof (znth_some_inv _ _ _ Ho) as B. destruct (N i' ltac:(lia)) as (N1' & N2'). rewrite Ho in N1'. apply Some_eq in N1'. subst o. rewrite Hs in N2'. symmetry in N2'.
      apply (position_inj _ _ i' i Hp); [lia|lia|]. eapply U; eassumption.
Qed.

(* ---- inverse permutations ---- *)
Lemma fill_spec n index : forall ids i, NoDup index -> Forall (fun j => 0 <= j < n) index ->
  exists ids', fill_ids n ids i index = Some ids' /\ (forall k j, znth index k = Some j -> ids' j = i + k) /\ (forall j, ~ In j index -> ids' j = ids j).
Proof.
  induction index as [|j index IH]; intros ids i N F; cbn [fill_ids].
  - exists ids. split; [reflexivity|]. split; [|auto]. intros k x H. apply znth_some_inv in H. change (zlen (@nil Z)) with 0 in H. lia.
  - inversion N as [|a b N1 N2]; subst. inversion F as [|a b F1 F2]; subst. rewrite (set_ok n ids j i F1).
    destruct (IH (fun x => if x =? j then i else ids x) (i + 1) N2 F2) as (ids' & E & P1 & P2). exists ids'. split; [exact E|]. split.
    + intros k x H. pose proof (znth_some_inv _ _ _ H) as B. unfold znth in H. destruct (Z.ltb_spec k 0); [discriminate|]. destruct (Z.to_nat k) as [|k'] eqn:Ek; cbn [nth_error] in H.
      * apply Some_eq in H. subst x. rewrite P2 by exact N1. rewrite Z.eqb_refl. lia.
      * rewrite (P1 (Z.of_nat k') x); [lia|]. unfold znth. replace (Z.of_nat k' <? 0) with false by lia. now rewrite Nat2Z.id.
    + intros x Hx. rewrite P2 by (intros C; apply Hx; now right). destruct (Z.eqb_spec x j); [|reflexivity]. subst. exfalso. apply Hx. now left.
Qed.

Lemma iota_permutation n : is_permutation (Z.of_nat n) (map Z.of_nat (seq 0 n)).
Proof.
  split; [unfold zlen; rewrite map_length, seq_length; reflexivity|]. split.
  - apply FinFun.Injective_map_NoDup; [intros a b; apply Nat2Z.inj|apply seq_NoDup].
  - intros v. rewrite in_map_iff. split.
    + intros (k & <- & H). apply in_seq in H. lia.
    + intros H. exists (Z.to_nat v). split; [lia|]. apply in_seq. lia.
Qed.
Lemma znth_iota n i : 0 <= i < Z.of_nat n -> znth (map Z.of_nat (seq 0 n)) i = Some i.
Proof.
  intros H. unfold znth. replace (i <? 0) with false by lia. rewrite nth_error_map, (nth_error_nth' _ 0%nat) by (rewrite seq_length; lia). cbn [option_map]. rewrite seq_nth by lia. f_equal. lia.
Qed.
Lemma znth_map_iota {A} (f : Z -> A) n i : 0 <= i < Z.of_nat n -> znth (map (fun i => f (Z.of_nat i)) (seq 0 n)) i = Some (f i).
Proof.
  intros H. unfold znth. replace (i <? 0) with false by lia. rewrite nth_error_map, (nth_error_nth' _ 0%nat) by (rewrite seq_length; lia). cbn [option_map]. rewrite seq_nth by lia. do 2 f_equal. lia.
Qed.

(* the inverse of a permutation is one *)
Lemma inverse_permutation n p ids : is_permutation (Z.of_nat n) p -> (forall k j, znth p k = Some j -> ids j = k) ->
  is_permutation (Z.of_nat n) (map (fun i => ids (Z.of_nat i)) (seq 0 n)).
Proof.
  intros Hp H. split; [unfold zlen; rewrite map_length, seq_length; reflexivity|]. split.
  - apply NoDup_nth_error. intros i j Hi E. rewrite map_length, seq_length in Hi. rewrite !nth_error_map in E.
    rewrite (nth_error_nth' _ 0%nat) in E by (rewrite seq_length; lia). rewrite seq_nth in E by lia. cbn [option_map] in E.
    destruct (nth_error (seq 0 n) j) as [j'|] eqn:Ej; [|discriminate]. cbn [option_map] in E. apply Some_eq in E.
    assert (Hj : (j < n)%nat). { rewrite <- (seq_length n 0). apply nth_error_Some. congruence. }
    rewrite (nth_error_nth' _ 0%nat), seq_nth in Ej by (rewrite ?seq_length; lia). apply Some_eq in Ej. subst j'. cbn [Nat.add] in E.
    destruct (permutation_onto _ _ (Z.of_nat i) Hp ltac:(lia)) as (a & Ea & _). destruct (permutation_onto _ _ (Z.of_nat j) Hp ltac:(lia)) as (b & Eb & _).
    rewrite (H _ _ Ea), (H _ _ Eb) in E. subst b. rewrite Ea in Eb. apply Some_eq in Eb. lia.
  - intros v. rewrite in_map_iff. split.
    + intros (k & <- & Hk). apply in_seq in Hk. destruct (permutation_onto _ _ (Z.of_nat k) Hp ltac:(lia)) as (a & Ea & Ha). rewrite (H _ _ Ea). exact Ha.
    + intros Hv. destruct (permutation_in _ _ v Hp Hv) as (j & Ej & Hj). exists (Z.to_nat j). rewrite Z2Nat.id by lia. split; [now apply H|]. apply in_seq. lia.
Qed.

Theorem frame_toc_spec sizes perm : Forall (fun s => 0 <= s < 2 ^ 32) sizes -> (perm = [] \/ is_permutation (zlen sizes) perm) ->
  (total_of sizes < 2 ^ 64 -> exists ids, frame_toc sizes perm = Some (Some (ids, total_of sizes)) /\ forall i, 0 <= i < zlen sizes -> ids (position_of perm i) = i) /\
  (2 ^ 64 <= total_of sizes -> frame_toc sizes perm = Some None).
Proof.
  intros F Hp. unfold frame_toc. cbv zeta.
  set (index := match perm with [] => map Z.of_nat (seq 0 (length sizes)) | _ => perm end).
  assert (Hi : is_permutation (zlen sizes) index).
  { unfold index. destruct perm as [|x perm]; [apply iota_permutation|]. destruct Hp as [|Hp]; [discriminate|exact Hp]. }
  assert (Hpos : forall i, 0 <= i < zlen sizes -> znth index i = Some (position_of perm i)).
  { intros i Hr. unfold index, position_of. destruct perm as [|x perm]; [apply znth_iota; exact Hr|]. destruct Hp as [|Hp]; [discriminate|]. destruct (permutation_in _ _ _ Hp Hr) as (j & -> & _). reflexivity. }
  destruct (fill_spec (zlen sizes) index (fun _ => 0) 0) as (ids & -> & P & _). { apply Hi. } { apply Forall_forall. intros x Hx. now apply Hi. }
  destruct (prefix_spec sizes 0 ltac:(lia) F) as (P1 & P2). rewrite !Z.add_0_l in *. split; intros T.
  - destruct (P1 T) as (offs & -> & _). exists ids. split; [reflexivity|]. intros i Hr. rewrite (P i _ (Hpos i Hr)). lia.
  - rewrite (P2 T). reflexivity.
Qed.

(* ---- the sections in the order of the codestream ---- *)
Lemma reorder_spec {A} n index : forall (codes : list A) out, NoDup index -> Forall (fun j => 0 <= j < n) index -> zlen index <= zlen codes ->
  exists out', reorder n out index codes = Some out' /\ (forall k j, znth index k = Some j -> znth codes k = Some (out' j)) /\ (forall j, ~ In j index -> out' j = out j).
Proof.
  induction index as [|j index IH]; intros codes out N F L; cbn [reorder].
  - exists out. split; [reflexivity|]. split; [|auto]. intros k x H. apply znth_some_inv in H. change (zlen (@nil Z)) with 0 in H. lia.
  - inversion N as [|a b N1 N2]; subst. inversion F as [|a b F1 F2]; subst. destruct codes as [|g codes]; [rewrite zlen_cons in L; change (zlen (@nil A)) with 0 in L; pose proof (zlen_nonneg index); lia|].
    rewrite (set_ok n out j g F1). rewrite !zlen_cons in L.
    destruct (IH codes (fun x => if x =? j then g else out x) N2 F2 ltac:(lia)) as (out' & E & P1 & P2). exists out'. split; [exact E|]. split.
    + intros k x H. unfold znth in H |- *. destruct (Z.ltb_spec k 0); [discriminate|]. destruct (Z.to_nat k) as [|k'] eqn:Ek; cbn [nth_error] in *.
      * apply Some_eq in H. subst x. rewrite P2 by exact N1. rewrite Z.eqb_refl. reflexivity.
      * specialize (P1 (Z.of_nat k') x). unfold znth in P1. replace (Z.of_nat k' <? 0) with false in P1 by lia. rewrite Nat2Z.id in P1. now apply P1.
    + intros x Hx. rewrite P2 by (intros C; apply Hx; now right). destruct (Z.eqb_spec x j); [|reflexivity]. subst. exfalso. apply Hx. now left.
Qed.
Lemma permute_spec perm codes : (perm = [] \/ is_permutation (zlen codes) perm) ->
  exists stored, permute_groups perm codes = Some stored /\ zlen stored = zlen codes /\ forall i, 0 <= i < zlen codes -> znth stored (position_of perm i) = znth codes i.
Proof.
  intros Hp. unfold permute_groups. destruct perm as [|x perm]; [exists codes; auto|]. destruct Hp as [|Hp]; [discriminate|].
  destruct (reorder_spec (zlen codes) (x :: perm) codes (fun _ => [])) as (out & -> & P & _). { apply Hp. } { apply Forall_forall. intros y Hy. now apply Hp. } { destruct Hp as (-> & _). lia. }
  eexists. split; [reflexivity|]. split; [unfold zlen; rewrite map_length, seq_length; reflexivity|]. intros i Hi.
  destruct (permutation_in _ _ i Hp Hi) as (j & Ej & Hj). unfold position_of. rewrite Ej. rewrite (P _ _ Ej). apply (znth_map_iota out (length codes) j Hj).
Qed.

Lemma slice_concat stored : forall j g, znth stored j = Some g -> slice (concat stored) (start_of (map zlen stored) j) (zlen g) = g.
Proof.
  induction stored as [|a stored IH]; intros j g H; pose proof (znth_some_inv _ _ _ H) as B; [change (zlen (@nil (list Z))) with 0 in B; lia|].
  rewrite zlen_cons in B. unfold znth in H. destruct (Z.ltb_spec j 0); [discriminate|]. unfold slice. cbn [map concat].
  destruct (Z.eq_dec j 0) as [->|].
  - change (Z.to_nat 0) with 0%nat in H. cbn [nth_error] in H. apply Some_eq in H. subst a. cbn [start_of]. change (start_of (zlen g :: map zlen stored) 0) with 0. change (Z.to_nat 0) with 0%nat. cbn [skipn].
    unfold zlen. rewrite Nat2Z.id. apply firstn_app_exact.
  - replace (Z.to_nat j) with (S (Z.to_nat (j - 1))) in H by lia. cbn [nth_error] in H.
    assert (Hj : znth stored (j - 1) = Some g) by (unfold znth; replace (j - 1 <? 0) with false by lia; exact H).
    rewrite <- (IH _ _ Hj) at 2. unfold slice. f_equal.
    assert (E : start_of (zlen a :: map zlen stored) j = zlen a + start_of (map zlen stored) (j - 1)).
    { unfold start_of. replace (Z.to_nat j) with (S (Z.to_nat (j - 1))) by lia. cbn [firstn]. apply total_cons. }
    rewrite E. assert (0 <= start_of (map zlen stored) (j - 1)). { apply total_nonneg, Forall_firstn. apply Forall_forall. intros y Hy. apply in_map_iff in Hy as (z & <- & _). apply zlen_nonneg. }
    pose proof (zlen_nonneg a). rewrite Z2Nat.inj_add by lia. unfold zlen at 1. rewrite Nat2Z.id. rewrite skipn_app. rewrite skipn_all2 by lia. cbn [app]. f_equal. lia.
Qed.

(* what is stored where the table says *)
Theorem sections_found perm codes stored : (perm = [] \/ is_permutation (zlen codes) perm) -> permute_groups perm codes = Some stored ->
  Forall (fun g => zlen g < 2 ^ 32) codes -> zlen (concat stored) < 2 ^ 64 ->
  exists offs szs, group_offsets (TocOk (map zlen stored) perm) = Some (Offsets offs szs (zlen (concat stored))) /\
    forall i g, znth codes i = Some g -> exists o, znth offs i = Some o /\ znth szs i = Some (zlen g) /\ slice (concat stored) o (zlen g) = g.
Proof.
  intros Hp E Fc T. destruct (permute_spec perm codes Hp) as (st & E' & L & N). rewrite E in E'. apply Some_eq in E'. subst st.
  assert (Hin : forall g, In g stored -> In g codes).
  { intros g Hg. destruct (In_nth _ _ [] Hg) as (k & Hk & Ek). destruct (position_onto _ _ (Z.of_nat k) Hp) as (i & Hi & Ei). { unfold zlen in *. lia. }
    specialize (N i Hi). rewrite Ei, (znth_some stored (Z.of_nat k) []), Nat2Z.id, Ek in N by (unfold zlen in *; lia). symmetry in N. eapply znth_member; exact N. }
  assert (F : Forall (fun s => 0 <= s < 2 ^ 32) (map zlen stored)).
  { apply Forall_forall. intros s Hs. apply in_map_iff in Hs as (g & <- & Hg). apply Hin in Hg. rewrite Forall_forall in Fc. specialize (Fc g Hg). pose proof (zlen_nonneg g). cbv beta in Fc. lia. }
  assert (Lm : zlen (map zlen stored) = zlen codes) by (unfold zlen in *; rewrite map_length; exact L).
  (* the totals agree *)
  assert (Tc : total_of (map zlen stored) = zlen (concat stored)). { clear. induction stored as [|a s IH]; [reflexivity|]. cbn [map concat]. rewrite total_cons, zlen_app, IH. reflexivity. }
  destruct (proj1 (offsets_spec (map zlen stored) perm F ltac:(rewrite Lm; exact Hp)) ltac:(lia)) as (offs & szs & Eo & L1 & L2 & No). rewrite Tc in Eo. exists offs, szs. split; [exact Eo|].
  intros i g Hg. pose proof (znth_some_inv _ _ _ Hg) as B. rewrite <- (N i B) in Hg. destruct (No i ltac:(lia)) as (N1 & N2). eexists. split; [exact N1|].
  assert (Hz : znth (map zlen stored) (position_of perm i) = Some (zlen g)). { unfold znth in *. destruct (_ <? _); [discriminate|]. rewrite nth_error_map, Hg. reflexivity. }
  rewrite N2. split; [exact Hz|]. apply slice_concat. exact Hg.
Qed.
