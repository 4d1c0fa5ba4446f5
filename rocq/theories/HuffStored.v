(* A stored prefix code is read back. *)
From Verif Require Import Base ListAux Wrap BitProg BitProgProofs FieldsProofs HuffTreeModel HuffSpec HuffSort HuffRoot HuffSub HuffBuild HuffEnc HuffTop HuffRle HuffLens HuffStore.
Ltac Zify.zify_post_hook ::= idtac.

(* The lengths CreateHuffmanTree has to give to the used codes: lengths up to 5 to the used codes
   only, 1 to a single one, otherwise a complete code. *)
Definition code_lengths_for (used bd : list Z) : Prop :=
  zlen bd = 18 /\ Forall (fun l => 0 <= l <= 5) bd /\ (forall i l, znth bd i = Some l -> (0 < l <-> In i used)) /\
  (zlen used = 1 -> Forall (fun l => l <= 1) bd) /\ (1 < zlen used -> complete bd).

Lemma weight_w5 l : 0 <= l <= 5 -> weight l = 1024 * w5 l.
Proof. intros H. assert (l = 0 \/ l = 1 \/ l = 2 \/ l = 3 \/ l = 4 \/ l = 5) as [->|[->|[->|[->|[->| ->]]]]] by lia; reflexivity. Qed.
Lemma complete_w5 bd : Forall (fun l => 0 <= l <= 5) bd -> complete bd -> zsum (map w5 bd) = 32.
Proof.
  intros F. unfold complete. change (fun l => if l =? 0 then 0 else 2 ^ (15 - l)) with weight.
  assert (E : zsum (map weight bd) = 1024 * zsum (map w5 bd)). { induction F as [|l bd Hl _ IH]; [reflexivity|]. cbn [map zsum fold_right] in *. unfold zsum in IH. rewrite weight_w5 by lia. lia. }
  rewrite E. change (2 ^ 15) with 32768. lia.
Qed.

Definition unit18 (c : Z) : list Z := map (fun i => if i =? c then 1 else 0) (zseq 0 18).

Lemma list_ext18 (a b : list Z) : zlen a = 18 -> zlen b = 18 -> (forall i, 0 <= i < 18 -> znth a i = znth b i) -> a = b.
Proof.
  intros Ha Hb H. apply nth_ext with (d := 0) (d' := 0); [unfold zlen in *; lia|]. intros n Hn. unfold zlen in *.
  specialize (H (Z.of_nat n) ltac:(lia)). rewrite (znth_some a (Z.of_nat n) 0), (znth_some b (Z.of_nat n) 0), Nat2Z.id in H by (unfold zlen; lia). congruence.
Qed.

Lemma nth_unit18 c i : 0 <= i < 18 -> znth (unit18 c) i = Some (if i =? c then 1 else 0).
Proof.
  intros H. rewrite (znth_some _ i 0) by (unfold unit18, zlen; rewrite map_length; cbn; lia). f_equal.
  unfold unit18. set (f := fun i => if i =? c then 1 else 0). rewrite (nth_indep _ 0 (f 0)) by (rewrite map_length; cbn; lia).
  rewrite map_nth. change (if i =? c then 1 else 0) with (f i). assert (E : nth (Z.to_nat i) (zseq 0 18) 0 = i); [|now rewrite E].
  assert (A : forallb (fun i => nth (Z.to_nat i) (zseq 0 18) 0 =? i) (zseq 0 18) = true) by reflexivity.
  pose proof (proj1 (forallb_forall _ _) A i ltac:(apply in_zseq; cbn; lia)). cbv beta in *. lia.
Qed.

Lemma single_unit used bd c : code_lengths_for used bd -> used = [c] -> bd = unit18 c.
Proof.
  intros (Hl & F & U & S1 & _) ->. specialize (S1 eq_refl). apply list_ext18; [assumption|reflexivity|]. intros i Hi. rewrite nth_unit18 by assumption.
  rewrite (znth_some bd i 0) by lia. f_equal. set (x := nth (Z.to_nat i) bd 0).
  assert (Hx : znth bd i = Some x) by (apply znth_some; lia). assert (Hin : In x bd) by (unfold x; apply nth_In; unfold zlen in Hl; lia).
  pose proof (proj1 (Forall_forall _ _) F x Hin) as R. pose proof (proj1 (Forall_forall _ _) S1 x Hin) as R1. cbv beta in R, R1. specialize (U i x Hx). cbn in U.
  destruct (Z.eqb_spec i c) as [->|N]; [assert (0 < x) by (apply U; auto); lia|]. assert (~ 0 < x) by (intros G; apply U in G as [G|[]]; congruence). lia.
Qed.

Lemma distinct_used tree i : In i (distinct_codes tree) <-> 0 <= i < 18 /\ exists x, In (i, x) tree.
Proof.
  unfold distinct_codes. rewrite filter_In, existsb_exists. split.
  - intros (A & (c & x) & B & E). cbn in E. apply Z.eqb_eq in E. subst c. split; [revert A; cbn; lia|eauto].
  - intros (A & x & B). split; [apply in_zseq; cbn; lia|]. exists (i, x). split; [assumption|]. cbn. apply Z.eqb_refl.
Qed.

Definition depths_written (num_codes : Z) (codes bd : list Z) : list Z :=
  if num_codes =? 1 then map (fun i => if existsb (Z.eqb i) codes then 0 else nth (Z.to_nat i) bd 0) (zseq 0 18) else bd.

Lemma unit_facts : forallb (fun c =>
  (zsum (map w5 (unit18 c)) =? 16) && (zsum (map is_code (unit18 c)) =? 1) &&
  match convert_bit_depths (unit18 c) (repeat 0 18) with Some l => (zlen l =? 18) && forallb (Z.eqb 0) l | None => false end &&
  forallb (Z.eqb 0) (depths_written 1 [c] (unit18 c))) (zseq 0 18) = true.
Proof. vm_cast_no_check (eq_refl true). Qed.

Lemma all_zero l i : forallb (Z.eqb 0) l = true -> 0 <= i < zlen l -> znth l i = Some 0.
Proof.
  intros H Hi. rewrite (znth_some l i 0) by assumption. f_equal. symmetry. apply Z.eqb_eq. apply (proj1 (forallb_forall _ _) H). apply nth_In. unfold zlen in Hi. lia.
Qed.

Lemma lengths5_ok bd : Forall (fun l => 0 <= l <= 5) bd -> lengths_ok bd.
Proof. apply Forall_impl. intros. lia. Qed.

Lemma nodup_zseq n : forall z, NoDup (zseq z n).
Proof.
  induction n as [|n IH]; intros z; [constructor|]. cbn [zseq]. constructor; [|apply IH].
  assert (A : forall n z x, In x (zseq z n) -> z <= x). { clear. induction n as [|n IH]; intros z x H; [destruct H|]. destruct H as [->|H]; [lia|]. specialize (IH _ _ H). lia. }
  intros H. apply A in H. lia.
Qed.

(* the table of the code length codes *)
Lemma table5 mem garbage used bd : code_lengths_for used bd -> used <> [] -> NoDup used -> Forall (fun i => 0 <= i < 18) used ->
  let num_codes := Z.min 2 (zlen used) in
  cl_shape num_codes bd /\
  exists counts table symbols, count_depths bd (fun _ => 0) = Some counts /\ build_huffman_table 32 mem 5 bd counts garbage = Some (32, table) /\
    convert_bit_depths bd (repeat 0 18) = Some symbols /\
    forall i, In i used -> exists k v, znth (depths_written num_codes used bd) i = Some k /\ znth symbols i = Some v /\ word5 table i k v.
Proof.
  intros Hcl Hne Hnd Hus num_codes. pose proof Hcl as (Hl & F & U & S1 & S2).
  assert (Hb5 : zlen bd <= 2 ^ 15) by (rewrite Hl; change (2 ^ 15) with 32768; lia).
  destruct (count_depths_ok bd [] (fun _ => 0) (lengths5_ok bd F) Hb5) as (counts & Ec & Hc). { intros. now rewrite count_len_nil. }
  cbn [app] in Hc. destruct used as [|c used]; [contradiction|]. destruct used as [|c' used].
  - (* one code *)
    pose proof (single_unit _ _ c Hcl eq_refl) as Ebd. subst bd. pose proof (Forall_inv Hus) as Hc18. cbv beta in Hc18.
    pose proof (proj1 (forallb_forall _ _) unit_facts c ltac:(apply in_zseq; cbn; lia)) as UF. cbv beta in UF.
    apply andb_prop in UF as (UF & UF4). apply andb_prop in UF as (UF & UF3). apply andb_prop in UF as (UF1 & UF2). apply Z.eqb_eq in UF1, UF2.
    change num_codes with 1. split. { split; [assumption|]. split; [assumption|]. right. auto. }
    destruct (convert_bit_depths (unit18 c) (repeat 0 18)) as [symbols|] eqn:Es; [|discriminate]. apply andb_prop in UF3 as (UF3 & UF5). apply Z.eqb_eq in UF3.
    destruct (build_single (unit18 c) counts garbage 32 mem 5 c 1) as (table & Et & Ht); try lia.
    { apply lengths5_ok, F. } { intros l Hl'. apply Hc. lia. }
    { split; [rewrite nth_unit18, Z.eqb_refl by lia; reflexivity|lia]. }
    { intros s l (A & B). pose proof (znth_some_inv _ _ _ A) as R. rewrite Hl in R. rewrite nth_unit18 in A by lia. destruct (Z.eqb_spec s c); [assumption|]. injection A as <-. lia. }
    change (2 ^ 5) with 32 in *. exists counts, table, symbols. split; [exact Ec|]. split; [exact Et|]. split; [reflexivity|].
    intros i [<-|[]]. exists 0, 0. split; [apply all_zero; [exact UF4|]; unfold depths_written; cbn [Z.eqb Pos.eqb]; unfold zlen; rewrite map_length; cbn; lia|].
    split; [apply all_zero; [exact UF5|lia]|]. split; [lia|]. split; [change (2 ^ 0) with 1; lia|]. intros x Hx _. apply Ht. lia.
  - (* several *)
    assert (Hn : num_codes = 2). { unfold num_codes. rewrite !zlen_cons. pose proof (zlen_nonneg used). lia. }
    assert (Hcomp : complete bd). { apply S2. rewrite !zlen_cons. pose proof (zlen_nonneg used). lia. }
    rewrite Hn. split. { split; [assumption|]. split; [assumption|]. left. split; [lia|]. now apply complete_w5. }
    destruct (convert_ok bd (repeat 0 18) (lengths5_ok bd F) Hcomp Hb5) as (symbols & Es & _ & Hs & _). { rewrite Hl. reflexivity. }
    destruct (build_complete bd counts garbage 32 mem 5 (lengths5_ok bd F) Hcomp Hb5) as (total & table & Et & _ & Ht32 & _ & L).
    { intros l Hl'. apply Hc. lia. } { lia. } { change (2 ^ 5) with 32. lia. } { left. eapply Forall_impl; [|exact F]. intros; cbv beta in *; lia. }
    rewrite Ht32 in Et by (eapply Forall_impl; [|exact F]; intros; cbv beta in *; lia). change (2 ^ 5) with 32 in Et.
    exists counts, table, symbols. split; [exact Ec|]. split; [exact Et|]. split; [exact Es|].
    intros i Hi. pose proof (proj1 (Forall_forall _ _) Hus i Hi) as Ri. cbv beta in Ri.
    destruct (znth bd i) as [l|] eqn:El; [|exfalso; rewrite (znth_some bd i 0) in El by lia; discriminate].
    assert (Hl0 : 0 < l) by (apply (U i l El); exact Hi).
    assert (Hl5 : l <= 5). { assert (In l bd). { rewrite (znth_some bd i 0) in El by lia. injection El as <-. apply nth_In. unfold zlen in Hl. lia. } pose proof (proj1 (Forall_forall _ _) F l H). cbv beta in *. lia. }
    exists l, (key_of bd i l). unfold depths_written. cbn [Z.eqb Pos.eqb]. split; [exact El|]. split; [apply Hs; split; assumption|].
    split; [lia|]. split; [apply key_of_range; lia|]. specialize (L i l (conj El Hl0)). unfold looks_up in L. replace (l <=? 5) with true in L by lia.
    intros x Hx Ex. apply L; [change (2 ^ 5) with 32; lia|exact Ex].
Qed.

Lemma kraft_zeros k : kraft (repeat 0 k) = 0.
Proof. rewrite kraft_repeat. change (weight 0) with 0. lia. Qed.

Lemma mapM_exists {A B} (f : A -> option B) l : Forall (fun x => exists y, f x = Some y) l -> exists r, mapM f l = Some r.
Proof. induction 1 as [|x l (y & Ey) _ (r & IH)]; [eexists; reflexivity|]. cbn [mapM]. rewrite Ey, IH. eexists. reflexivity. Qed.

Lemma mapM_Forall {A B} (f : A -> option B) (P : B -> Prop) l r : mapM f l = Some r -> Forall (fun x => forall y, f x = Some y -> P y) l -> Forall P r.
Proof.
  revert r. induction l as [|x l IH]; intros r E F; [injection E as <-; constructor|]. cbn [mapM] in E. destruct (f x) as [y|] eqn:Ex; [|discriminate].
  destruct (mapM f l) as [r'|] eqn:El; [|discriminate]. injection E as <-. inversion F; subst. constructor; auto.
Qed.

Theorem store_general mem garbage depths tree bd :
  lengths_ok depths -> complete depths -> zlen depths <= 2 ^ 15 ->
  write_huffman_tree depths = Some tree -> code_lengths_for (distinct_codes tree) bd ->
  exists fs total t, store_huffman_tree bd depths = Some fs /\ Forall field_ok fs /\
    parses (read_from_bit_stream mem garbage (zlen depths)) (fields_bits fs) (Some (Some (total, t))) /\
    256 <= total <= zlen depths + 376 /\
    (forall s l, znth depths s = Some l -> 0 < l -> parses_buffered 15 (huff_read (total, t)) (codeword depths s l) (Some s)).
Proof.
  intros Hok Hc Hn Etree Hcl.
  destruct (write_tree_ok depths Hok) as (tree' & rf & E & Fcodes & Hzt & Hrun & Hlens). { change (2 ^ 63) with 9223372036854775808. change (2 ^ 15) with 32768 in Hn. lia. }
  rewrite Etree in E. injection E as <-. pose proof (zlen_nonneg depths) as Hz.
  destruct (rle_run_ok _ _ _ _ (rle_ok_init (zlen depths) Hz) Fcodes Hrun) as (Hokf & _).
  destruct (trim_spec depths) as (k & Etrim & Hlast).
  assert (Hkraft : kraft (lens rf) = 32768).
  { rewrite Hlens, kraft_rev. unfold complete in Hc. change (fun l => if l =? 0 then 0 else 2 ^ (15 - l)) with weight in Hc. fold (kraft depths) in Hc.
    rewrite Etrim, kraft_app, kraft_zeros in Hc. change (2 ^ 15) with 32768 in Hc. lia. }
  assert (Hs0 : space rf = 0) by (destruct Hokf as (_ & _ & _ & _ & _ & _ & Sp); lia).
  assert (Hne : distinct_codes tree <> []).
  { destruct tree as [|(ix, x) tree0].
    - cbn in Hrun. injection Hrun as <-. cbn in Hkraft. discriminate.
    - intros E. assert (Hin : In ix (distinct_codes ((ix, x) :: tree0))).
      { apply distinct_used. split; [|exists x; now left]. pose proof (Forall_inv Fcodes) as (R & _). cbn in R. lia. }
      rewrite E in Hin. destruct Hin. }
  destruct (table5 mem garbage (distinct_codes tree) bd Hcl Hne) as (Hshape & counts & table & symbols & Ec & Et & Es & Hw).
  { unfold distinct_codes. apply NoDup_filter, nodup_zseq. } { apply Forall_forall. intros i Hi. now apply distinct_used in Hi. }
  set (num_codes := Z.min 2 (zlen (distinct_codes tree))) in *. set (bd' := depths_written num_codes (distinct_codes tree) bd) in *.
  destruct (tree_of_tree_parses num_codes bd Hshape) as (skip & hfs & cl & sp & nc & Eh & Hskip & Fh & Ph & Ecl & Hok1).
  assert (Hwt : Forall (fun e => exists k v, znth bd' (fst e) = Some k /\ znth symbols (fst e) = Some v /\ word5 table (fst e) k v) tree).
  { apply Forall_forall. intros (ix, x) Hin. cbn [fst]. apply Hw. apply distinct_used. pose proof (proj1 (Forall_forall _ _) Fcodes _ Hin) as (R & _). cbn in R. split; [lia|eauto]. }
  destruct (mapM_exists (store_code bd' symbols) tree) as (bfs & Eb).
  { eapply Forall_impl; [|exact Hwt]. intros (ix, x) (k' & v & A & B & _). cbn [fst] in *. unfold store_code. rewrite A, B. destruct (ix =? 16); [eauto|]. destruct (ix =? 17); eauto. }
  assert (Fb : Forall field_ok (concat bfs)).
  { apply Forall_concat. eapply mapM_Forall; [exact Eb|]. apply Forall_forall. intros (ix, x) Hin y. pose proof (proj1 (Forall_forall _ _) Fcodes _ Hin) as (C1 & C2 & C3 & C4).
    pose proof (proj1 (Forall_forall _ _) Hwt _ Hin) as (k' & v & A & B & W1 & W2 & _). cbn [fst snd] in *. unfold store_code. rewrite A, B.
    assert (F1 : field_ok (k', v)) by (split; cbn; lia).
    destruct (Z.eqb_spec ix 16) as [->|]; [|destruct (Z.eqb_spec ix 17) as [->|]]; intros Ey; injection Ey as <-; repeat constructor; try exact F1; cbn; try lia. }
  pose proof (read_loop_parses bd' symbols table (zlen depths) rf tree bfs _ (length depths) (rle_ok_init _ Hz) Fcodes Eb Hwt Hrun Hs0) as Pl.
  rewrite Hlens in Pl. rewrite rev_involutive, zlen_rev in Pl.
  assert (Elens : trim depths ++ repeat 0 (Z.to_nat (zlen depths - zlen (trim depths))) = depths).
  { rewrite Etrim at 4. f_equal. f_equal. rewrite Etrim at 1. rewrite zlen_app, zlen_repeat. lia. }
  rewrite Elens in Pl. specialize (Pl Hlast). assert (Hfl : (length tree <= length depths)%nat). { pose proof (zlen_trim depths). unfold zlen in *. lia. } specialize (Pl Hfl).
  destruct (count_depths_ok depths [] (fun _ => 0) Hok Hn) as (counts' & Ec' & _). { intros. now rewrite count_len_nil. }
  destruct (decoder_table depths counts' garbage (fun _ => (0, 0)) Hok Hc Hn Ec') as (total & t & Ebt & Htot & Hdec & _).
  exists (((2, skip) :: hfs) ++ concat bfs), total, t. split.
  { unfold store_huffman_tree. rewrite Etree, Es. fold num_codes. rewrite Eh. fold (depths_written num_codes (distinct_codes tree) bd). fold bd'.
    unfold store_tree_to_bit_mask. rewrite Eb. reflexivity. }
  split. { apply Forall_app. split; [|exact Fb]. constructor; [|exact Fh]. split; cbn; lia. }
  split; [|split; [exact Htot|exact Hdec]].
  cbn [app]. rewrite fields_bits_cons. cbn [fst snd]. rewrite fields_bits_app.
  unfold read_from_bit_stream. change (Z.shiftl 1 PREFIX_MAX_BITS) with (2 ^ 15). replace (2 ^ 15 <? zlen depths) with false by lia.
  eapply parses_bind; [apply parses_rd; [lia|]; change (2 ^ 2) with 4; lia|]. cbv beta. replace (skip =? 1) with false by lia.
  eapply parses_bind; [exact Ph|]. cbv beta iota. rewrite Hok1, Ecl.
  eapply parses_bind_nil.
  - unfold read_code_lengths. rewrite Ec, Et. replace (32 =? 0) with false by reflexivity. unfold zlen at 1. rewrite Nat2Z.id. exact Pl.
  - cbv beta iota. rewrite Ec', Ebt. replace (0 <? total) with true by lia. apply parses_ret.
Qed.
