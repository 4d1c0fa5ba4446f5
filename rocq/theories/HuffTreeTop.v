(* BuildAndStoreHuffmanTree and ReadFromBitStream together. *)
From Verif Require Import Base ListAux Wrap FieldsProofs BitProg BitProgProofs HuffTreeModel HuffCreateModel HuffSpec HuffSort HuffRoot HuffSub HuffBuild HuffEnc HuffTop HuffRle HuffLens HuffStore HuffStored HuffSafe HuffSimple HuffCreate HuffCreate2.
Ltac Zify.zify_post_hook ::= idtac.

Lemma used_same a : forall b k, length a = length b -> (forall i, (i < length a)%nat -> nth i a 0 = 0 <-> nth i b 0 = 0) -> used_from k a = used_from k b.
Proof.
  induction a as [|x a IH]; intros [|y b] k Hl H; try discriminate; [reflexivity|]. rewrite !used_cons. f_equal.
  - specialize (H 0%nat ltac:(cbn; lia)). cbn in H. unfold nz. destruct (Z.eqb_spec x 0), (Z.eqb_spec y 0); cbn; tauto.
  - apply IH; [cbn in Hl; lia|]. intros i Hi. exact (H (S i) ltac:(cbn; lia)).
Qed.

Lemma used_map f n : forall k, used_from k (map f (zseq k n)) = filter (fun i => nz (f i)) (zseq k n).
Proof. induction n as [|n IH]; intros k; [reflexivity|]. cbn [zseq map]. rewrite used_cons, IH. cbn [filter]. destruct (nz (f k)); reflexivity. Qed.

Lemma zlen_filter_le {A} (f : A -> bool) l : zlen (filter f l) <= zlen l.
Proof. unfold zlen. induction l as [|x l IH]; cbn [filter length]; [lia|]. destruct (f x); cbn [length]; lia. Qed.

Lemma histogram_codes tree : zlen tree < 2 ^ 32 -> used_of (codes_histogram tree) = distinct_codes tree /\ Forall (fun c => 0 <= c <= zlen tree) (codes_histogram tree).
Proof.
  intros Hl. pose proof (zlen_nonneg tree) as H0. assert (E : forall i, w32 (zlen (filter (fun e => fst e =? i) tree)) = zlen (filter (fun e => fst e =? i) tree)).
  { intros i. unfold w32. apply Z.mod_small. pose proof (zlen_filter_le (fun e => fst e =? i) tree). pose proof (zlen_nonneg (filter (fun e => fst e =? i) tree)). lia. }
  split.
  - unfold codes_histogram, distinct_codes, used_of. rewrite used_map. apply filter_ext. intros i. unfold nz. rewrite E.
    destruct (existsb (fun e => fst e =? i) tree) eqn:X.
    + apply existsb_exists in X as (e & He & Ee). assert (Hin : In e (filter (fun e => fst e =? i) tree)) by (apply filter_In; auto). destruct (filter (fun e => fst e =? i) tree) as [|y l]; [destruct Hin|]. rewrite zlen_cons. pose proof (zlen_nonneg l). replace (1 + zlen l =? 0) with false by lia. reflexivity.
    + destruct (filter (fun e => fst e =? i) tree) as [|y l] eqn:F; [reflexivity|]. assert (Hin : In y (filter (fun e => fst e =? i) tree)) by (rewrite F; now left). apply filter_In in Hin as (H1 & H2).
      apply Bool.not_true_iff_false in X. exfalso. apply X. apply existsb_exists. eauto.
  - apply Forall_forall. intros c Hc. apply in_map_iff in Hc as (i & <- & _). rewrite E. split; [apply zlen_nonneg|apply zlen_filter_le].
Qed.

Lemma code_lengths tree : Forall code_ok tree -> tree <> [] -> zlen tree <= 2 ^ 15 -> exists bd, create_huffman_tree (codes_histogram tree) 5 = Some bd /\ code_lengths_for (distinct_codes tree) bd.
Proof.
  intros F Hne Hl. change (2 ^ 15) with 32768 in Hl. destruct (histogram_codes tree) as (Eu & Fc); [change (2 ^ 32) with 4294967296; lia|].
  assert (H18 : length (codes_histogram tree) = 18%nat) by reflexivity.
  assert (Hnd : distinct_codes tree <> []).
  { destruct tree as [|(ix, x) tree0]; [contradiction|]. intros E. assert (Hin : In ix (distinct_codes ((ix, x) :: tree0))).
    { apply distinct_used. split; [|exists x; now left]. pose proof (Forall_inv F) as (R & _). cbn in R. lia. } rewrite E in Hin. destruct Hin. }
  assert (Hd18 : zlen (distinct_codes tree) <= 18). { unfold distinct_codes. eapply Z.le_trans; [apply zlen_filter_le|]. cbn. lia. }
  assert (Uin : forall i, In i (distinct_codes tree) <-> 0 <= i < 18 /\ 0 < nth (Z.to_nat i) (codes_histogram tree) 0).
  { intros i. rewrite <- Eu, used_in. unfold zlen. rewrite H18. split; intros (A & B); (split; [lia|]).
    - pose proof (proj1 (Forall_forall _ _) Fc (nth (Z.to_nat i) (codes_histogram tree) 0) ltac:(apply nth_In; rewrite H18; lia)). cbv beta in *. lia.
    - lia. }
  destruct (distinct_codes tree) as [|c [|c' us]] eqn:Ed; [contradiction| |].
  - rewrite (create_one (codes_histogram tree) 5 c); [|eapply Forall_impl; [|exact Fc]; intros; cbv beta in *; lia|unfold zlen; rewrite H18; cbn; lia|exact Eu].
    eexists. split; [reflexivity|]. rewrite H18. set (f := fun i => if i =? c then 1 else 0).
    split; [reflexivity|]. split. { apply Forall_forall. intros x Hx. apply in_map_iff in Hx as (i & <- & _). unfold f. destruct (i =? c); lia. }
    split. { intros i l Hi. pose proof (znth_some_inv _ _ _ Hi) as R. change (zlen (map f (zseq 0 18))) with 18 in R. rewrite (znth_some _ i 0) in Hi by exact R.
      assert (E : nth (Z.to_nat i) (map f (zseq 0 18)) 0 = f i).
      { assert (G : forallb (fun i => nth (Z.to_nat i) (zseq 0 18) (-1) =? i) (zseq 0 18) = true) by reflexivity.
        pose proof (proj1 (forallb_forall _ _) G i ltac:(apply in_zseq; cbn; lia)) as Gi. cbv beta in Gi. rewrite (nth_indep _ 0 (f (-1))) by (rewrite map_length; cbn; lia). rewrite map_nth. f_equal. lia. }
      rewrite E in Hi. injection Hi as <-. unfold f. cbn [In]. destruct (Z.eqb_spec i c) as [->|N]; split; intros G; try lia; try tauto. }
    split. { intros _. apply Forall_forall. intros x Hx. apply in_map_iff in Hx as (i & <- & _). unfold f. destruct (i =? c); lia. }
    intros H. change (zlen [c]) with 1 in H. lia.
  - rewrite <- Ed in *. assert (H2 : 2 <= zlen (distinct_codes tree)) by (rewrite Ed, !zlen_cons; pose proof (zlen_nonneg us); lia).
    destruct (create_ok (codes_histogram tree) (zlen tree) 5 Fc) as (bd & Ebd & (L1 & L2 & L3) & Hc).
    { unfold zlen. rewrite H18. cbn. lia. } { rewrite Eu. change (2 ^ 14) with 16384. lia. } { rewrite Eu. change (2 ^ 5) with 32. lia. } { rewrite Eu. unfold big. change (2 ^ 32) with 4294967296. nia. }
    exists bd. split; [exact Ebd|]. unfold zlen in L1. rewrite H18 in L1. split; [exact L1|]. split; [exact L2|]. split.
    + intros i l Hi. pose proof (znth_some_inv _ _ _ Hi) as R. unfold zlen in R. rewrite Uin. rewrite (L3 i l (nth (Z.to_nat i) (codes_histogram tree) 0) Hi).
      * split; [intros G; split; [lia|exact G]|tauto].
      * apply znth_some. unfold zlen. rewrite H18. lia.
    + split; [lia|]. intros _. exact Hc.
Qed.

Theorem store_full_ok mem garbage depths : lengths_ok depths -> complete depths -> zlen depths <= 2 ^ 15 ->
  exists fs total t, store_huffman_tree_full depths = Some fs /\ Forall field_ok fs /\
    parses (read_from_bit_stream mem garbage (zlen depths)) (fields_bits fs) (Some (Some (total, t))) /\ 256 <= total <= zlen depths + 376 /\
    (forall s l, znth depths s = Some l -> 0 < l -> parses_buffered 15 (huff_read (total, t)) (codeword depths s l) (Some s)).
Proof.
  intros Hok Hc Hn. destruct (write_tree_ok depths Hok) as (tree & rf & E & Fcodes & Hzt & Hrun & Hlens). { change (2 ^ 63) with 9223372036854775808. change (2 ^ 15) with 32768 in Hn. lia. }
  pose proof (zlen_trim depths) as Ht.
  assert (Hne : tree <> []).
  { intros ->. cbn in Hrun. injection Hrun as <-. cbn [lens] in Hlens. destruct (trim_spec depths) as (k & Etrim & _). assert (T0 : trim depths = []) by (destruct (trim depths) as [|x l]; [reflexivity|]; cbn in Hlens; symmetry in Hlens; now apply app_eq_nil in Hlens).
    unfold complete in Hc. change (fun l => if l =? 0 then 0 else 2 ^ (15 - l)) with weight in Hc. fold (kraft depths) in Hc. rewrite Etrim, T0 in Hc. cbn [app] in Hc. rewrite kraft_zeros in Hc. discriminate. }
  destruct (code_lengths tree Fcodes Hne ltac:(lia)) as (bd & Ebd & Hbd).
  destruct (store_general mem garbage depths tree bd Hok Hc Hn E Hbd) as (fs & total & t & H1 & H2). exists fs, total, t. split; [|exact H2]. unfold store_huffman_tree_full. now rewrite E, Ebd.
Qed.

(* what a stored code and the table read from it have to do with each other *)
Definition decodes (histogram depth bits : list Z) (tb : htable) : Prop :=
  forall s c, znth histogram s = Some c -> 0 < c -> exists l v, znth depth s = Some l /\ znth bits s = Some v /\ 0 <= l <= 15 /\ 0 <= v < 2 ^ l /\
    parses_buffered 15 (huff_read tb) (to_bits (Z.to_nat l) v) (Some s).

Theorem build_and_store_ok mem garbage histogram B : 1 <= zlen histogram <= 2 ^ 15 -> Forall (fun c => 0 <= c <= B) histogram ->
  zlen (filter (Z.ltb 0) histogram) <= 2 ^ 14 -> zlen (filter (Z.ltb 0) histogram) * (2 * B) < 2 ^ 32 - 1 ->
  exists fs depth bits tb, build_and_store_huffman_tree histogram = Some (fs, depth, bits) /\ Forall field_ok fs /\
    zlen depth = zlen histogram /\ zlen bits = zlen histogram /\
    parses (read_from_bit_stream mem garbage (zlen histogram)) (fields_bits fs) (Some (Some tb)) /\ decodes histogram depth bits tb.
Proof.
  intros Hn Fh Hu HB. set (n := zlen histogram) in *.
  assert (Enz : zlen (filter (Z.ltb 0) histogram) = zlen (used_of histogram)).
  { unfold zlen, used_of. rewrite used_length. f_equal. f_equal. apply filter_ext_in. intros c Hc. pose proof (proj1 (Forall_forall _ _) Fh c Hc). cbv beta in *. unfold nz. destruct (Z.eqb_spec c 0); cbn [negb]; lia. }
  rewrite Enz in Hu, HB. unfold build_and_store_huffman_tree. fold n. rewrite (max_bits_size n Hn).
  change (map fst (filter (fun e => negb (snd e =? 0)) (combine (zseq 0 (length histogram)) histogram))) with (used_of histogram).
  assert (Hin : forall s c, znth histogram s = Some c -> 0 < c -> In s (used_of histogram)).
  { intros s c Hs Hc. pose proof (znth_some_inv _ _ _ Hs) as R. apply used_in. split; [exact R|]. rewrite (znth_some histogram s 0) in Hs by exact R. injection Hs as <-. lia. }
  assert (One : forall s, 0 <= s < n -> (forall x, In x (used_of histogram) -> x = s) ->
    exists fs depth bits tb, Some ([(4, 1); (size_bits n, s)], repeat 0 (length histogram), repeat 0 (length histogram)) = Some (fs, depth, bits) /\ Forall field_ok fs /\
      zlen depth = n /\ zlen bits = n /\ parses (read_from_bit_stream mem garbage n) (fields_bits fs) (Some (Some tb)) /\ decodes histogram depth bits tb).
  { intros s Hs Hone. destruct (one_symbol_roundtrip mem garbage n s Hn Hs) as (t & Ff & P & D). eexists _, _, _, (256, t). split; [reflexivity|]. split; [exact Ff|].
    split; [unfold zlen, n; now rewrite repeat_length|]. split; [unfold zlen, n; now rewrite repeat_length|]. split; [exact P|].
    intros s' c Hs' Hc. rewrite (Hone s' (Hin s' c Hs' Hc)) in *. pose proof (znth_some_inv _ _ _ Hs') as R.
    assert (Z0 : znth (repeat 0 (length histogram)) s = Some 0). { rewrite (znth_some _ s 0) by (unfold zlen in *; rewrite repeat_length; lia). f_equal. apply nth_repeat. }
    exists 0, 0. split; [exact Z0|]. split; [exact Z0|]. split; [lia|]. split; [change (2 ^ 0) with 1; lia|]. exact D. }
  assert (Range : forall s, In s (used_of histogram) -> 0 <= s < n) by (intros s Hs; now apply used_in in Hs).
  destruct (used_of histogram) as [|s0 [|s1 us]] eqn:Eu.
  - apply (One 0); [lia|]. intros x [].
  - apply (One s0); [apply Range; now left|]. intros x [->|[]]. reflexivity.
  - rewrite <- Eu in *. assert (H2 : 2 <= zlen (used_of histogram)) by (rewrite Eu, !zlen_cons; pose proof (zlen_nonneg us); lia).
    destruct (create_ok histogram B 15 Fh) as (depth & Ed & (L1 & L2 & L3) & Hc); [fold n; lia|lia|change (2 ^ 14) with 16384 in Hu; change (2 ^ 15) with 32768; lia|exact HB|]. rewrite Ed.
    assert (Hok : lengths_ok depth) by exact L2.
    destruct (encoder_words depth (repeat 0 (length histogram)) Hok Hc ltac:(rewrite L1; lia)) as (bits & Eb & Lb & Hb). { rewrite L1. unfold zlen. now rewrite repeat_length. } rewrite Eb.
    assert (Hun : used_of depth = used_of histogram).
    { apply used_same; [unfold zlen in L1; lia|]. intros i Hi. unfold zlen in L1. specialize (L3 (Z.of_nat i) (nth i depth 0) (nth i histogram 0)).
      rewrite (znth_some depth _ 0), (znth_some histogram _ 0) in L3 by (unfold zlen; lia). rewrite Nat2Z.id in L3. specialize (L3 eq_refl eq_refl).
      pose proof (proj1 (Forall_forall _ _) L2 (nth i depth 0) ltac:(apply nth_In; lia)). pose proof (proj1 (Forall_forall _ _) Fh (nth i histogram 0) ltac:(apply nth_In; lia)). cbv beta in *. lia. }
    assert (Dec : forall tb, (forall s l, znth depth s = Some l -> 0 < l -> parses_buffered 15 (huff_read tb) (codeword depth s l) (Some s)) -> decodes histogram depth bits tb).
    { intros tb H s c Hs Hc0. pose proof (znth_some_inv _ _ _ Hs) as R. set (l := nth (Z.to_nat s) depth 0). assert (Hl : znth depth s = Some l) by (apply znth_some; rewrite L1; exact R).
      assert (Hl0 : 0 < l) by (apply (L3 s l c Hl Hs); exact Hc0). destruct (Hb s l Hl Hl0) as (v & Hv & Rv & Ev). pose proof (word_len depth s l Hok Hl Hl0). exists l, v. split; [exact Hl|]. split; [exact Hv|]. split; [lia|]. split; [exact Rv|].
      rewrite Ev. apply H; assumption. }
    destruct (Z.leb_spec (zlen (used_of histogram)) 4) as [L4|L4].
    + destruct (simple_roundtrip mem garbage depth Hok Hc ltac:(rewrite L1; lia) ltac:(rewrite Hun; lia)) as (fs & t & Es & Ff & P & D). rewrite Hun, L1 in Es. fold n in Es. rewrite Es.
      exists fs, depth, bits, (256, t). split; [reflexivity|]. split; [exact Ff|]. split; [exact L1|]. split; [lia|]. rewrite L1 in P. split; [exact P|]. now apply Dec.
    + destruct (store_full_ok mem garbage depth Hok Hc ltac:(rewrite L1; lia)) as (fs & total & t & Es & Ff & P & _ & D). rewrite Es.
      exists fs, depth, bits, (total, t). split; [reflexivity|]. split; [exact Ff|]. split; [exact L1|]. split; [lia|]. rewrite L1 in P. split; [exact P|]. now apply Dec.
Qed.

Theorem read_safe mem garbage n s pos av : 0 <= n -> 0 <= pos -> 0 <= av <= 56 ->
  exists r pos' av', run_bits s pos av (read_from_bit_stream mem garbage n) = Some (Some r, (pos', av')) /\ pos <= pos' /\ 0 <= av' <= 56 /\
    forall tb, r = Some tb -> forall u p a, 0 <= p -> 15 <= a <= 56 -> exists sym l, 0 <= sym < n /\ 0 <= l <= 15 /\ run_bits u p a (huff_read tb) = Some (Some sym, (p + l, a - l)).
Proof.
  intros Hn Hp Hav. destruct (read_ends mem garbage n Hn s pos av Hp Hav) as (a & pos' & av' & E & (o & -> & H) & R1 & R2). exists o, pos', av'. split; [exact E|]. split; [exact R1|]. split; [exact R2|]. exact H.
Qed.

(* the numbers of ReadHuffmanCodeLengths *)
Theorem lengths_no_overflow n es r code_len extra : 0 <= n <= 2 ^ 15 -> Forall code_ok es -> rle_run n (Rle [] 8 0 0 32768) es = Some r -> code_ok (code_len, extra) -> 16 <= code_len ->
  let new_len := if code_len =? 16 then prev_code_len r else 0 in
  let old_repeat := if repeat_code_len r =? new_len then repeat_ r else 0 in
  let scaled := if 0 <? old_repeat then Z.shiftl (old_repeat - 2) (code_len - 14) else old_repeat in
  let delta := scaled + (extra + 3) - old_repeat in
  is_i32 (space r) /\ is_i32 scaled /\ is_i32 (scaled + (extra + 3)) /\ 0 < delta /\ is_i32 (zlen (lens r) + delta) /\
  (zlen (lens r) + delta <= n -> is_i32 (Z.shiftl delta (15 - new_len)) /\ is_i32 (space r - Z.shiftl delta (15 - new_len))).
Proof.
  intros Hn Fe Er (C1 & C2 & C3 & C4) H16. cbv zeta.
  destruct (rle_run_ok n es (Rle [] 8 0 0 32768) r (rle_ok_init n ltac:(lia)) Fe Er) as ((H1 & H2 & H3 & H4 & H4' & H5 & H6) & _). cbn [fst snd] in *.
  set (new_len := if code_len =? 16 then prev_code_len r else 0). assert (Hnl : 0 <= new_len <= 15) by (unfold new_len; destruct (code_len =? 16); lia).
  set (old := if repeat_code_len r =? new_len then repeat_ r else 0). assert (Ho : old = 0 \/ 3 <= old <= n) by (unfold old; destruct (repeat_code_len r =? new_len); lia).
  change (2 ^ 15) with 32768 in Hn. pose proof (zlen_nonneg (lens r)) as Hz.
  assert (Kr : 0 <= kraft (lens r) <= 16384 * zlen (lens r)).
  { clear -H2. induction H2 as [|l ls Hl _ IH]; [cbn; lia|]. unfold kraft in *. cbn [map zsum fold_right]. rewrite zlen_cons. unfold zsum in IH.
    assert (W : 0 <= weight l <= 16384). { unfold weight. destruct (Z.eqb_spec l 0); [lia|]. pose proof (Z.pow_pos_nonneg 2 (15 - l) ltac:(lia) ltac:(lia)). pose proof (Z.pow_le_mono_r 2 (15 - l) 14 ltac:(lia) ltac:(lia)) as P. change (2 ^ 14) with 16384 in P. lia. }
    lia. }
  assert (Ex : 0 <= extra < 8). { destruct (Z.eq_dec code_len 16) as [E|N]; [specialize (C3 E)|assert (code_len = 17) by lia; specialize (C4 ltac:(assumption))]; lia. }
  set (scaled := if 0 <? old then Z.shiftl (old - 2) (code_len - 14) else old).
  assert (Hs : old <= scaled + 2 /\ 0 <= scaled <= 8 * n).
  { unfold scaled. destruct (Z.ltb_spec 0 old); [|lia]. rewrite Z.shiftl_mul_pow2 by lia. assert (E : code_len = 16 \/ code_len = 17) by lia. destruct E as [->| ->]; [change (2 ^ (16 - 14)) with 4|change (2 ^ (17 - 14)) with 8]; lia. }
  unfold is_i32. change (2 ^ 31) with 2147483648. split; [lia|]. split; [lia|]. split; [lia|]. split; [lia|]. split; [lia|]. intros Hd.
  rewrite Z.shiftl_mul_pow2 by lia. pose proof (Z.pow_pos_nonneg 2 (15 - new_len) ltac:(lia) ltac:(lia)). pose proof (Z.pow_le_mono_r 2 (15 - new_len) 15 ltac:(lia) ltac:(lia)) as P. change (2 ^ 15) with 32768 in P.
  set (delta := scaled + (extra + 3) - old) in *. assert (0 <= delta * 2 ^ (15 - new_len) <= 32768 * 32768) by (split; [apply Z.mul_nonneg_nonneg; lia|apply Z.mul_le_mono_nonneg; lia]). lia.
Qed.

Theorem lengths_roundtrip depths : Forall (fun l => 0 <= l <= 15) depths -> zlen depths < 2 ^ 63 ->
  exists codes r zeros, write_huffman_tree depths = Some codes /\ zlen codes <= zlen depths /\
    rle_run (zlen depths) (Rle [] 8 0 0 32768) codes = Some r /\ depths = rev (lens r) ++ repeat 0 zeros.
Proof.
  intros F H. destruct (write_tree_ok depths F H) as (es & r & E & _ & Hz & Hr & Hl). destruct (trim_spec depths) as (k & Ek & _). pose proof (zlen_trim depths).
  exists es, r, k. split; [exact E|]. split; [lia|]. split; [exact Hr|]. now rewrite Hl, rev_involutive.
Qed.

Theorem code_construction data B limit : Forall (fun c => 0 <= c <= B) data -> zlen data <= 2 ^ 15 ->
  2 <= zlen (used_of data) <= 2 ^ 14 -> 1 <= limit <= 15 /\ zlen (used_of data) <= 2 ^ limit -> zlen (used_of data) * (2 * B) < 2 ^ 32 - 1 ->
  exists depths, create_huffman_tree data limit = Some depths /\ zlen depths = zlen data /\ Forall (fun l => 0 <= l <= limit) depths /\
    (forall i l c, znth depths i = Some l -> znth data i = Some c -> (0 < l <-> 0 < c)) /\ complete depths.
Proof.
  intros H1 H2 H3 H4 H5. destruct (create_ok data B limit H1 H2 H3 H4 H5) as (d & E & (L1 & L2 & L3) & C). exists d. split; [exact E|]. split; [exact L1|]. split; [exact L2|]. split; [exact L3|exact C].
Qed.
