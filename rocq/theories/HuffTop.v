(* The theorems about prefix codes, from HuffBuild and HuffEnc. *)
From Verif Require Import Base ListAux Wrap BitProg BitProgProofs HuffModel HuffSpec HuffCanon HuffSort HuffRoot HuffSub HuffBuild HuffEnc.
Ltac Zify.zify_post_hook ::= idtac.

Lemma word_len ls s l : lengths_ok ls -> znth ls s = Some l -> 0 < l -> 1 <= l <= 15.
Proof. intros Hok H Hl. pose proof (word_of_word ls s l Hok (conj H Hl)) as (W & _). exact W. Qed.

Theorem encoder_words ls bits : lengths_ok ls -> complete ls -> zlen ls <= 2 ^ 15 -> zlen bits = zlen ls ->
  exists out, convert_bit_depths ls bits = Some out /\ zlen out = zlen ls /\
    forall s l, znth ls s = Some l -> 0 < l -> exists v, znth out s = Some v /\ 0 <= v < 2 ^ l /\ to_bits (Z.to_nat l) v = codeword ls s l.
Proof.
  intros Hok Hc Hn Hb. destruct (convert_ok ls bits Hok Hc Hn Hb) as (out & E & Hl & Ho & _). exists out. split; [exact E|]. split; [exact Hl|].
  intros s l H L. pose proof (word_len ls s l Hok H L). exists (key_of ls s l). split; [apply Ho; split; assumption|].
  split; [apply key_of_range; lia|]. symmetry. apply codeword_key. lia.
Qed.

Theorem decoder_table ls count garbage t0 : lengths_ok ls -> complete ls -> zlen ls <= 2 ^ 15 -> count_depths ls (fun _ => 0) = Some count ->
  exists total t, build_huffman_table (zlen ls + 376) t0 8 ls count garbage = Some (total, t) /\ 256 <= total <= zlen ls + 376 /\
    (forall s l, znth ls s = Some l -> 0 < l -> parses_buffered 15 (huff_read (total, t)) (codeword ls s l) (Some s)) /\
    (forall u pos av, 0 <= pos -> 15 <= av <= 56 -> exists s l, znth ls s = Some l /\ 1 <= l <= 15 /\
       run_bits u pos av (huff_read (total, t)) = Some (Some s, (pos + l, av - l))).
Proof.
  intros Hok Hc Hn Hcount.
  destruct (count_depths_ok ls [] (fun _ => 0) Hok Hn) as (b & E & Hb). { intros. now rewrite count_len_nil. }
  rewrite Hcount in E. injection E as <-. cbn [app] in Hb. pose proof (zlen_nonneg ls).
  assert (G7 : 2 ^ 8 + zlen ls + g (15 - 8) = zlen ls + 376).
  { unfold g. change (2 ^ 8) with 256. change (2 ^ (15 - 8)) with 128. lia. }
  destruct (build_complete ls count garbage (zlen ls + 376) t0 8 Hok Hc Hn) as (total & t & E & B1 & _ & B2 & L); try (intros; apply Hb); try (change (2 ^ 8) with 256); try lia.
  change (2 ^ 8) with 256 in B1. exists total, t. split; [exact E|]. split; [lia|]. split.
  - intros s l H1 H2. pose proof (word_len ls s l Hok H1 H2) as Hl. specialize (L s l (conj H1 H2)). rewrite codeword_key by lia.
    intros pre post av Hav. exists (av - l). rewrite zlen_to_bits, Z2Nat.id by lia. split; [|lia].
    apply huff_run with (key := key_of ls s l); try lia; [pose proof (zlen_nonneg pre); lia|exact L|].
    apply bits_at_exact; [lia|]. apply key_of_range. lia.
  - intros u pos av Hp Hav. pose proof (bits_at_range u pos 15 ltac:(lia)) as R.
    destruct (cover_words ls Hok Hc (bits_at u pos 15) ltac:(lia)) as (s & l & (H1 & H2) & Hl & Ek).
    exists s, l. split; [exact H1|]. split; [lia|]. rewrite bits_at_mod in Ek by lia.
    apply huff_run with (key := key_of ls s l); try lia. apply L. split; assumption.
Qed.

Theorem decoder_single ls count garbage t0 s0 l0 : lengths_ok ls -> zlen ls <= 2 ^ 15 -> count_depths ls (fun _ => 0) = Some count ->
  znth ls s0 = Some l0 -> 0 < l0 -> (forall s l, znth ls s = Some l -> 0 < l -> s = s0) ->
  exists t, build_huffman_table (zlen ls + 376) t0 8 ls count garbage = Some (256, t) /\
    forall u pos av, 0 <= pos -> 15 <= av <= 56 -> run_bits u pos av (huff_read (256, t)) = Some (Some s0, (pos, av)).
Proof.
  intros Hok Hn Hcount H0 Hl0 Hun.
  destruct (count_depths_ok ls [] (fun _ => 0) Hok Hn) as (b & E & Hb). { intros. now rewrite count_len_nil. }
  rewrite Hcount in E. injection E as <-. cbn [app] in Hb. pose proof (zlen_nonneg ls).
  destruct (build_single ls count garbage (zlen ls + 376) t0 8 s0 l0 Hok Hn) as (t & E & T); try (intros; apply Hb); try (change (2 ^ 8) with 256); try lia.
  { split; assumption. } { intros s l (A & B). eauto. }
  change (2 ^ 8) with 256 in *. exists t. split; [exact E|]. intros u pos av Hp Hav.
  unfold huff_read, kHuffmanTableBits. cbn [run_bits fst snd]. replace ((0 <=? 8) && (8 <=? av)) with true by lia.
  pose proof (bits_at_range u pos 8 ltac:(lia)) as R. change (2 ^ 8) with 256 in R. rewrite get_ok, T by lia. cbn [run_bits Z.ltb Z.compare].
  replace ((0 <=? 0) && (0 <=? av)) with true by lia. rewrite Z.add_0_r, Z.sub_0_r. reflexivity.
Qed.

(* no code word is the beginning of another *)
Theorem words_prefix_free ls s l s' l' rest rest' : lengths_ok ls -> complete ls -> zlen ls <= 2 ^ 15 ->
  znth ls s = Some l -> 0 < l -> znth ls s' = Some l' -> 0 < l' ->
  codeword ls s l ++ rest = codeword ls s' l' ++ rest' -> s = s'.
Proof.
  intros Hok Hc Hn H1 H2 H1' H2' E.
  destruct (count_depths_ok ls [] (fun _ => 0) Hok Hn) as (b & Ec & Hb). { intros. now rewrite count_len_nil. }
  destruct (decoder_table ls b (fun _ => 0) (fun _ => (0, 0)) Hok Hc Hn Ec) as (total & t & _ & _ & P & _).
  destruct (P s l H1 H2 [] rest 15 ltac:(lia)) as (av & R & _). destruct (P s' l' H1' H2' [] rest' 15 ltac:(lia)) as (av' & R' & _).
  cbn [app] in R, R'. rewrite E in R. rewrite R in R'. congruence.
Qed.

Theorem large_refused ls size t0 count garbage : 2 ^ 15 < zlen ls -> build_huffman_table size t0 8 ls count garbage = Some (0, t0).
Proof.
  intros H. unfold build_huffman_table. change (Z.shiftl 1 PREFIX_MAX_BITS) with (2 ^ 15). replace (2 ^ 15 <? zlen ls) with true by lia. reflexivity.
Qed.
