(* BuildHuffmanTable as a whole, and decoding with its result. *)
From Verif Require Import Base ListAux Wrap BitProg BitProgProofs HuffModel HuffSpec HuffCanon HuffSort HuffRoot HuffSub.
Ltac Zify.zify_post_hook ::= idtac.
Opaque C off.

(* every string of 15 bits starts with a word *)
Lemma cover cnt : (forall l, 0 <= cnt l) -> cnt 0 = 0 -> C cnt 15 + cnt 15 = 2 ^ 15 -> C cnt 0 = 0 ->
  forall x, 0 <= x -> exists l i, word cnt l i /\ x mod 2 ^ l = keyc cnt l i.
Proof.
  intros Hcnt H0 Hk HC0 x Hx. set (y := rv 15 x).
  assert (Hy : 0 <= y < 2 ^ 15) by (apply rv_range; lia).
  assert (G : forall d : nat, Z.of_nat d <= 15 -> y < st cnt (Z.of_nat d) (cnt (Z.of_nat d)) ->
    exists l i, word cnt l i /\ st cnt l i <= y < st cnt l i + 2 ^ (15 - l)).
  { induction d as [|d IH]; intros Hd L.
    - exfalso. unfold st in L. change (Z.of_nat 0) with 0 in L. rewrite HC0, H0 in L. lia.
    - replace (Z.of_nat (S d)) with (Z.of_nat d + 1) in * by lia. set (l := Z.of_nat d + 1) in *.
      destruct (Z.lt_ge_cases y (st cnt l 0)) as [Lt|Ge].
      + unfold l in Lt. rewrite (st_next cnt Hcnt) in Lt by lia. apply IH; [lia|assumption].
      + set (u := 2 ^ (15 - l)) in *. assert (Hu : 0 < u) by (apply p2; lia).
        exists l, ((y - st cnt l 0) / u). unfold st in *. fold u in Ge, L |- *.
        pose proof (Z.div_mod (y - (C cnt l + 0) * u) u ltac:(lia)) as D. pose proof (Z.mod_pos_bound (y - (C cnt l + 0) * u) u Hu) as M.
        split; [split; [lia|split; [apply Z.div_pos; lia|apply Z.div_lt_upper_bound; lia]]|]. lia. }
  specialize (G 15%nat ltac:(lia)). change (Z.of_nat 15) with 15 in G. rewrite (st_end cnt Hk) in G.
  destruct (G ltac:(lia)) as (l & i & Hw & B). exists l, i. split; [exact Hw|]. destruct Hw as (Hl & Hi).
  unfold st in B. assert (E : y / 2 ^ (15 - l) = C cnt l + i).
  { symmetry. apply Z.div_unique with (y - (C cnt l + i) * 2 ^ (15 - l)); [left|]; lia. }
  unfold keyc. rewrite <- E. rewrite <- rv_prefix by lia. replace (l + (15 - l)) with 15 by lia.
  unfold y. assert (X : rv 15 (rv 15 x) = x mod 2 ^ 15).
  { unfold rv at 1. rewrite rv_bits, rev_involutive by lia. rewrite of_bits_to_bits_mod. reflexivity. }
  rewrite X. symmetry. apply mod_mod_p2. lia.
Qed.

(* what a table must do with a word (its bits as a number, first bit lowest) *)
Definition looks_up (rb total : Z) (t : Z -> Z * Z) (l key s : Z) : Prop :=
  if l <=? rb then forall r, 0 <= r < 2 ^ rb -> r mod 2 ^ l = key -> t r = (l, s)
  else exists b T, t (key mod 2 ^ rb) = (rb + b, T - key mod 2 ^ rb) /\ 2 ^ rb <= T /\ T + 2 ^ b <= total /\ l - rb <= b <= 15 - rb /\
    forall j, 0 <= j < 2 ^ b -> j mod 2 ^ (l - rb) = key / 2 ^ rb -> t (T + j) = (l - rb, s).

Definition word_of (ls : list Z) (s l : Z) : Prop := znth ls s = Some l /\ 0 < l.

Lemma word_of_word ls s l : lengths_ok ls -> word_of ls s l -> word (cntf ls) l (rank ls s l).
Proof.
  intros Hok (H & Hl). pose proof (rank_lt ls s l H) as R.
  assert (l <= 15). { unfold znth in H. destruct (s <? 0); [discriminate|]. apply nth_error_In in H. pose proof (proj1 (Forall_forall _ _) Hok l H) as Hx. cbv beta in Hx. lia. }
  split; [lia|]. rewrite cntf_pos by lia. exact R.
Qed.

(* every position is that of a symbol *)
Lemma rank_surj ls l : 0 < l -> forall i, 0 <= i < count_len l ls -> exists s, znth ls s = Some l /\ rank ls s l = i.
Proof.
  intros Hl. induction ls as [|x ls IH] using rev_ind; intros i Hi; [rewrite count_len_nil in Hi; lia|].
  rewrite count_len_app, count_len_cons, count_len_nil in Hi.
  destruct (Z.lt_ge_cases i (count_len l ls)) as [L|G].
  - destruct (IH i ltac:(lia)) as (s & Hs & Hr). pose proof (znth_lt _ _ _ Hs) as B. exists s. split.
    + unfold znth in *. destruct (s <? 0); [discriminate|]. rewrite nth_error_app1; [assumption|]. unfold zlen in B. lia.
    + unfold rank in *. rewrite firstn_app. replace (Z.to_nat s - length ls)%nat with 0%nat by (unfold zlen in B; lia). cbn [firstn]. rewrite app_nil_r. exact Hr.
  - destruct (Z.eqb_spec l x) as [<-|]; [|lia]. exists (zlen ls). split.
    + unfold znth, zlen. replace (Z.of_nat (length ls) <? 0) with false by lia. rewrite Nat2Z.id, nth_error_app2, Nat.sub_diag by lia. reflexivity.
    + unfold rank, zlen. rewrite Nat2Z.id, firstn_app, Nat.sub_diag, firstn_all. cbn [firstn]. rewrite app_nil_r. lia.
Qed.

Definition key_of (ls : list Z) (s l : Z) : Z := rv l (C (cntf ls) l + rank ls s l).
Lemma codeword_key ls s l : 1 <= l <= 15 -> codeword ls s l = to_bits (Z.to_nat l) (key_of ls s l).
Proof.
  intros Hl. unfold codeword, key_of. rewrite rv_bits by lia. rewrite start_st by lia. unfold st.
  rewrite Z.div_mul by (pose proof (p2 (15 - l)); lia). reflexivity.
Qed.
Lemma key_of_range ls s l : 0 <= l -> 0 <= key_of ls s l < 2 ^ l.
Proof. intros H. apply rv_range. assumption. Qed.

Lemma C_0 ls : C (cntf ls) 0 = 0.
Proof. Transparent C. reflexivity. Qed.
Opaque C.

Lemma cover_words ls : lengths_ok ls -> complete ls -> forall x, 0 <= x -> exists s l, word_of ls s l /\ 1 <= l <= 15 /\ x mod 2 ^ l = key_of ls s l.
Proof.
  intros Hok Hc x Hx.
  destruct (cover (cntf ls) (cntf_nonneg ls) (cntf_0 ls) (complete_kraft ls Hok Hc) (C_0 ls) x Hx) as (l & i & (Hl & Hi) & E).
  rewrite cntf_pos in Hi by lia. destruct (rank_surj ls l ltac:(lia) i Hi) as (s & Hs & Hr). exists s, l. split; [split; [assumption|lia]|]. split; [assumption|].
  unfold key_of. rewrite Hr. exact E.
Qed.

Lemma complete_two ls : lengths_ok ls -> complete ls -> off (cntf ls) 15 + cntf ls 15 <> 1.
Proof.
  intros Hok Hc E. pose proof (complete_kraft ls Hok Hc) as K.
  (* a single word of length at least 1 takes at most half of the strings *)
  assert (G : forall d : nat, Z.of_nat d <= 15 -> 2 * st (cntf ls) (Z.of_nat d) (cntf ls (Z.of_nat d)) <= 2 ^ 15 * idx (cntf ls) (Z.of_nat d) (cntf ls (Z.of_nat d))).
  { induction d as [|d IH]; intros Hd.
    - unfold st, idx. change (Z.of_nat 0) with 0. rewrite C_0, cntf_0. pose proof (off_nonneg (cntf ls) (cntf_nonneg ls) 0 ltac:(lia)). lia.
    - specialize (IH ltac:(lia)). replace (Z.of_nat (S d)) with (Z.of_nat d + 1) by lia.
      rewrite <- (st_next (cntf ls) (cntf_nonneg ls)), <- (idx_next (cntf ls) (cntf_nonneg ls)) in IH by lia.
      set (l := Z.of_nat d + 1) in *. pose proof (cntf_nonneg ls l) as Hc0. unfold st, idx in *.
      assert (2 * 2 ^ (15 - l) <= 2 ^ 15). { replace (2 * 2 ^ (15 - l)) with (2 ^ (15 - l + 1)) by (rewrite Z.pow_add_r by lia; lia). apply p2_le. lia. }
      assert (cntf ls l * (2 * 2 ^ (15 - l)) <= cntf ls l * 2 ^ 15) by (apply Z.mul_le_mono_nonneg_l; lia). lia. }
  specialize (G 15%nat ltac:(lia)). change (Z.of_nat 15) with 15 in G. rewrite (st_end _ K) in G. unfold idx in G. rewrite E in G. lia.
Qed.

Lemma shiftl1 k : 0 <= k -> Z.shiftl 1 k = 2 ^ k.
Proof. intros H. rewrite Z.shiftl_mul_pow2 by lia. lia. Qed.

Theorem build_complete ls count garbage size t0 rb :
  lengths_ok ls -> complete ls -> zlen ls <= 2 ^ 15 -> (forall l, 1 <= l <= 15 -> count l = count_len l ls) ->
  5 <= rb <= 8 -> 2 ^ rb <= size -> (Forall (fun l => l <= rb) ls \/ 2 ^ rb + zlen ls + g (15 - rb) <= size) ->
  exists total t, build_huffman_table size t0 rb ls count garbage = Some (total, t) /\
    2 ^ rb <= total <= size /\ (Forall (fun l => l <= rb) ls -> total = 2 ^ rb) /\ total <= 2 ^ rb + zlen ls + g (15 - rb) /\
    forall s l, word_of ls s l -> looks_up rb total t l (key_of ls s l) s.
Proof.
  intros Hok Hc Hn Hcount Hrb Hsz Hbig.
  pose proof (cntf_nonneg ls) as Hcnt. pose proof (complete_kraft ls Hok Hc) as Hk.
  assert (Hcount' : forall l, 1 <= l <= 15 -> count l = cntf ls l) by (intros l Hl; rewrite cntf_pos by lia; apply Hcount; lia).
  assert (Hoffn : forall l, 0 <= l <= 15 -> off (cntf ls) l + cntf ls l <= zlen ls) by (intros; now apply off_cnt_le).
  assert (Hoff1 : off (cntf ls) 1 = 0).
  { Transparent off. unfold off. change (Z.to_nat 1) with 1%nat. cbn [ON]. rewrite cntf_0. reflexivity. Opaque off. }
  assert (C1 : C (cntf ls) 1 = 0). { replace 1 with (0 + 1) by lia. rewrite C_succ, C_0, cntf_0 by lia. reflexivity. }
  pose proof (p2 rb ltac:(lia)) as Prb. pose proof (zlen_nonneg ls) as Hz.
  assert (Hg : forall x, 0 <= x -> 0 <= g x). { intros x Hx. pose proof (g_mono 0 x ltac:(lia)) as G0. unfold g in G0 at 1. change (2 ^ 0) with 1 in G0. lia. }
  unfold build_huffman_table. rewrite shiftl1 by (unfold PREFIX_MAX_BITS; lia). unfold PREFIX_MAX_BITS.
  replace (2 ^ 15 <? zlen ls) with false by lia.
  destruct (offsets_loop_ok ls count Hn Hcount' 15 1 1 garbage) as (m & offset & E1 & (Hm & Hm1 & Hm2) & Hoff); try lia.
  rewrite Hoff1 in E1. rewrite E1. clear E1.
  destruct (sort_loop_ok ls Hn Hok ls [] offset (fun _ => 0) eq_refl) as (offset' & sorted & E2 & Hoff' & Hs).
  { intros l Hl. rewrite Hoff, count_len_nil by lia. lia. }
  { intros s l H. unfold znth in H. destruct (s <? 0); [discriminate|]. destruct (Z.to_nat s); discriminate. }
  change (zlen []) with 0 in E2. rewrite E2. clear E2. rewrite get_ok by lia. rewrite Hoff', <- cntf_pos by lia.
  rewrite shiftl1 by lia. pose proof (complete_two ls Hok Hc) as N1. replace (off (cntf ls) 15 + cntf ls 15 =? 1) with false by lia.
  set (tb := if m <? rb then m else rb).
  assert (Htb : 1 <= tb <= rb /\ (m <= rb -> tb = m) /\ (rb <= m -> tb = rb)) by (unfold tb; destruct (Z.ltb_spec m rb); lia).
  rewrite shiftl1 by lia.
  pose proof (p2_le tb rb ltac:(lia)) as Ptb.
  destruct (root_loop_ok (cntf ls) Hcnt Hk (zlen ls) sorted Hoffn Hn size tb ltac:(lia) ltac:(lia) 16 1 (Fill t0 count 0 0)) as (f & E3 & (V & T)); [lia|lia| |].
  { split.
    - unfold vars_at. cbn [f_key f_symbol f_count]. rewrite Hoff1, C1. split; [|split; [lia|split]].
      + intros _. unfold keyc. rewrite C1. change (0 + 0) with 0. now rewrite rv_zero.
      + rewrite Hcount' by lia. lia.
      + intros l Hl. apply Hcount'. lia.
    - intros l' i' (W1 & W2) [B|(B1 & B2)]; lia. }
  change (2 ^ 1) with 2 in E3. rewrite E3. clear E3.
  destruct (double_loop_ok size tb rb ltac:(lia) ltac:(lia) (f_table f) 16 tb (f_table f)) as (t1 & E4 & Ht1); [lia|lia| |].
  { intros r Hr. rewrite Z.mod_small by lia. reflexivity. }
  rewrite E4. clear E4.
  (* the root table is right *)
  assert (Root : forall l' i', word (cntf ls) l' i' -> l' <= tb -> root_ok (cntf ls) sorted rb t1 l' i').
  { intros l' i' W' L' r Hr Hm'. rewrite Ht1 by lia. apply (T l' i' W').
    - destruct (Z.eq_dec l' tb) as [->|]; [right; split; [reflexivity|destruct W'; lia]|left; lia].
    - apply Z.mod_pos_bound. apply p2. lia.
    - destruct W' as (W1 & W2). rewrite mod_mod_p2 by lia. exact Hm'. }
  assert (Sym : forall s l, word_of ls s l -> word (cntf ls) l (rank ls s l) /\ sym (cntf ls) sorted l (rank ls s l) = s).
  { intros s l Hw. split; [now apply word_of_word|]. destruct Hw as (H & Hl). unfold sym. apply Hs; [assumption|lia]. }
  assert (Mx : forall s l, word_of ls s l -> l <= m).
  { intros s l Hw. destruct (Sym s l Hw) as ((W1 & W2) & _). destruct (Z.le_gt_cases l m); [assumption|]. rewrite Hm2 in W2 by lia. lia. }
  destruct (Z.le_gt_cases m rb) as [Lm|Lm].
  - (* no second level *)
    assert (tb = m) by lia.
    cbn [sub_loop]. replace (rb + 1 <=? m) with false by lia.
    eexists _, _. split; [reflexivity|]. cbn [s_total s_fill f_table]. split; [lia|]. split; [reflexivity|]. split; [pose proof (Hg (15 - rb)); lia|].
    intros s l Hw. destruct (Sym s l Hw) as (W' & E). pose proof (Mx s l Hw). unfold looks_up. replace (l <=? rb) with true by lia.
    intros r Hr Hr'. rewrite <- E. apply (Root l (rank ls s l)); try assumption. lia.
  - assert (tb = rb) as Etb by lia.
    assert (Big : 2 ^ rb + zlen ls + g (15 - rb) <= size /\ ~ Forall (fun l => l <= rb) ls).
    { assert (NF : ~ Forall (fun l => l <= rb) ls).
      { intros F. destruct Hm1 as [->|Pm]; [lia|]. rewrite cntf_pos in Pm by lia.
        destruct (rank_surj ls m ltac:(lia) 0 ltac:(lia)) as (s & Hs' & _). unfold znth in Hs'. destruct (s <? 0); [discriminate|].
        apply nth_error_In in Hs'. rewrite Forall_forall in F. specialize (F m Hs'). lia. }
      split; [tauto|exact NF]. }
    destruct Big as (Big & NF).
    assert (Big16 : 2 ^ rb + zlen ls + g (15 - rb) < 2 ^ 16).
    { assert (R : rb = 5 \/ rb = 6 \/ rb = 7 \/ rb = 8) by lia. change (2 ^ 16) with 65536. change (2 ^ 15) with 32768 in Hn. unfold g.
      destruct R as [->|[->|[->| ->]]]; [change (2 ^ 5 + zlen ls + (2 ^ (15 - 5) - (15 - 5) - 1)) with (32 + zlen ls + 1013)
        |change (2 ^ 6 + zlen ls + (2 ^ (15 - 6) - (15 - 6) - 1)) with (64 + zlen ls + 502)
        |change (2 ^ 7 + zlen ls + (2 ^ (15 - 7) - (15 - 7) - 1)) with (128 + zlen ls + 247)
        |change (2 ^ 8 + zlen ls + (2 ^ (15 - 8) - (15 - 8) - 1)) with (256 + zlen ls + 120)]; lia. }
    assert (Pm : 0 < cntf ls m) by (destruct Hm1; lia).
    destruct (sub_loop_ok (cntf ls) Hcnt Hk (zlen ls) sorted Hoffn Hn size rb ltac:(lia) Big Big16 m ltac:(lia) 16 (rb + 1)
      (Sub (Fill t1 (f_count f) (f_key f) (f_symbol f)) 0 (2 ^ rb) (2 ^ rb) (-1))) as (s' & E5 & (_ & (T1 & T2) & FA)); [lia|lia| |lia|].
    { intros _. split; [|split].
      - cbn [s_fill]. apply (vars_next (cntf ls) Hcnt (zlen ls) sorted Hoffn rb); [lia|]. rewrite Etb in V. exact V.
      - split; cbn [s_fill f_table].
        + intros l' i' W' L'. apply Root; [assumption|lia].
        + intros l' i' (W1 & W2) L' [B|(B1 & B2)]; lia.
      - left. unfold fresh. cbn [s_low s_table s_tsize s_total]. tauto. }
    replace (rb + 1 - rb) with 1 in E5 by lia. change (2 ^ 1) with 2 in E5. rewrite E5.
    eexists _, _. split; [reflexivity|].
    assert (Tot : 2 ^ rb <= s_total s' <= 2 ^ rb + zlen ls + g (15 - rb)).
    { destruct FA as [(F1 & F2 & F3 & F4 & _)|(a & b & ie & A)]; [rewrite F4; pose proof (Hg (15 - rb)); lia|].
      pose proof (active_total (cntf ls) Hcnt (zlen ls) sorted Hoffn size rb ltac:(lia) s' m (cntf ls m) a b ie A). 
      destruct A as ((Ha & Hb & Hie & _) & _ & A2 & A3 & A4 & _). pose proof (p2 b ltac:(lia)). lia. }
    split; [lia|]. split; [tauto|]. split; [lia|].
    intros s l Hw. destruct (Sym s l Hw) as (W' & E). pose proof (Mx s l Hw) as Lm'. unfold looks_up. destruct (Z.leb_spec l rb) as [Lr|Lr].
    + intros r Hr Hr'. rewrite <- E. apply (T1 l (rank ls s l) W' Lr); assumption.
    + destruct (T2 l (rank ls s l) W' Lr) as (b & T' & S1 & S2 & S3 & S4 & S5 & _).
      { destruct (Z.eq_dec l m) as [->|]; [right; split; [reflexivity|destruct W'; lia]|left; lia]. }
      rewrite E in S5. exists b, T'. split; [exact S1|]. split; [exact S2|]. split; [exact S3|]. split; [exact S4|exact S5].
Qed.

(* a single symbol *)
Theorem build_single ls count garbage size t0 rb s0 l0 :
  lengths_ok ls -> zlen ls <= 2 ^ 15 -> (forall l, 1 <= l <= 15 -> count l = count_len l ls) ->
  0 <= rb <= 15 -> 2 ^ rb <= size -> word_of ls s0 l0 -> (forall s l, word_of ls s l -> s = s0) ->
  exists t, build_huffman_table size t0 rb ls count garbage = Some (2 ^ rb, t) /\ forall j, 0 <= j < 2 ^ rb -> t j = (0, s0).
Proof.
  intros Hok Hn Hcount Hrb Hsz Hw Hun.
  assert (Hcount' : forall l, 1 <= l <= 15 -> count l = cntf ls l) by (intros l Hl; rewrite cntf_pos by lia; apply Hcount; lia).
  assert (Hoff1 : off (cntf ls) 1 = 0).
  { Transparent off. unfold off. change (Z.to_nat 1) with 1%nat. cbn [ON]. rewrite cntf_0. reflexivity. Opaque off. }
  pose proof (p2 rb ltac:(lia)) as Prb. pose proof (zlen_nonneg ls) as Hz.
  unfold build_huffman_table. rewrite shiftl1 by (unfold PREFIX_MAX_BITS; lia). unfold PREFIX_MAX_BITS.
  replace (2 ^ 15 <? zlen ls) with false by lia.
  destruct (offsets_loop_ok ls count Hn Hcount' 15 1 1 garbage) as (m & offset & E1 & (Hm & Hm1 & Hm2) & Hoff); try lia.
  rewrite Hoff1 in E1. rewrite E1. clear E1.
  destruct (sort_loop_ok ls Hn Hok ls [] offset (fun _ => 0) eq_refl) as (offset' & sorted & E2 & Hoff' & Hs).
  { intros l Hl. rewrite Hoff, count_len_nil by lia. lia. }
  { intros s l H. unfold znth in H. destruct (s <? 0); [discriminate|]. destruct (Z.to_nat s); discriminate. }
  change (zlen []) with 0 in E2. rewrite E2. clear E2. rewrite get_ok by lia. rewrite Hoff', <- cntf_pos by lia.
  rewrite shiftl1 by lia.
  pose proof (word_of_word ls s0 l0 Hok Hw) as (W1 & W2). pose proof Hw as (H0 & H0').
  (* exactly one word *)
  assert (Cn : forall l, 1 <= l <= 15 -> cntf ls l = if l =? l0 then 1 else 0).
  { intros l Hl. pose proof (cntf_nonneg ls l) as Hp. rewrite cntf_pos in * by lia.
    destruct (Z.eq_dec (count_len l ls) 0) as [Z0|NZ].
    - destruct (Z.eqb_spec l l0) as [->|]; [|assumption]. lia.
    - destruct (rank_surj ls l ltac:(lia) 0 ltac:(lia)) as (s & Hs0 & R0).
      destruct (rank_surj ls l ltac:(lia) (count_len l ls - 1) ltac:(lia)) as (s1 & Hs1 & R1).
      assert (s = s0) by (apply (Hun s l); split; [assumption|lia]). assert (s1 = s0) by (apply (Hun s1 l); split; [assumption|lia]). subst s s1.
      rewrite H0 in Hs0. injection Hs0 as ->. rewrite Z.eqb_refl. lia. }
  assert (Of : forall d : nat, Z.of_nat d <= 15 -> off (cntf ls) (Z.of_nat d + 1) = if l0 <=? Z.of_nat d then 1 else 0).
  { induction d as [|d IH]; intros Hd.
    - change (Z.of_nat 0 + 1) with 1. rewrite Hoff1. replace (l0 <=? Z.of_nat 0) with false by lia. reflexivity.
    - rewrite off_succ by lia. replace (Z.of_nat (S d)) with (Z.of_nat d + 1) by lia. rewrite IH by lia. rewrite Cn by lia.
      destruct (Z.eqb_spec (Z.of_nat d + 1) l0); destruct (Z.leb_spec l0 (Z.of_nat d)); destruct (Z.leb_spec l0 (Z.of_nat d + 1)); lia. }
  replace (off (cntf ls) 15 + cntf ls 15 =? 1) with true.
  2:{ symmetry. rewrite <- off_succ by lia. specialize (Of 15%nat ltac:(lia)). change (Z.of_nat 15 + 1) with 16 in Of. change (15 + 1) with 16. rewrite Of.
      replace (l0 <=? Z.of_nat 15) with true by lia. reflexivity. }
  pose proof (znth_lt _ _ _ H0) as B0. rewrite get_ok by lia.
  assert (sorted 0 = s0) as ->.
  { transitivity (sorted (off (cntf ls) l0 + rank ls s0 l0)); [|apply Hs; [assumption|lia]]. f_equal. specialize (Of (Z.to_nat (l0 - 1)) ltac:(lia)). rewrite Z2Nat.id in Of by lia.
    replace (l0 - 1 + 1) with l0 in Of by lia. rewrite Of. replace (l0 <=? l0 - 1) with false by lia. rewrite Cn, Z.eqb_refl in W2 by lia. lia. }
  destruct (fill_all_ok size (0, s0) (Z.to_nat (2 ^ rb)) t0 0 ltac:(lia) ltac:(lia)) as (t & -> & A & _).
  exists t. split; [reflexivity|]. intros j Hj. apply A. lia.
Qed.

(* ---- decoding ---- *)
Lemma bits_at_mod u p n k : 0 <= k <= n -> bits_at u p n mod 2 ^ k = bits_at u p k.
Proof.
  intros H. unfold bits_at, Base.window. replace (Z.to_nat n) with (Z.to_nat k + Z.to_nat (n - k))%nat by lia.
  rewrite seq_app, map_app, of_bits_app. unfold zlen. rewrite map_length, seq_length, Z2Nat.id by lia.
  rewrite (Z.mul_comm (2 ^ k)), Z.mod_add by (pose proof (p2 k); lia). apply Z.mod_small.
  pose proof (of_bits_range (map (fun i => nth i u false) (seq (Z.to_nat p) (Z.to_nat k)))) as R. unfold zlen in R. rewrite map_length, seq_length, Z2Nat.id in R by lia. exact R.
Qed.
Lemma bits_at_div u p n k : 0 <= p -> 0 <= k <= n -> bits_at u p n / 2 ^ k = bits_at u (p + k) (n - k).
Proof.
  intros Hp H. unfold bits_at, Base.window. replace (Z.to_nat n) with (Z.to_nat k + Z.to_nat (n - k))%nat by lia.
  rewrite seq_app, map_app, of_bits_app. unfold zlen. rewrite map_length, seq_length, Z2Nat.id by lia.
  rewrite (Z.mul_comm (2 ^ k)), Z.div_add by (pose proof (p2 k); lia). rewrite Z.div_small.
  2:{ pose proof (of_bits_range (map (fun i => nth i u false) (seq (Z.to_nat p) (Z.to_nat k)))) as R. unfold zlen in R. rewrite map_length, seq_length, Z2Nat.id in R by lia. exact R. }
  rewrite Z2Nat.inj_add by lia. reflexivity.
Qed.

Lemma huff_run total t u pos av l key s : 0 <= pos -> 15 <= av <= 56 -> 1 <= l <= 15 -> 2 ^ 8 <= total -> looks_up 8 total t l key s ->
  bits_at u pos l = key -> run_bits u pos av (huff_read (total, t)) = Some (Some s, (pos + l, av - l)).
Proof.
  intros Hp Hav Hl Ht H E. unfold huff_read, kHuffmanTableBits. cbn [run_bits fst snd].
  replace ((0 <=? 8) && (8 <=? av)) with true by lia. pose proof (bits_at_range u pos 8 ltac:(lia)) as R8.
  rewrite get_ok by lia. unfold looks_up in H. destruct (Z.leb_spec l 8) as [L|L].
  - rewrite H; [|lia|rewrite bits_at_mod by lia; exact E]. replace (8 <? l) with false by lia. cbn [run_bits].
    replace ((0 <=? l) && (l <=? av)) with true by lia. reflexivity.
  - destruct H as (b & T & H1 & H2 & H3 & H4 & H5).
    assert (K8 : bits_at u pos 8 = key mod 2 ^ 8) by (rewrite <- E, bits_at_mod by lia; reflexivity).
    rewrite K8, H1. replace (8 <? 8 + b) with true by lia. cbn [run_bits]. replace ((0 <=? 8) && (8 <=? av)) with true by lia.
    replace (8 + b - 8) with b by lia. replace ((0 <=? b) && (b <=? av - 8)) with true by lia.
    pose proof (bits_at_range u (pos + 8) b ltac:(lia)) as Rb.
    replace (key mod 2 ^ 8 + (T - key mod 2 ^ 8) + bits_at u (pos + 8) b) with (T + bits_at u (pos + 8) b) by lia.
    rewrite get_ok by lia. rewrite H5; [|lia|].
    2:{ rewrite bits_at_mod by lia. rewrite <- E. rewrite bits_at_div by lia. reflexivity. }
    cbn [run_bits]. replace ((0 <=? l - 8) && (l - 8 <=? av - 8)) with true by lia. do 3 f_equal; lia.
Qed.
