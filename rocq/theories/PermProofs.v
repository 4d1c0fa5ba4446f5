(* Permutations in the codestream: round trip and safety. *)
From Verif Require Import Base HuffRle HuffSafe BitReaderModel BitProg BitProgProofs FieldsProofs HybridUintModel HybridUintProofs PermModel LehmerSpec LehmerProofs
  ListAux LzProofs AliasSpec AliasProofs AnsSpec AnsProofs AnsTop MtfSpec CodesSpec CodesSafe CodesRound CodesTop TocSpec.
Ltac Zify.zify_post_hook ::= idtac.

Lemma w32_range v : 0 <= w32 v.
Proof. apply Z.mod_pos_bound. lia. Qed.
Lemma context_range v : 0 <= coeff_order_context v < 8.
Proof.
  unfold coeff_order_context, hybrid_encode. pose proof (w32_range v). destruct (w32 v <? split_token (HC 0 0 0)); [lia|]. cbv zeta. clear. unfold w32.
  match goal with |- context [?a mod 2 ^ 32] => pose proof (Z.mod_pos_bound a (2 ^ 32) ltac:(lia)) end. lia.
Qed.
Lemma w32_id v : 0 <= v < 2 ^ 32 -> w32 v = v.
Proof. apply Z.mod_small. Qed.
Lemma znth_app_r {A} (l m : list A) i : zlen l <= i -> znth (l ++ m) i = znth m (i - zlen l).
Proof.
  intros H. pose proof (zlen_nonneg l). unfold znth. replace (i <? 0) with false by lia. replace (i - zlen l <? 0) with false by lia.
  unfold zlen in *. rewrite nth_error_app2 by lia. f_equal. lia.
Qed.

Lemma znth_repeat {A} (x : A) n i : 0 <= i < Z.of_nat n -> znth (repeat x n) i = Some x.
Proof. intros H. unfold znth. replace (i <? 0) with false by lia. apply nth_error_repeat. lia. Qed.

(* ---- programs that read tokens ---- *)
Lemma toks_weaken {A} m (p : tprog A) : forall l l' a, run_toks m p l' = Some (a, []) ->
  Forall2 (fun x y => (fst x = fst y \/ fst x = None) /\ snd x = snd y) l l' -> run_toks m p l = Some (a, []).
Proof.
  induction p as [a0|ctx k IH]; intros l l' a H F; cbn [run_toks] in *.
  - injection H as <- ->. inversion F; subst. reflexivity.
  - destruct F as [|[c v] [c' v'] l l' (H1 & H2) F]; [discriminate|]. cbn [fst snd] in *. subst v'.
    destruct ((0 <=? ctx) && (ctx <? m)) eqn:G; [|discriminate]. cbn [andb] in *.
    destruct H1 as [->| ->].
    + destruct (match c' with Some c => c =? ctx | None => true end); [|discriminate]. eapply IH; eauto.
    + destruct (match c' with Some c => c =? ctx | None => true end); [|discriminate]. eapply IH; eauto.
Qed.

Definition placed (t : token) : option Z * Z := (Some (context t), value t).

Lemma lehmer_toks m : 8 <= m -> forall l i last size rest,
  (forall k v, znth l k = Some v -> 0 <= v /\ v + (i + k) < size) ->
  run_toks m (read_lehmer (length l) i last size) (map placed (lehmer_tokens last l) ++ rest) = Some (Some l, rest).
Proof.
  intros Hm. induction l as [|v l IH]; intros i last size rest Hv; [reflexivity|].
  cbn [length read_lehmer lehmer_tokens map app run_toks placed context value].
  destruct (Hv 0 v eq_refl) as (Hv0 & Hv1). pose proof (context_range last).
  replace ((0 <=? coeff_order_context last) && (coeff_order_context last <? m) && (coeff_order_context last =? coeff_order_context last)) with true by lia.
  replace (size - i <=? v) with false by lia. rewrite run_tbind, IH; [reflexivity|].
  intros k u Hk. pose proof (znth_bound _ _ _ Hk). destruct (Hv (k + 1) u); [|lia]. rewrite znth_cons by lia. now replace (k + 1 - 1) with k by lia.
Qed.

Lemma nth_error_ext {A} : forall l m : list A, (forall i, nth_error l i = nth_error m i) -> l = m.
Proof.
  induction l as [|x l IH]; intros [|y m] H; [reflexivity|specialize (H 0%nat); discriminate|specialize (H 0%nat); discriminate|].
  pose proof (H 0%nat) as E. cbn in E. injection E as ->. f_equal. apply IH. intros i. exact (H (S i)).
Qed.

(* ---- positions left alone have code 0, and conversely ---- *)
Lemma filter_below v : 0 <= v -> forall i, zlen (filter (fun u => u <? v) (map Z.of_nat (seq 0 i))) = Z.min v (Z.of_nat i).
Proof.
  intros Hv. induction i as [|i IH]; [cbn; lia|]. rewrite seq_S, map_app, filter_app, zlen_app, IH. cbn [map filter Nat.add].
  destruct (Z.ltb_spec (Z.of_nat i) v); change (zlen [Z.of_nat i]) with 1; change (zlen (@nil Z)) with 0; lia.
Qed.
Lemma firstn_fixed k p : fixes k p -> forall i, Z.of_nat i <= k -> firstn i p = map Z.of_nat (seq 0 i).
Proof.
  intros F. induction i as [|i IH]; intros Hi; [reflexivity|]. rewrite seq_S, map_app. cbn [map Nat.add]. rewrite <- IH by lia.
  pose proof (F (Z.of_nat i) ltac:(lia)) as E. unfold znth in E. replace (Z.of_nat i <? 0) with false in E by lia. rewrite Nat2Z.id in E.
  apply nth_error_split in E. destruct E as (a & b & -> & <-). rewrite !firstn_app, Nat.sub_diag. replace (S (length a) - length a)%nat with 1%nat by lia.
  rewrite (firstn_all2 (n := S (length a)) a) by lia. rewrite firstn_all. cbn [firstn]. now rewrite app_nil_r.
Qed.
Lemma znth_nat {A} (l : list A) i : znth l (Z.of_nat i) = nth_error l i.
Proof. unfold znth. replace (Z.of_nat i <? 0) with false by lia. now rewrite Nat2Z.id. Qed.

Lemma fixes_zeros n p c k : 0 <= n < 2 ^ 31 -> is_permutation n p -> compute_lehmer p = Some c -> k <= n ->
  (fixes k p <-> forall i, 0 <= i < k -> znth c i = Some 0).
Proof.
  intros Hn Hp Hc Hk. destruct (lehmer_code_meaning n p Hn Hp) as (c' & E & L & H). assert (c' = c) by congruence. subst c'.
  destruct Hp as (Lp & Nd & Hi). split.
  - intros F i Hik. pose proof (F i Hik) as Fi. replace i with (Z.of_nat (Z.to_nat i)) in * by lia. rewrite znth_nat in *.
    rewrite (H _ _ Fi). f_equal. rewrite (firstn_fixed k p F) by lia. unfold rank_among. rewrite filter_below by lia. lia.
  - intros Z0. assert (G : forall i, Z.of_nat i <= k -> fixes (Z.of_nat i) p).
    { induction i as [|i IH]; intros Hik; [intros j Hj; lia|]. specialize (IH ltac:(lia)). intros j Hj.
      destruct (Z.eq_dec j (Z.of_nat i)) as [->|]; [|apply IH; lia].
      specialize (Z0 (Z.of_nat i) ltac:(lia)). rewrite znth_nat in *. destruct (nth_error p i) as [v|] eqn:Ev.
      2:{ apply nth_error_None in Ev. unfold zlen in Lp. lia. }
      f_equal. rewrite (H _ _ Ev) in Z0. apply Some_eq in Z0. unfold rank_among in Z0. rewrite (firstn_fixed _ p IH) in Z0 by lia.
      assert (Hv : 0 <= v) by (apply Hi; now apply (nth_error_In p i)). rewrite filter_below in Z0 by lia.
      destruct (Z_lt_le_dec v (Z.of_nat i)) as [C|C]; [|lia]. exfalso.
      pose proof (IH v ltac:(lia)) as Ev'. replace v with (Z.of_nat (Z.to_nat v)) in Ev' at 1 by lia. rewrite znth_nat in Ev'.
      assert (Z.to_nat v = i). { apply (proj1 (NoDup_nth_error p) Nd); [apply nth_error_Some; congruence|congruence]. } lia. }
    intros i Hi'. apply (G (Z.to_nat k)); lia.
Qed.

Lemma temp_enough n : 1 <= n <= 2 ^ 56 -> 2 ^ ceil_log2 n <= 2 * n.
Proof.
  intros Hn. destruct (ceil_log2_spec n ltac:(lia)) as (A & B & C). pose proof (C 56 ltac:(lia) ltac:(lia)).
  destruct (Z.eq_dec (ceil_log2 n) 0) as [->|N]; [change (2 ^ 0) with 1; lia|]. destruct (Z_le_gt_dec n (2 ^ (ceil_log2 n - 1))) as [L|L]; [specialize (C (ceil_log2 n - 1) ltac:(lia) L); lia|].
  replace (ceil_log2 n) with (ceil_log2 n - 1 + 1) by lia. rewrite Z.pow_add_r by lia. lia.
Qed.
Lemma zlen_lehmer_tokens l : forall last, zlen (lehmer_tokens last l) = zlen l.
Proof. induction l as [|v l IH]; intros last; [reflexivity|]. cbn [lehmer_tokens]. now rewrite !zlen_cons, IH. Qed.

(* ---- round trip ---- *)
Lemma tokens_of n p skip : 0 < n <= 2 ^ 30 -> is_permutation n p -> 0 <= skip <= n -> fixes skip p ->
  exists c raw, compute_lehmer p = Some c /\ tokenize_permutation p skip = Some raw /\ finish_permutation n c = Some p /\ zlen raw <= n + 1 /\
    forall m, 8 <= m -> run_toks m (read_permutation skip n) (map placed raw) = Some (Some c, []).
Proof.
  intros Hn Hp Hs F. destruct (lehmer_roundtrip n p Hn Hp) as (c & E & (Lc & V) & D). exists c. unfold tokenize_permutation. rewrite E.
  eexists. split; [reflexivity|]. split; [reflexivity|].
  pose proof (proj1 (fixes_zeros n p c skip ltac:(lia) Hp E (proj2 Hs)) F) as Z0. destruct Hp as (Lp & Hp).
  set (l := pop_trailing_zeros (skipn (Z.to_nat skip) c)).
  destruct (pop_spec (skipn (Z.to_nat skip) c)) as (nz & Ez). fold l in Ez.
  assert (Ef : firstn (Z.to_nat skip) c = repeat 0 (Z.to_nat skip)).
  { clear -Z0 Lc Hs. apply nth_error_ext. intros i. destruct (Nat.lt_ge_cases i (Z.to_nat skip)) as [C|C].
    - rewrite nth_error_firstn_lt by exact C. specialize (Z0 (Z.of_nat i) ltac:(lia)). rewrite znth_nat in Z0. rewrite Z0. symmetry. now apply nth_error_repeat.
    - rewrite !(proj2 (nth_error_None _ _)); [reflexivity|rewrite repeat_length; lia|rewrite firstn_length; lia]. }
  assert (Ll : zlen l + Z.of_nat nz = n - skip).
  { apply (f_equal (@length Z)) in Ez. rewrite app_length, repeat_length, skipn_length in Ez. unfold zlen in *. lia. }
  pose proof (zlen_nonneg l). split; [|split].
  - unfold finish_permutation. replace (2 * n <? 2 ^ ceil_log2 n) with false; [exact D|]. symmetry. apply Z.ltb_ge. apply temp_enough; lia.
  - rewrite zlen_cons, zlen_lehmer_tokens. lia.
  - intros m Hm. cbn [map placed context value read_permutation run_toks]. pose proof (context_range n) as Hc. rewrite Lp.
    replace ((0 <=? coeff_order_context n) && (coeff_order_context n <? m) && (coeff_order_context n =? coeff_order_context n)) with true by lia.
    rewrite (w32_id (zlen l)) by lia. rewrite w32_id by lia. cbv zeta. replace (n <? zlen l + skip) with false by lia.
    replace (zlen l + skip - skip) with (zlen l) by lia. rewrite run_tbind. unfold zlen at 1. rewrite Nat2Z.id.
    assert (Ec : c = repeat 0 (Z.to_nat skip) ++ l ++ repeat 0 nz) by (rewrite <- Ez, <- Ef; symmetry; apply firstn_skipn).
    rewrite <- (app_nil_r (map placed _)). rewrite lehmer_toks; [|exact Hm|].
    + cbn [run_toks]. do 3 f_equal. rewrite Ec. do 3 f_equal. unfold zlen in *. lia.
    + intros k v Hk. pose proof (znth_bound _ _ _ Hk). apply V. rewrite Ec. rewrite znth_app_r by (rewrite zlen_repeat; lia).
      rewrite zlen_repeat by lia. rewrite znth_app_l by lia. rewrite <- Hk. f_equal. lia.
Qed.

(* anything that is coded according to a plan, and read by a program *)
Theorem coding_roundtrip {A} M mem n mp p ts raw (prog : tprog A) a : lane_count (m_lanes M) -> coding_of n mp p ts raw -> zlen raw < 2 ^ 32 ->
  (forall m, Z.of_nat n <= m -> run_toks m prog (map placed raw) = Some (a, [])) ->
  exists fs codes ws d r, encode_histograms mem mp p = Some (fs, codes) /\ write_tokens codes 0 ts = Some ws /\
    encode_with_plan mem mp p ts = Some (fs ++ ws) /\ Forall field_ok (fs ++ ws) /\
    parses (decode_histograms M 3 n false) (fields_bits fs) (Some (Some d)) /\
    parses (run_stream (d_code d) (d_map d) 0 prog) (fields_bits ws) (Some (a, r)) /\ check_final_state r = true.
Proof.
  intros HL (Hp & Hmp & Hts & l & Hx & HF) Hlen Hrun.
  assert (E1 : zlen (p_map p) >= Z.of_nat n). { destruct Hp as (_ & -> & _). destruct (lz_enabled (p_lz p)); cbn; lia. }
  destruct (code_and_tokens M mem mp n p false 0 0 ts prog l a HL Hp ltac:(discriminate) Hmp Hts ltac:(lia) Hx) as (fs & codes & ws & d & r & A1 & A2 & A3 & A4 & A5 & A6 & _).
  - assert (length l = length raw) by (clear -HF; induction HF; cbn; congruence). unfold zlen in *. lia.
  - apply toks_weaken with (l' := map placed raw); [apply Hrun; lia|]. clear -HF. induction HF as [|x t l raw (H1 & H2) _ IH]; constructor; [|exact IH]. cbn. auto.
  - exists fs, codes, ws, d, r. unfold encode_with_plan. rewrite A1, A2. auto 8.
Qed.

Theorem permutation_roundtrip M mem mp p ts perm skip n : lane_count (m_lanes M) -> 0 < n <= 2 ^ 30 -> is_permutation n perm -> 0 <= skip <= n -> fixes skip perm ->
  exists raw, tokenize_permutation perm skip = Some raw /\
    (coding_of kPermutationContexts mp p ts raw ->
     exists fs, encode_with_plan mem mp p ts = Some fs /\ Forall field_ok fs /\
       parses (decode_permutation M skip n) (fields_bits fs) (Some (Some perm))).
Proof.
  intros HL Hn Hp Hs HF. destruct (tokens_of n perm skip Hn Hp Hs HF) as (c & raw & E1 & E2 & E3 & L & R). exists raw. split; [exact E2|]. intros HC.
  destruct (coding_roundtrip M mem kPermutationContexts mp p ts raw (read_permutation skip n) (Some c) HL HC ltac:(lia)) as (fs & codes & ws & d & r & _ & _ & A3 & A4 & A5 & A6 & A7).
  { intros m Hm. apply R. exact Hm. }
  exists (fs ++ ws). split; [exact A3|]. split; [exact A4|]. rewrite fields_bits_app. unfold decode_permutation. eapply parses_bind; [exact A5|]. cbv beta iota.
  eapply parses_bind_nil; [exact A6|]. cbv beta iota. rewrite E3, A7. apply parses_ret.
Qed.

(* ---- any bits ---- *)
Lemma tbind_contexts {A B} m (p : tprog A) (f : A -> tprog B) : contexts_below m p -> (forall a, contexts_below m (f a)) -> contexts_below m (tbind p f).
Proof. induction 1 as [a|ctx k Hc _ IH]; intros Hf; cbn [tbind]; [apply Hf|]. constructor; [exact Hc|]. intros v. now apply IH. Qed.
Lemma lehmer_contexts n : forall i last size, contexts_below 8 (read_lehmer n i last size).
Proof.
  induction n as [|n IH]; intros i last size; cbn [read_lehmer]; constructor; [apply context_range|]. intros v. destruct (size - i <=? v); [constructor|].
  apply tbind_contexts; [apply IH|]. intros r. constructor.
Qed.
Lemma permutation_contexts skip size : contexts_below 8 (read_permutation skip size).
Proof.
  unfold read_permutation. constructor; [apply context_range|]. intros v. cbv zeta. destruct (size <? _); [constructor|]. apply tbind_contexts; [apply lehmer_contexts|]. intros r. constructor.
Qed.

Lemma lehmer_read m n : forall i last size vs c l', Forall (fun v => 0 <= v) vs -> run_toks m (read_lehmer n i last size) (unplaced vs) = Some (Some c, l') ->
  length c = n /\ forall k v, znth c k = Some v -> 0 <= v /\ v + (i + k) < size.
Proof.
  induction n as [|n IH]; intros i last size vs c l' F H; cbn [read_lehmer] in H.
  - cbn [run_toks] in H. injection H as <- <-. split; [reflexivity|]. intros k v Hk. apply znth_bound in Hk. change (zlen (@nil Z)) with 0 in Hk. lia.
  - cbn [run_toks] in H. destruct vs as [|v vs]; [discriminate|]. inversion F as [|x y Fv Fs]; subst. cbn [unplaced map] in H. destruct (_ && _ && true); [|discriminate].
    destruct (Z.leb_spec (size - i) v); [discriminate|]. rewrite run_tbind in H. fold (unplaced vs) in H.
    destruct (run_toks m (read_lehmer n (i + 1) v size) (unplaced vs)) as [[[c'|] l1]|] eqn:E; [|discriminate|discriminate].
    cbn [run_toks] in H. injection H as <- <-. destruct (IH _ _ _ _ _ _ Fs E) as (L & Hk). split; [cbn; lia|]. intros k u Hu.
    destruct (Z.eq_dec k 0) as [->|]; [change (znth (v :: c') 0) with (Some v) in Hu; apply Some_eq in Hu; lia|].
    pose proof (znth_bound _ _ _ Hu). rewrite znth_cons in Hu by lia. specialize (Hk _ _ Hu). lia.
Qed.

Lemma permutation_read m skip size vs c : 0 <= skip <= size -> size < 2 ^ 31 -> Forall (fun v => 0 <= v) vs ->
  run_toks m (read_permutation skip size) (unplaced vs) = Some (Some c, []) -> valid_code size c /\ forall i, 0 <= i < skip -> znth c i = Some 0.
Proof.
  intros Hs Hz F H. unfold read_permutation in H. cbn [run_toks] in H. destruct vs as [|v vs]; [discriminate|]. inversion F as [|x y Fv Fs]; subst. cbn [unplaced map] in H.
  destruct (_ && _ && true); [|discriminate]. cbv zeta in H. set (e := w32 (v + skip)) in H. destruct (Z.ltb_spec size e) as [|Le]; [discriminate|].
  rewrite run_tbind in H. fold (unplaced vs) in H. destruct (run_toks m (read_lehmer _ skip 0 size) (unplaced vs)) as [[[l|] l1]|] eqn:E; [|discriminate|discriminate].
  cbn [run_toks] in H. injection H as Hc _. destruct (lehmer_read _ _ _ _ _ _ _ _ Fs E) as (L & Hk).
  assert (L2 : Z.of_nat (length l) <= size - skip) by lia.
  assert (Lc : zlen c = size). { rewrite <- Hc, !zlen_app, !zlen_repeat. unfold zlen. lia. }
  split; [split; [exact Lc|]|].
  - intros i u Hi. pose proof (znth_bound _ _ _ Hi). rewrite <- Hc in Hi. destruct (Z_lt_le_dec i skip) as [C|C].
    + rewrite znth_app_l in Hi by (rewrite zlen_repeat; lia). rewrite znth_repeat in Hi by lia. apply Some_eq in Hi. lia.
    + rewrite znth_app_r in Hi by (rewrite zlen_repeat; lia). rewrite zlen_repeat in Hi. destruct (Z_lt_le_dec (i - skip) (zlen l)) as [C2|C2].
      * rewrite znth_app_l in Hi by lia. apply Hk in Hi. lia.
      * rewrite znth_app_r in Hi by lia. pose proof (znth_bound _ _ _ Hi) as B. rewrite zlen_repeat in B. rewrite znth_repeat in Hi by lia. apply Some_eq in Hi. lia.
  - intros i Hi. rewrite <- Hc. rewrite znth_app_l by (rewrite zlen_repeat; lia). apply znth_repeat. lia.
Qed.

Theorem decode_permutation_ends M skip size : lane_count (m_lanes M) -> 0 < size <= 2 ^ 30 -> 0 <= skip <= size ->
  ends (decode_permutation M skip size) (fun r => exists o, r = Some o /\ forall perm, o = Some perm -> is_permutation size perm /\ fixes skip perm).
Proof.
  intros HL Hz Hs. unfold decode_permutation. apply ends_bind with (Q := code_or_error kPermutationContexts). { apply decode_histograms_ends; [exact HL|unfold kPermutationContexts; lia]. }
  intros r (o & -> & Ho). destruct o as [d|]. 2:{ apply ends_ret. exists None. split; [reflexivity|discriminate]. }
  destruct (Ho d eq_refl) as (Hm & _ & _ & _ & Hb & _ & Hw & _).
  intros s pos av Hpos Hav. rewrite run_bits_bind.
  destruct (stream_within (below (max_num_bits d)) (d_code d) (d_map d) 0 (read_permutation skip size)) with (s := s) (pos := pos) (av := av) as (a & r' & pos2 & av2 & vs & E2 & R & F & L2 & A2); auto.
  - split; [lia|]. apply Z.pow_pos_nonneg; lia.
  - lia.
  - apply (contexts_more 8); [rewrite Hm; destruct (lz_enabled (lz77 (d_code d))); unfold kPermutationContexts; cbn; lia|apply permutation_contexts].
  - rewrite E2. destruct a as [c|].
    + assert (F0 : Forall (fun v => 0 <= v) vs) by (eapply Forall_impl; [|exact F]; intros v (Hv & _); exact Hv).
      destruct (permutation_read (zlen (d_map d)) skip size vs c Hs ltac:(lia) F0 R) as (V & Z0).
      destruct (lehmer_surjective size c Hz V) as (p & Ed & Hp & Ec). unfold finish_permutation.
      replace (2 * size <? 2 ^ ceil_log2 size) with false. 2:{ symmetry. apply Z.ltb_ge. apply temp_enough. lia. }
      rewrite Ed. cbn [run_bits]. eexists _, pos2, av2. split; [reflexivity|]. split; [|split; [exact L2|exact A2]].
      eexists. split; [reflexivity|]. intros perm Hperm. destruct (check_final_state r'); [|discriminate]. apply Some_eq in Hperm. subst perm.
      split; [exact Hp|]. apply (fixes_zeros size p c skip ltac:(lia) Hp Ec); [lia|exact Z0].
    + cbn [run_bits]. eexists _, pos2, av2. split; [reflexivity|]. split; [|split; [exact L2|exact A2]]. exists None. split; [reflexivity|discriminate].
Qed.
