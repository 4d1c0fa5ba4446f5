(* Orders of coefficients: the encoder and the round trip. *)
From Coq Require Import Permutation.
From Verif Require Import Base HuffRle HuffSafe BitReaderModel BitProg BitProgProofs FieldsProofs HybridUintModel HybridUintProofs PermModel LehmerSpec LehmerProofs
  ListAux LzProofs AliasSpec AliasProofs AnsSpec AnsProofs AnsTop MtfSpec CodesSpec CodesSafe CodesRound CodesTop TocSpec PermProofs TocLayout COrderModel COrderSpec COrderNat COrderProofs.
Ltac Zify.zify_post_hook ::= idtac.

(* ---- one order, written and read ---- *)
Lemma order_written o c lut ebuf : is_transform o -> 0 <= c < 3 -> (forall k, 0 <= k < area o -> lut k = lut_at o k) -> valid_order o (order_in ebuf o c) ->
  exists raw, order_tokens o lut ebuf (order_offset (bucket o) c) = Some raw /\ zlen raw <= 65537 /\
    forall m used natural bsize buf rest, 8 <= m -> natural_is o natural -> (used = true -> order_offset (bucket o) c + area o <= bsize) ->
      exists b, run_toks m (decode_order o used natural bsize (order_offset (bucket o) c) buf) (map placed raw ++ rest) = Some (Some (Some b), rest) /\
        keeps o c buf b /\ (used = true -> order_in b o c = order_in ebuf o c).
Proof.
  intros Ho Hc Hl V. pose proof (shape_range o Ho) as SR. pose proof (region_place o c Ho Hc) as (_ & P0 & P1). unfold order_tokens, stretch.
  rewrite gets_ok. 2:{ apply Forall_forall. intros x Hx. apply zseq_inv in Hx. lia. } fold (order_in ebuf o c).
  destruct (permutation_of_order o lut _ Ho Hl V) as (-> & Hp & Hf & Hn).
  destruct (tokens_of (area o) _ (llf o) ltac:(lia) Hp ltac:(lia) Hf) as (code & raw & _ & -> & Efin & Lr & R). exists raw. split; [reflexivity|]. split; [lia|].
  intros m used natural bsize buf rest Hm Hna Hs. unfold decode_order. rewrite run_tbind.
  pose proof (run_toks_app m _ rest _ _ _ (R m Hm)) as E. cbn [app] in E. rewrite E. destruct used.
  - rewrite Efin. destruct (natural_of_permutation o natural _ Ho Hna Hp Hf) as (-> & V').
    rewrite Hn. destruct (store_order bsize buf o c (order_in ebuf o c) Ho Hc (Hs eq_refl) (order_in_len ebuf o c Ho)) as (b & -> & Eb & K). exists b. cbn [run_toks]. auto.
  - exists buf. cbn [run_toks]. split; [reflexivity|]. split; [intros j _; reflexivity|discriminate].
Qed.

(* ---- all orders ---- *)
Definition read_post (os : list Z) (used_orders mask computed : Z) (ebuf buf b : Z -> Z) : Prop :=
  (forall o c, is_transform o -> 0 <= c < 3 -> has computed (bucket o) = true -> order_in b o c = order_in buf o c) /\
  (forall o c, In o os -> 0 <= c < 3 -> has computed (bucket o) = false -> has mask (bucket o) = true ->
    order_in b o c = if has used_orders (bucket o) then order_in ebuf o c else natural_list o).
Lemma read_post_step o os used_orders mask computed ebuf buf b1 b : is_transform o -> Forall is_transform os -> has computed (bucket o) = false ->
  changes o buf b1 ->
  (has mask (bucket o) = true -> forall c, 0 <= c < 3 -> order_in b1 o c = if has used_orders (bucket o) then order_in ebuf o c else natural_list o) ->
  read_post os used_orders mask (Z.lor computed (Z.shiftl 1 (bucket o))) ebuf b1 b -> read_post (o :: os) used_orders mask computed ebuf buf b.
Proof.
  intros Ho Fs Hc Hch Hv (K & N). pose proof (bucket_range o Ho) as Rb. split.
  - intros o' c Ho' Hr Hb. pose proof (bucket_range o' Ho'). rewrite K; [|assumption|assumption|rewrite has_set by lia; now rewrite Hb]. apply Hch; [assumption|assumption|congruence].
  - intros o' c Hi Hr Hb Hm. assert (Ho' : is_transform o') by (destruct Hi as [<-|Hi]; [exact Ho|rewrite Forall_forall in Fs; now apply Fs]).
    pose proof (bucket_range o' Ho'). destruct (Z.eq_dec (bucket o) (bucket o')) as [E|E].
    + rewrite (K o' c Ho' Hr) by (rewrite has_set by lia; replace (bucket o =? bucket o') with true by lia; apply orb_true_r).
      rewrite <- E in Hm. rewrite <- (order_in_bucket b1 o o' c Ho Ho' E), <- (order_in_bucket ebuf o o' c Ho Ho' E), <- (natural_list_bucket o o' Ho Ho' E), <- E. now apply Hv.
    + destruct Hi as [<-|Hi]; [congruence|]. apply N; [assumption|assumption| |assumption]. rewrite has_set by lia. rewrite Hb. replace (bucket o =? bucket o') with false by lia. reflexivity.
Qed.

Lemma orders_written used_orders ebuf : (forall o c, is_transform o -> 0 <= c < 3 -> has used_orders (bucket o) = true -> valid_order o (order_in ebuf o c)) ->
  forall os computed lut0, Forall is_transform os ->
  exists raw, encode_loop os used_orders computed lut0 ebuf = Some raw /\ zlen raw <= 200000 * zlen os /\
    forall m mask nat0 bsize buf rest, 8 <= m -> (forall o, is_transform o -> has mask (bucket o) = true -> order_offset (bucket o) 3 <= bsize) ->
      exists b, run_toks m (decode_loop os used_orders mask computed nat0 bsize buf) (map placed raw ++ rest) = Some (Some (Some b), rest) /\
        read_post os used_orders mask computed ebuf buf b.
Proof.
  intros HV. induction os as [|o os IH]; intros computed lut0 F; cbn [encode_loop].
  - exists []. split; [reflexivity|]. split; [cbn; lia|]. intros m mask nat0 bsize buf rest Hm Hs. exists buf. split; [reflexivity|]. split; [reflexivity|]. intros o c [].
  - inversion F as [|? ? Fo Fs]; subst. cbv zeta. rewrite zlen_cons. pose proof (zlen_nonneg os). destruct (has computed (bucket o)) eqn:Ec.
    { destruct (IH computed lut0 Fs) as (raw & E & L & R). exists raw. split; [exact E|]. split; [lia|]. intros m mask nat0 bsize buf rest Hm Hs. cbn [decode_loop]. cbv zeta. rewrite Ec.
      destruct (R m mask nat0 bsize buf rest Hm Hs) as (b & Eb & K & N). exists b. split; [exact Eb|]. split; [exact K|]. intros o' c [<-|Hi]; [congruence|]. now apply N. }
    destruct (has used_orders (bucket o)) eqn:Eu.
    + destruct (natural_lut_spec o lut0 Fo) as (lut & -> & Hl).
      destruct (order_written o 0 lut ebuf Fo ltac:(lia) Hl (HV o 0 Fo ltac:(lia) Eu)) as (t0 & -> & L0 & R0).
      destruct (order_written o 1 lut ebuf Fo ltac:(lia) Hl (HV o 1 Fo ltac:(lia) Eu)) as (t1 & -> & L1 & R1).
      destruct (order_written o 2 lut ebuf Fo ltac:(lia) Hl (HV o 2 Fo ltac:(lia) Eu)) as (t2 & -> & L2 & R2).
      destruct (IH (Z.lor computed (Z.shiftl 1 (bucket o))) lut Fs) as (raw & -> & L & R). eexists. split; [reflexivity|]. split; [rewrite !zlen_app; lia|].
      intros m mask nat0 bsize buf rest Hm Hs. cbn [decode_loop]. cbv zeta. rewrite Ec, Eu, orb_true_r.
      destruct (natural_order_spec o nat0 Fo) as (natural & -> & Hn). unfold tseq. rewrite !map_app, <- !app_assoc. rewrite run_tbind.
      pose proof (shape_range o Fo). pose proof (region_place o 0 Fo ltac:(lia)) as (P0 & _). pose proof (region_place o 1 Fo ltac:(lia)) as (P1 & _). pose proof (region_place o 2 Fo ltac:(lia)) as (P2 & _).
      change (0 + 1) with 1 in *. change (1 + 1) with 2 in *. change (2 + 1) with 3 in *. set (used := has mask (bucket o)) in *.
      assert (Hu : used = true -> order_offset (bucket o) 3 <= bsize) by (intros E; now apply Hs).
      destruct (R0 m used natural bsize buf (map placed t1 ++ map placed t2 ++ map placed raw ++ rest) Hm Hn) as (b0 & -> & K0 & O0). { intros E. specialize (Hu E). lia. }
      rewrite run_tbind. destruct (R1 m used natural bsize b0 (map placed t2 ++ map placed raw ++ rest) Hm Hn) as (b1 & -> & K1 & O1). { intros E. specialize (Hu E). lia. }
      rewrite run_tbind. destruct (R2 m used natural bsize b1 (map placed raw ++ rest) Hm Hn) as (b2 & -> & K2 & O2). { intros E. specialize (Hu E). lia. }
      destruct (R m mask natural bsize b2 rest Hm Hs) as (b & Eb & Post). exists b. split; [exact Eb|]. eapply read_post_step; [exact Fo|exact Fs|exact Ec| | |exact Post].
      * intros o' c Ho' Hc N. rewrite (keeps_other o 2 o' c b1 b2) by (auto; lia). rewrite (keeps_other o 1 o' c b0 b1) by (auto; lia). apply (keeps_other o 0 o' c buf b0); auto; lia.
      * intros Em c Hc. rewrite Eu. assert (D : c = 0 \/ c = 1 \/ c = 2) by lia. destruct D as [->|[->| ->]].
        -- rewrite (keeps_other o 2 o 0 b1 b2) by (auto; lia). rewrite (keeps_other o 1 o 0 b0 b1) by (auto; lia). auto.
        -- rewrite (keeps_other o 2 o 1 b1 b2) by (auto; lia). auto.
        -- auto.
    + destruct (IH (Z.lor computed (Z.shiftl 1 (bucket o))) lut0 Fs) as (raw & -> & L & R). exists raw. split; [reflexivity|]. split; [lia|].
      intros m mask nat0 bsize buf rest Hm Hs. cbn [decode_loop]. cbv zeta. rewrite Ec, Eu, orb_false_r. destruct (has mask (bucket o)) eqn:Em.
      * destruct (natural_order_spec o nat0 Fo) as (natural & -> & Hn). rewrite (natural_gets o natural Fo Hn). pose proof (natural_len o Fo) as NL.
        destruct (store_three bsize buf o (natural_list o) (natural_list o) (natural_list o) Fo (Hs o Fo Em) NL NL NL) as (b0 & b1 & b2 & -> & -> & -> & O0 & O1 & O2 & Ch).
        destruct (R m mask natural bsize b2 rest Hm Hs) as (b & Eb & Post). exists b. split; [exact Eb|]. eapply read_post_step; [exact Fo|exact Fs|exact Ec|exact Ch| |exact Post].
        intros _ c Hc. rewrite Eu. assert (D : c = 0 \/ c = 1 \/ c = 2) by lia. destruct D as [->|[->| ->]]; assumption.
      * destruct (R m mask nat0 bsize buf rest Hm Hs) as (b & Eb & Post). exists b. split; [exact Eb|]. eapply read_post_step; [exact Fo|exact Fs|exact Ec| | |exact Post]; [intros o' c _ _ _; reflexivity|congruence].
Qed.

Lemma post_match used_orders used_acs ebuf buf b : read_post strategies used_orders (acs_mask used_acs) 0 ebuf buf b -> orders_match used_orders used_acs ebuf b.
Proof.
  intros (_ & N) o c Ho Hc Hu. specialize (N o c (in_strategies o Ho) Hc). rewrite N; [|unfold has; apply Z.bits_0|now apply acs_mask_spec].
  change (has used_orders (bucket o)) with (Z.testbit used_orders (bucket o)). destruct (Z.testbit used_orders (bucket o)); [reflexivity|]. now apply natural_list_ok.
Qed.

Theorem orders_roundtrip M mem used_orders used_acs lut0 nat0 ebuf buf : lane_count (m_lanes M) ->
  (forall o c, is_transform o -> 0 <= c < 3 -> Z.testbit used_orders (bucket o) = true -> valid_order o (order_in ebuf o c)) ->
  exists raw, orders_tokens used_orders lut0 ebuf = Some raw /\
    (used_orders = 0 -> exists b, parses (decode_orders M used_orders used_acs nat0 buf) [] (Some (Some b)) /\ orders_match used_orders used_acs ebuf b) /\
    forall mp p ts, used_orders <> 0 -> coding_of kPermutationContexts mp p ts raw ->
      exists fs b, encode_with_plan mem mp p ts = Some fs /\ Forall field_ok fs /\
        parses (decode_orders M used_orders used_acs nat0 buf) (fields_bits fs) (Some (Some b)) /\ orders_match used_orders used_acs ebuf b.
Proof.
  intros HL HV. destruct (orders_written used_orders ebuf HV strategies 0 lut0 strategies_all) as (raw & E & L & R). exists raw. split; [exact E|].
  assert (Hs : forall o, is_transform o -> has (acs_mask used_acs) (bucket o) = true -> order_offset (bucket o) 3 <= orders_size used_acs).
  { intros o Ho H. apply orders_size_enough; [exact Ho|]. now apply acs_mask_spec. }
  pose proof (decode_loop_contexts used_orders (acs_mask used_acs) (orders_size used_acs) strategies 0 nat0 buf) as CB.
  destruct (R 8 (acs_mask used_acs) nat0 (orders_size used_acs) buf [] ltac:(lia) Hs) as (b & Eb & Post). rewrite app_nil_r in Eb. apply post_match in Post. split.
  - intros ->. exists b. split; [|exact Post]. unfold decode_orders. cbv zeta. rewrite Z.eqb_refl.
    destruct (no_orders_no_reads (acs_mask used_acs) (orders_size used_acs) strategies 0 nat0 buf) as (r & Er). rewrite Er in *. cbn [run_toks] in Eb. injection Eb as -> _. apply parses_ret.
  - intros mp p ts N0 HC.
    destruct (coding_roundtrip M mem kPermutationContexts mp p ts raw (decode_loop strategies used_orders (acs_mask used_acs) 0 nat0 (orders_size used_acs) buf) (Some (Some b)) HL HC)
      as (fs & codes & ws & d & r & _ & _ & A3 & A4 & A5 & A6 & A7).
    { change (zlen strategies) with 27 in L. lia. }
    { intros m Hm. rewrite (toks_more 8 m) by (auto; unfold kPermutationContexts in Hm; lia). exact Eb. }
    exists (fs ++ ws), b. split; [exact A3|]. split; [exact A4|]. split; [|exact Post]. rewrite fields_bits_app. unfold decode_orders. cbv zeta. replace (used_orders =? 0) with false by lia.
    eapply parses_bind; [exact A5|]. cbv beta iota. eapply parses_bind_nil; [exact A6|]. cbv beta iota. rewrite A7. apply parses_ret.
Qed.

(* ---- what ComputeCoeffOrder makes ---- *)
Lemma insert_first x l : Forall (fun y => fst x < fst y) l -> insert_by x l = x :: l.
Proof. intros H. destruct l as [|y l]; [reflexivity|]. cbn [insert_by]. inversion H; subst. now replace (fst x <? fst y) with true by lia. Qed.
Lemma insert_perm x l : Permutation (insert_by x l) (x :: l).
Proof. induction l as [|y l IH]; cbn [insert_by]; [auto|]. destruct (fst x <? fst y); [auto|]. rewrite IH. apply perm_swap. Qed.
Lemma sort_perm l : Permutation (sort_by l) l.
Proof. induction l as [|x l IH]; cbn [sort_by fold_right]; [auto|]. fold (sort_by l). rewrite insert_perm. now constructor. Qed.
Lemma sort_prefix a : forall l, (forall i x, nth_error a i = Some x -> Forall (fun y => fst x < fst y) (skipn (S i) a ++ l)) -> sort_by (a ++ l) = a ++ sort_by l.
Proof.
  induction a as [|x a IH]; intros l H; [reflexivity|]. cbn [app sort_by fold_right]. fold (sort_by (a ++ l)). rewrite IH.
  - apply insert_first. specialize (H 0%nat x eq_refl). cbn [skipn] in H. apply Forall_app in H. destruct H as (H1 & H2). apply Forall_app. split; [exact H1|].
    rewrite Forall_forall in *. intros y Hy. apply H2. apply (Permutation_in _ (sort_perm l)), Hy.
  - intros i y Hy. apply (H (S i) y Hy).
Qed.
Lemma combine_map_zseq {A} (f : Z -> A) n : forall z, combine (zseq z n) (map f (zseq z n)) = map (fun k => (k, f k)) (zseq z n).
Proof. induction n as [|n IH]; intros z; [reflexivity|]. cbn [zseq map combine]. now rewrite IH. Qed.
Lemma zseq_app a b : forall z, zseq z (a + b) = zseq z a ++ zseq (z + Z.of_nat a) b.
Proof. induction a as [|a IH]; intros z; [cbn; f_equal; lia|]. cbn [Nat.add zseq app]. rewrite IH. do 3 f_equal. lia. Qed.
Lemma key_value c i : 0 <= c -> 0 <= i < 65536 -> Z.lor (Z.shiftl c 16) i = c * 65536 + i.
Proof.
  intros Hc Hi. rewrite Z.shiftl_mul_pow2 by lia. change (2 ^ 16) with 65536. symmetry. rewrite Z.add_nocarry_lxor.
  - apply Z.bits_inj'. intros k Hk. rewrite Z.lxor_spec, Z.lor_spec. change 65536 with (2 ^ 16). destruct (Z_lt_le_dec k 16).
    + rewrite Z.mul_pow2_bits_low by lia. now destruct (Z.testbit i k).
    + replace (Z.testbit i k) with false; [now rewrite orb_false_r, xorb_false_r|]. symmetry. destruct (Z.eq_dec i 0) as [->|]; [apply Z.bits_0|]. apply Z.bits_above_log2; [lia|]. apply Z.lt_le_trans with 16; [|lia]. apply Z.log2_lt_pow2; [lia|]. change (2 ^ 16) with 65536. lia.
  - apply Z.bits_inj'. intros k Hk. rewrite Z.land_spec, Z.bits_0. change 65536 with (2 ^ 16). destruct (Z_lt_le_dec k 16).
    + now rewrite Z.mul_pow2_bits_low by lia.
    + replace (Z.testbit i k) with false; [apply andb_false_r|]. symmetry. destruct (Z.eq_dec i 0) as [->|]; [apply Z.bits_0|]. apply Z.bits_above_log2; [lia|]. apply Z.lt_le_trans with 16; [|lia]. apply Z.log2_lt_pow2; [lia|]. change (2 ^ 16) with 65536. lia.
Qed.
Lemma permutation_perm n l l' : Permutation l l' -> is_permutation n l -> is_permutation n l'.
Proof.
  intros P (L & N & I). split; [|split].
  - unfold zlen in *. now rewrite <- (Permutation_length P).
  - now apply (Permutation_NoDup P).
  - intros v. rewrite <- I. split; intros H; [apply (Permutation_in _ (Permutation_sym P)), H|apply (Permutation_in _ P), H].
Qed.

Lemma nth_error_zseq n : forall z i, (i < n)%nat -> nth_error (zseq z n) i = Some (z + Z.of_nat i).
Proof. intros z i Hi. rewrite <- znth_nat. apply znth_zseq. lia. Qed.
Lemma skipn_zseq n : forall i z, skipn i (zseq z n) = zseq (z + Z.of_nat i) (n - i).
Proof.
  induction n as [|n IH]; intros i z; [now destruct i|]. destruct i as [|i]; [cbn [skipn]; now replace (z + Z.of_nat 0) with z by lia|]. cbn [zseq skipn Nat.sub]. rewrite IH. f_equal. lia.
Qed.

Lemma new_order_ok o natural count : is_transform o -> natural_is o natural -> (forall p, 0 <= count p < 2 ^ 48) -> (forall k, 0 <= k < llf o -> count (low_position o k) = 0) ->
  exists l, new_order o natural count = Some l /\ valid_order o l.
Proof.
  intros Ho Hn Hc H0. unfold new_order. rewrite (natural_gets o natural Ho Hn). eexists. split; [reflexivity|]. pose proof (shape_range o Ho) as SR. destruct (shape_facts o Ho) as (_ & _ & Lo & _).
  unfold natural_list. rewrite combine_map_zseq, map_map. cbn [fst snd].
  set (g := fun k => (Z.lor (Z.shiftl (count (nat_at o k)) 16) k, nat_at o k)).
  assert (Eg : forall k, 0 <= k < area o -> fst (g k) = count (nat_at o k) * 65536 + k) by (intros k Hk; unfold g; cbn [fst]; apply key_value; [apply Hc|lia]).
  split.
  - apply permutation_perm with (l := map (nat_at o) (zseq 0 (Z.to_nat (area o)))); [|apply (natural_valid o Ho)]. apply Permutation_sym.
    transitivity (map snd (map g (zseq 0 (Z.to_nat (area o))))); [apply Permutation_map, sort_perm|]. rewrite map_map. apply Permutation_refl.
  - intros k Hk. replace (Z.to_nat (area o)) with (Z.to_nat (llf o) + Z.to_nat (area o - llf o))%nat by lia. rewrite zseq_app, map_app, sort_prefix, map_app, znth_app_l.
    + rewrite map_map, znth_map_zseq by lia. unfold g. cbn [snd]. f_equal. apply Lo. lia.
    + rewrite !zlen_map, zlen_zseq. lia.
    + intros i x Hx. assert (Hi : (i < Z.to_nat (llf o))%nat). { assert (nth_error (map g (zseq 0 (Z.to_nat (llf o)))) i <> None) by congruence. apply nth_error_Some in H. rewrite map_length in H. pose proof (zlen_zseq 0 (Z.to_nat (llf o))) as E. unfold zlen in E. lia. }
      rewrite nth_error_map, nth_error_zseq in Hx by exact Hi. cbn [option_map] in Hx. apply Some_eq in Hx. subst x. cbn [Z.add].
      rewrite Eg by lia. rewrite Lo, H0 by lia.
      rewrite skipn_map, skipn_zseq, <- map_app. apply Forall_forall. intros y Hy. apply in_map_iff in Hy. destruct Hy as (j & <- & Hj). apply in_app_iff in Hj.
      assert (Hj' : Z.of_nat i < j < area o). { destruct Hj as [Hj|Hj]; apply zseq_inv in Hj; lia. }
      rewrite Eg by lia. pose proof (Hc (nat_at o j)). lia.
Qed.

Lemma same_list_eq a b : same_list a b = true -> a = b.
Proof.
  unfold same_list. rewrite andb_true_iff. intros (L & H). apply Z.eqb_eq in L. unfold zlen in L. revert b L H. induction a as [|x a IH]; intros b L H; destruct b as [|y b]; cbn [length] in L; [reflexivity|lia|lia|].
  cbn [combine forallb fst snd] in H. apply andb_true_iff in H. destruct H as (E & H). f_equal; [lia|]. apply IH; [lia|exact H].
Qed.


Lemma put_three o (l0 l1 l2 : list Z) buf : is_transform o -> zlen l0 = area o -> zlen l1 = area o -> zlen l2 = area o ->
  exists b0 b1 b2,
    (if order_offset (bucket o) (0 + 1) - order_offset (bucket o) 0 =? area o then store max_orders buf (order_offset (bucket o) 0) l0 else None) = Some b0 /\
    (if order_offset (bucket o) (1 + 1) - order_offset (bucket o) 1 =? area o then store max_orders b0 (order_offset (bucket o) 1) l1 else None) = Some b1 /\
    (if order_offset (bucket o) (2 + 1) - order_offset (bucket o) 2 =? area o then store max_orders b1 (order_offset (bucket o) 2) l2 else None) = Some b2 /\
    (order_in b2 o 0 = l0 /\ order_in b2 o 1 = l1 /\ order_in b2 o 2 = l2) /\ changes o buf b2.
Proof.
  intros Ho E0 E1 E2. pose proof (region_place o 0 Ho ltac:(lia)) as (P0 & _). pose proof (region_place o 1 Ho ltac:(lia)) as (P1 & _). pose proof (region_place o 2 Ho ltac:(lia)) as (P2 & _ & P3).
  replace (order_offset (bucket o) (0 + 1) - order_offset (bucket o) 0 =? area o) with true by lia.
  replace (order_offset (bucket o) (1 + 1) - order_offset (bucket o) 1 =? area o) with true by lia.
  replace (order_offset (bucket o) (2 + 1) - order_offset (bucket o) 2 =? area o) with true by lia.
  destruct (store_three max_orders buf o l0 l1 l2 Ho) as (b0 & b1 & b2 & S0 & S1 & S2 & O0 & O1 & O2 & Ch); [change (2 + 1) with 3 in P2; lia|assumption|assumption|assumption|].
  exists b0, b1, b2. auto 8.
Qed.

Lemma has_clear m b b' : 0 <= b -> 0 <= b' -> has (Z.land m (Z.lnot (Z.shiftl 1 b))) b' = has m b' && negb (b =? b').
Proof.
  intros Hb Hb'. unfold has. rewrite Z.land_spec, Z.lnot_spec by exact Hb'. f_equal. f_equal. rewrite Z.shiftl_1_l. destruct (Z.eqb_spec b b') as [->|N]; [now apply Z.pow2_bits_true|now apply Z.pow2_bits_false].
Qed.

(* the loop: fresh buckets get an order, the others keep theirs *)
Definition compute_post (os : list Z) (all prev cur_acs cur computed : Z) (buf : Z -> Z) (cur' : Z) (b : Z -> Z) : Prop :=
  (forall o c, is_transform o -> 0 <= c < 3 -> has computed (bucket o) = true \/ has prev (bucket o) = true \/ has all (bucket o) = true -> order_in b o c = order_in buf o c) /\
  (forall x, 0 <= x -> has cur' x = true -> has cur x = true) /\
  (forall o, is_transform o -> has computed (bucket o) = true \/ has prev (bucket o) = true -> has cur' (bucket o) = has cur (bucket o)) /\
  (forall o c, In o os -> 0 <= c < 3 -> has computed (bucket o) = false -> has prev (bucket o) = false -> has all (bucket o) = false -> has cur_acs (bucket o) = true ->
    valid_order o (order_in b o c) /\ (has cur' (bucket o) = false -> order_in b o c = natural_list o)).

Lemma compute_loop_ok count all prev cur_acs : counts_ok count -> forall os computed cur nat0 buf, Forall is_transform os ->
  exists cur' b, compute_loop os count all prev cur_acs cur computed nat0 buf = Some (cur', b) /\ compute_post os all prev cur_acs cur computed buf cur' b.
Proof.
  intros HC. induction os as [|o os IH]; intros computed cur nat0 buf F; cbn [compute_loop].
  - exists cur, buf. split; [reflexivity|]. repeat split; auto; contradiction.
  - inversion F as [|? ? Fo Fs]; subst. cbv zeta. pose proof (bucket_range o Fo) as Rb. destruct (has computed (bucket o)) eqn:Ec.
    { destruct (IH computed cur nat0 buf Fs) as (cur' & b & E & A & B & C & D). exists cur', b. split; [exact E|]. split; [exact A|]. split; [exact B|]. split; [exact C|].
      intros o' c [<-|Hi]; [congruence|]. now apply D. }
    set (cp := Z.lor computed (Z.shiftl 1 (bucket o))).
    assert (Hcp : forall o', is_transform o' -> has cp (bucket o') = has computed (bucket o') || (bucket o =? bucket o')) by (intros o' Ho'; pose proof (bucket_range o' Ho'); apply has_set; lia).
    (* what all three ways have in common *)
    assert (STEP : forall cur1 nat1 b1, changes o buf b1 -> (has prev (bucket o) = true \/ has all (bucket o) = true -> b1 = buf) ->
      (forall x, 0 <= x -> has cur1 x = true -> has cur x = true) -> (forall x, 0 <= x -> x <> bucket o \/ has prev x = true -> has cur1 x = has cur x) ->
      (has prev (bucket o) = false -> has all (bucket o) = false -> has cur_acs (bucket o) = true -> forall c, 0 <= c < 3 -> valid_order o (order_in b1 o c) /\ (has cur1 (bucket o) = false -> order_in b1 o c = natural_list o)) ->
      exists cur' b, compute_loop os count all prev cur_acs cur1 cp nat1 b1 = Some (cur', b) /\ compute_post (o :: os) all prev cur_acs cur computed buf cur' b).
    { intros cur1 nat1 b1 Ch Same Sub Oth V. destruct (IH cp cur1 nat1 b1 Fs) as (cur' & b & E & A & B & C & D). exists cur', b. split; [exact E|]. split; [|split; [|split]].
      - intros o' c Ho' Hr H. rewrite A; [|assumption|assumption|rewrite Hcp by assumption; destruct H as [-> | H]; auto].
        destruct (Z.eq_dec (bucket o) (bucket o')) as [E'|E']; [|now apply Ch]. destruct H as [H|H]; [congruence|]. rewrite <- E' in H. now rewrite (Same H).
      - intros x Hx H. apply Sub; [exact Hx|]. now apply B.
      - intros o' Ho' H. pose proof (bucket_range o' Ho'). rewrite C; [|assumption|rewrite Hcp by assumption; destruct H as [-> | H]; auto]. apply Oth; [lia|]. destruct H as [H|H]; [left; congruence|auto].
      - intros o' c Hi Hr H1 H2 H3 H4. assert (Ho' : is_transform o') by (destruct Hi as [<-|Hi]; [exact Fo|rewrite Forall_forall in Fs; now apply Fs]).
        destruct (Z.eq_dec (bucket o) (bucket o')) as [E'|E'].
        + assert (X : has cp (bucket o') = true) by (rewrite Hcp by assumption; replace (bucket o =? bucket o') with true by lia; apply orb_true_r).
          rewrite A by auto. rewrite C by auto. rewrite <- E' in H2, H3, H4 |- *. destruct (V H2 H3 H4 c Hr) as (V1 & V2).
          rewrite <- (order_in_bucket b1 o o' c Fo Ho' E'), <- (natural_list_bucket o o' Fo Ho' E'). split; [now apply (valid_order_bucket o o')|exact V2].
        + destruct Hi as [<-|Hi]; [congruence|]. apply D; auto. rewrite Hcp by assumption. rewrite H1. now replace (bucket o =? bucket o') with false by lia. }
    destruct (negb (has cur_acs (bucket o)) || has prev (bucket o) || has all (bucket o)) eqn:Esk.
    { apply STEP; auto; [intros o' c _ _ _; reflexivity|]. intros H1 H2 H3. rewrite H1, H2, H3 in Esk. discriminate. }
    rewrite !orb_false_iff, negb_false_iff in Esk. destruct Esk as ((Ea & Ep) & Eall).
    destruct (natural_order_spec o nat0 Fo) as (natural & -> & Hn). rewrite (natural_gets o natural Fo Hn). pose proof (natural_len o Fo) as NL. pose proof (natural_valid o Fo) as NV.
    destruct (has cur (bucket o)) eqn:Eo; cbn [negb].
    + assert (NO : forall c, 0 <= c < 3 -> exists l, new_order o natural (count (bucket o) c) = Some l /\ valid_order o l).
      { intros c Hc. apply new_order_ok; [exact Fo|exact Hn| |].
        - intros p. destruct (HC o c p Fo Hc) as (A & _). exact A.
        - intros k Hk. destruct (HC o c (low_position o k) Fo Hc) as (_ & A). apply A. eauto. }
      destruct (NO 0 ltac:(lia)) as (l0 & -> & V0). destruct (NO 1 ltac:(lia)) as (l1 & E1 & V1). destruct (NO 2 ltac:(lia)) as (l2 & E2 & V2).
      destruct (put_three o l0 l1 l2 buf Fo (proj1 (proj1 V0)) (proj1 (proj1 V1)) (proj1 (proj1 V2))) as (b0 & b1 & b2 & -> & P1 & P2 & (O0 & O1 & O2) & Ch).
      rewrite E1, P1, E2, P2.
      set (same := same_list (natural_list o) l0 && same_list (natural_list o) l1 && same_list (natural_list o) l2). apply STEP; [exact Ch|intros [H|H]; congruence| | |].
      * intros x Hx. destruct same; cbn [negb]; [|auto]. rewrite has_clear by lia. intros H. apply andb_true_iff in H. tauto.
      * intros x Hx Hd. destruct same; cbn [negb]; [|reflexivity]. rewrite has_clear by lia. destruct Hd as [Hd|Hd]; [replace (bucket o =? x) with false by lia; now rewrite andb_true_r|].
        destruct (Z.eqb_spec (bucket o) x) as [E'|]; [subst x; congruence|]. now rewrite andb_true_r.
      * intros _ _ _ c Hc. assert (D : c = 0 \/ c = 1 \/ c = 2) by lia. split.
        -- destruct D as [->|[->| ->]]; rewrite ?O0, ?O1, ?O2; assumption.
        -- destruct same eqn:Es; cbn [negb]; [|congruence]. intros _. unfold same in Es. rewrite !andb_true_iff in Es. destruct Es as ((S0 & S1) & S2).
           apply same_list_eq in S0, S1, S2. destruct D as [->|[->| ->]]; congruence.
    + destruct (put_three o (natural_list o) (natural_list o) (natural_list o) buf Fo NL NL NL) as (b0 & b1 & b2 & -> & -> & -> & (O0 & O1 & O2) & Ch).
      apply STEP; auto; [intros [H|H]; congruence|]. intros _ _ _ c Hc. assert (E : order_in b2 o c = natural_list o). { assert (D : c = 0 \/ c = 1 \/ c = 2) by lia. destruct D as [->|[->| ->]]; assumption. }
      rewrite E. auto.
Qed.

Theorem compute_orders_ok count all prev cur_acs cur nat0 buf : counts_ok count -> orders_fixed all prev buf -> (forall x, 0 <= x -> Z.testbit cur x = true -> Z.testbit cur_acs x = true) ->
  exists all' b, compute_orders count all prev cur_acs cur nat0 buf = Some (all', b) /\ orders_fixed all' (Z.lor prev cur_acs) b /\
    (forall o c, is_transform o -> 0 <= c < 3 -> Z.testbit prev (bucket o) = true -> order_in b o c = order_in buf o c).
Proof.
  intros HC (HA & HF) Hsub. unfold compute_orders. destruct (compute_loop_ok count all prev cur_acs HC strategies 0 cur nat0 buf strategies_all) as (cur' & b & -> & A & B & C & D).
  assert (H0 : forall x, has 0 x = false) by (intros x; apply Z.bits_0). unfold has in *.
  eexists _, b. split; [reflexivity|]. split; [split|].
  - intros x Hx. rewrite !Z.lor_spec, !orb_true_iff. intros [H|H]; [left; now apply HA|]. right. apply Hsub; [exact Hx|]. now apply B.
  - intros o c Ho Hc. pose proof (bucket_range o Ho) as Rb. rewrite !Z.lor_spec. intros H. destruct (Z.testbit prev (bucket o)) eqn:Ep.
    + rewrite A by auto. destruct (HF o c Ho Hc Ep) as (V & N). split; [exact V|]. intros Hn. apply orb_false_iff in Hn. apply N. tauto.
    + cbn [orb] in H. destruct (Z.testbit all (bucket o)) eqn:Ea; [rewrite (HA (bucket o) (proj1 Rb) Ea) in Ep; discriminate|].
      destruct (D o c (in_strategies o Ho) Hc (H0 _) Ep Ea H) as (V & N). split; [exact V|]. cbn [orb]. intros Hn. rewrite N by exact Hn. now apply natural_list_ok.
  - intros o c Ho Hc Hp. apply A; auto.
Qed.

(* the natural order is unique *)
Lemma sorted_unique n : forall (rank : Z -> Z) (f g : Z -> Z) from, 0 <= from ->
  (forall i j, from <= i < j -> j < n -> rank (f i) < rank (f j)) -> (forall i j, from <= i < j -> j < n -> rank (g i) < rank (g j)) ->
  (forall i, from <= i < n -> exists j, from <= j < n /\ f i = g j) -> (forall i, from <= i < n -> exists j, from <= j < n /\ g i = f j) ->
  forall i, from <= i < n -> f i = g i.
Proof.
  intros rank f g from Hfrom Hf Hg Fg Gf. assert (W : forall k i, (Z.to_nat (i - from) < k)%nat -> from <= i < n -> f i = g i).
  { induction k as [|k IH]; intros i Hk Hi; [lia|]. destruct (Fg i Hi) as (j & Hj & Ej). destruct (Gf i Hi) as (l & Hl & El).
    destruct (Z_lt_le_dec j i) as [C|C]; [rewrite <- (IH j) in Ej by lia; specialize (Hf j i ltac:(lia) ltac:(lia)); rewrite Ej in Hf; lia|].
    destruct (Z_lt_le_dec l i) as [C2|C2]; [rewrite (IH l) in El by lia; specialize (Hg l i ltac:(lia) ltac:(lia)); rewrite El in Hg; lia|].
    destruct (Z.eq_dec j i) as [->|Nj]; [exact Ej|]. destruct (Z.eq_dec l i) as [->|Nl]; [now symmetry|].
    specialize (Hg i j ltac:(lia) ltac:(lia)). specialize (Hf i l ltac:(lia) ltac:(lia)). rewrite Ej in Hf. rewrite El in Hg. lia. }
  intros i Hi. apply (W (S (Z.to_nat (i - from)))); lia.
Qed.
Lemma natural_unique o l l' : is_transform o -> is_natural o l -> is_natural o l' -> l = l'.
Proof.
  intros Ho ((P & L) & R) ((P' & L') & R'). pose proof (shape_range o Ho) as SR.
  assert (E : forall q k, is_permutation (area o) q -> 0 <= k < area o -> znth q k = Some (nth (Z.to_nat k) q 0)) by (intros q k (Lq & _) Hk; apply znth_some; lia).
  assert (IN : forall q q', is_permutation (area o) q -> is_permutation (area o) q' -> (forall k, 0 <= k < llf o -> znth q k = Some (low_position o k)) -> (forall k, 0 <= k < llf o -> znth q' k = Some (low_position o k)) ->
    forall i, llf o <= i < area o -> exists j, llf o <= j < area o /\ nth (Z.to_nat i) q 0 = nth (Z.to_nat j) q' 0).
  { intros q q' Pq Pq' Lq Lq' i Hi. destruct (permutation_in _ _ i Pq ltac:(lia)) as (v & Ev & Rv). destruct (permutation_onto _ _ v Pq' Rv) as (j & Ej & Rj). exists j.
    assert (Hj : llf o <= j). { destruct (Z_lt_le_dec j (llf o)) as [C|C]; [|exact C]. rewrite Lq' in Ej by lia. specialize (Lq j ltac:(lia)). apply Some_eq in Ej. subst v.
      pose proof (permutation_inj _ _ _ _ _ Pq Ev Lq). lia. }
    split; [lia|]. rewrite (E q i Pq ltac:(lia)) in Ev. rewrite (E q' j Pq' ltac:(lia)) in Ej. congruence. }
  apply znth_ext; [destruct P, P'; lia|]. intros i Hi. destruct P as (Lp & Pp). rewrite Lp in Hi. assert (P : is_permutation (area o) l) by (split; assumption).
  destruct (Z_lt_le_dec i (llf o)) as [C|C]; [rewrite L, L' by lia; reflexivity|]. rewrite (E l i P Hi), (E l' i P' Hi). f_equal.
  apply (sorted_unique (area o) (zigzag_rank o) (fun k => nth (Z.to_nat k) l 0) (fun k => nth (Z.to_nat k) l' 0) (llf o)); [lia| | | | |lia].
  - intros a b Hab Hb. apply (R a b); [lia| |]; apply E; auto; lia.
  - intros a b Hab Hb. apply (R' a b); [lia| |]; apply E; auto; lia.
  - intros a Ha. now apply IN.
  - intros a Ha. now apply IN.
Qed.

(* ---- from the first part to the decoder ---- *)
Lemma parts_ok nat0 : forall calls all acs buf, Forall part_ok calls -> orders_fixed all acs buf ->
  exists all' acs' b, compute_parts nat0 calls all acs buf = Some (all', acs', b) /\ orders_fixed all' acs' b /\
    (forall x, 0 <= x -> Z.testbit acs x = true -> Z.testbit acs' x = true) /\
    (forall o c, is_transform o -> 0 <= c < 3 -> Z.testbit acs (bucket o) = true -> order_in b o c = order_in buf o c).
Proof.
  induction calls as [|[[count cur_acs] cur] calls IH]; intros all acs buf F H; cbn [compute_parts].
  - exists all, acs, buf. auto.
  - inversion F as [|? ? Fp Fr]; subst. destruct Fp as (Fc & Fs). destruct (compute_orders_ok count all acs cur_acs cur nat0 buf Fc H Fs) as (all1 & b1 & -> & H1 & K1).
    destruct (IH all1 (Z.lor acs cur_acs) b1 Fr H1) as (all' & acs' & b & E & H' & S' & K'). exists all', acs', b. split; [exact E|]. split; [exact H'|]. split.
    + intros x Hx Hb. apply S'; [exact Hx|]. rewrite Z.lor_spec, Hb. reflexivity.
    + intros o c Ho Hc Hb. rewrite K'; [now apply K1|assumption|assumption|]. rewrite Z.lor_spec, Hb. reflexivity.
Qed.
Lemma nothing_fixed buf : orders_fixed 0 0 buf.
Proof. split; [intros b _; now rewrite Z.bits_0|]. intros o c _ _. rewrite Z.bits_0. discriminate. Qed.

Theorem orders_agree M mem nat0 lut0 dnat0 calls ebuf0 dbuf used_acs : lane_count (m_lanes M) -> Forall part_ok calls ->
  exists used_orders acs ebuf raw, compute_parts nat0 calls 0 0 ebuf0 = Some (used_orders, acs, ebuf) /\ orders_tokens used_orders lut0 ebuf = Some raw /\
    forall mp p ts fs, (used_orders = 0 -> fs = []) ->
      (used_orders <> 0 -> coding_of kPermutationContexts mp p ts raw /\ encode_with_plan mem mp p ts = Some fs) ->
      (forall o, is_transform o -> Z.testbit used_acs o = true -> Z.testbit acs (bucket o) = true) ->
      exists b, parses (decode_orders M used_orders used_acs dnat0 dbuf) (fields_bits fs) (Some (Some b)) /\
        forall o c, is_transform o -> 0 <= c < 3 -> Z.testbit used_acs o = true -> order_in b o c = order_in ebuf o c.
Proof.
  intros HL HF. destruct (parts_ok nat0 calls 0 0 ebuf0 HF (nothing_fixed ebuf0)) as (all & acs & ebuf & E & (HA & HV) & _ & _).
  destruct (orders_roundtrip M mem all used_acs lut0 dnat0 ebuf dbuf HL) as (raw & Er & R0 & R1).
  { intros o c Ho Hc Hb. pose proof (bucket_range o Ho). refine (proj1 (HV o c Ho Hc _)). apply HA; [lia|exact Hb]. }
  exists all, acs, ebuf, raw. split; [exact E|]. split; [exact Er|]. intros mp p ts fs H0 H1 Hu.
  assert (FIN : forall b, orders_match all used_acs ebuf b -> forall o c, is_transform o -> 0 <= c < 3 -> Z.testbit used_acs o = true -> order_in b o c = order_in ebuf o c).
  { intros b Hm o c Ho Hc Hb. specialize (Hm o c Ho Hc (ex_intro _ o (conj Ho (conj eq_refl Hb)))). destruct (Z.testbit all (bucket o)) eqn:Eb; [exact Hm|].
    apply (natural_unique o); [exact Ho|exact Hm|]. refine (proj2 (HV o c Ho Hc _) Eb). now apply Hu. }
  destruct (Z.eq_dec all 0) as [->|N].
  - rewrite (H0 eq_refl). destruct (R0 eq_refl) as (b & P & Hm). exists b. auto.
  - destruct (H1 N) as (HC & He). destruct (R1 mp p ts N HC) as (fs' & b & E' & _ & P & Hm). assert (fs' = fs) by congruence. subst. exists b. auto.
Qed.

(* ---- statements for COrderProps.v ---- *)
Lemma natural_and_lut o t t' : is_transform o ->
  exists f g, natural_order o t = Some f /\ natural_lut o t' = Some g /\ is_natural o (map f (zseq 0 (Z.to_nat (area o)))) /\
    forall k, 0 <= k < area o -> g (f k) = k /\ f (g k) = k.
Proof.
  intros Ho. destruct (natural_order_spec o t Ho) as (f & Ef & Hf). destruct (natural_lut_spec o t' Ho) as (g & Eg & Hg). exists f, g. split; [exact Ef|]. split; [exact Eg|]. split.
  - replace (map f (zseq 0 (Z.to_nat (area o)))) with (natural_list o); [now apply natural_list_ok|]. apply map_ext_zseq. intros k Hk. symmetry. apply Hf. lia.
  - intros k Hk. destruct (shape_facts o Ho) as (_ & G & _). destruct (G k Hk) as (A & B & C & D). rewrite (Hf k Hk), (Hg k Hk). rewrite (Hg _ A), (Hf _ C). auto.
Qed.
Lemma shared_orders o o' : is_transform o -> is_transform o' -> bucket o = bucket o' -> area o = area o' /\ forall l, is_natural o l <-> is_natural o' l.
Proof.
  intros H H' E. destruct (bucket_shape o o' H H' E) as (C & R & L & A). split; [exact A|]. intros l. unfold is_natural, valid_order, low_position, zigzag_rank. now rewrite C, R, L, A.
Qed.
Lemma orders_apart o c o' c' : is_transform o -> is_transform o' -> 0 <= c < 3 -> 0 <= c' < 3 ->
  (0 <= order_offset (bucket o) c /\ order_offset (bucket o) c + area o <= max_orders) /\
  (bucket o <> bucket o' \/ c <> c' -> order_offset (bucket o) c + area o <= order_offset (bucket o') c' \/ order_offset (bucket o') c' + area o' <= order_offset (bucket o) c).
Proof. intros H H' Hc Hc'. split; [apply (region_place o c H Hc)|]. now apply regions_disjoint. Qed.
Lemma any_orders M used_orders used_acs nat0 buf : lane_count (m_lanes M) -> forall s pos av, 0 <= pos -> 0 <= av <= 56 ->
  exists r pos' av', run_bits s pos av (decode_orders M used_orders used_acs nat0 buf) = Some (Some r, (pos', av')) /\ pos <= pos' /\ 0 <= av' <= 56 /\
    forall b, r = Some b -> orders_ok used_orders used_acs b.
Proof.
  intros HL s pos av Hp Ha. destruct (decode_orders_ends M used_orders used_acs nat0 buf HL s pos av Hp Ha) as (r & pos1 & av1 & E & (o & -> & Ho) & L1 & A1). exists o, pos1, av1. auto.
Qed.
