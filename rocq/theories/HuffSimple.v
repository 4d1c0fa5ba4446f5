(* Codes with at most four symbols: what BuildAndStoreHuffmanTree writes is read back. *)
From Verif Require Import Base ListAux Wrap FieldsProofs BitProg BitProgProofs HuffTreeModel HuffSpec HuffSort HuffRoot HuffSub HuffBuild HuffEnc HuffTop HuffRle HuffLens HuffStore HuffStored HuffSafe.
Ltac Zify.zify_post_hook ::= idtac.

(* ---- symbols without a word do not matter ---- *)

Definition nz (l : Z) : bool := negb (l =? 0).
Definition used_from (k : Z) (ls : list Z) : list Z := map fst (filter (fun e => nz (snd e)) (combine (zseq k (length ls)) ls)).
Definition used_of (ls : list Z) : list Z := used_from 0 ls.

Lemma used_cons k x ls : used_from k (x :: ls) = (if nz x then [k] else []) ++ used_from (k + 1) ls.
Proof. unfold used_from. cbn [length zseq combine filter snd]. destruct (nz x); reflexivity. Qed.

Lemma used_at ls : forall k s l, znth ls s = Some l -> 0 < l ->
  let i := length (filter nz (firstn (Z.to_nat s) ls)) in
  nth i (used_from k ls) 0 = k + s /\ nth i (filter nz ls) 0 = l /\ (i < length (filter nz ls))%nat.
Proof.
  induction ls as [|x ls IH]; intros k s l H Hl i.
  - unfold znth in H. destruct (s <? 0); [discriminate|]. destruct (Z.to_nat s); discriminate.
  - pose proof (znth_some_inv _ _ _ H) as R. unfold i. clear i. rewrite used_cons. destruct (Z.eq_dec s 0) as [->|Ns].
    + cbn in H. injection H as ->. assert (N : nz l = true) by (unfold nz; replace (l =? 0) with false by lia; reflexivity). cbn [Z.to_nat firstn filter length]. rewrite N. cbn [app nth length]. rewrite Z.add_0_r. split; [reflexivity|]. split; [reflexivity|lia].
    + assert (H' : znth ls (s - 1) = Some l).
      { unfold znth in *. replace (s <? 0) with false in H by lia. replace (s - 1 <? 0) with false by lia. replace (Z.to_nat s) with (S (Z.to_nat (s - 1))) in H by lia. exact H. }
      destruct (IH (k + 1) (s - 1) l H' Hl) as (A & B & D). replace (Z.to_nat s) with (S (Z.to_nat (s - 1))) by lia. cbn [firstn filter].
      destruct (nz x); cbn [app length nth]; (split; [rewrite A; lia|]); (split; [exact B|lia]).
Qed.

Lemma used_nth ls : forall k i, (i < length (filter nz ls))%nat -> exists s, nth i (used_from k ls) 0 = k + s /\ 0 <= s < zlen ls /\ znth ls s = Some (nth i (filter nz ls) 0) /\ i = length (filter nz (firstn (Z.to_nat s) ls)).
Proof.
  induction ls as [|x ls IH]; intros k i Hi; [cbn in Hi; lia|]. rewrite used_cons. cbn [filter] in *. pose proof (zlen_nonneg ls). rewrite zlen_cons.
  assert (Later : forall i', (i' < length (filter nz ls))%nat -> exists s, nth i' (used_from (k + 1) ls) 0 = k + s /\ 0 < s < 1 + zlen ls /\ znth (x :: ls) s = Some (nth i' (filter nz ls) 0) /\ i' = length (filter nz (firstn (Z.to_nat (s - 1)) ls))).
  { intros i' Hi'. destruct (IH (k + 1) i' Hi') as (s & E & R & Z1 & L). exists (s + 1). split; [rewrite E; lia|]. split; [lia|]. split; [|now replace (s + 1 - 1) with s by lia].
    unfold znth in *. replace (s <? 0) with false in Z1 by lia. replace (s + 1 <? 0) with false by lia. replace (Z.to_nat (s + 1)) with (S (Z.to_nat s)) by lia. exact Z1. }
  destruct (nz x) eqn:N.
  - destruct i as [|i]; cbn [app nth].
    + exists 0. rewrite Z.add_0_r. split; [reflexivity|]. split; [lia|]. split; reflexivity.
    + cbn [length] in Hi. destruct (Later i ltac:(lia)) as (s & E & R & Z1 & L). exists s. split; [exact E|]. split; [lia|]. split; [exact Z1|].
      replace (Z.to_nat s) with (S (Z.to_nat (s - 1))) by lia. cbn [firstn filter]. rewrite N. cbn [length]. lia.
  - cbn [app]. destruct (Later i Hi) as (s & E & R & Z1 & L). exists s. split; [exact E|]. split; [lia|]. split; [exact Z1|].
    replace (Z.to_nat s) with (S (Z.to_nat (s - 1))) by lia. cbn [firstn filter]. rewrite N. exact L.
Qed.

Lemma used_length ls : forall k, length (used_from k ls) = length (filter nz ls).
Proof. induction ls as [|x ls IH]; intros k; [reflexivity|]. rewrite used_cons, app_length, IH. cbn [filter]. destruct (nz x); cbn [length]; lia. Qed.

Lemma used_sorted ls i j : (i < j < length (filter nz ls))%nat -> nth i (used_of ls) 0 < nth j (used_of ls) 0.
Proof.
  intros H. destruct (used_nth ls 0 i ltac:(lia)) as (s & E & R & _ & L). destruct (used_nth ls 0 j ltac:(lia)) as (s' & E' & R' & _ & L').
  unfold used_of. rewrite E, E'. destruct (Z.lt_ge_cases s s') as [|G]; [lia|]. exfalso.
  assert (M : (length (filter nz (firstn (Z.to_nat s') ls)) <= length (filter nz (firstn (Z.to_nat s) ls)))%nat).
  { replace (firstn (Z.to_nat s') ls) with (firstn (Z.to_nat s') (firstn (Z.to_nat s) ls)).
    2: { rewrite firstn_firstn. f_equal. lia. }
    rewrite <- (firstn_skipn (Z.to_nat s') (firstn (Z.to_nat s) ls)) at 2. rewrite filter_app, app_length. lia. }
  lia.
Qed.

Lemma count_nz k ls : k <> 0 -> count_len k (filter nz ls) = count_len k ls.
Proof.
  intros Hk. induction ls as [|x ls IH]; [reflexivity|]. cbn [filter]. unfold nz at 1. destruct (Z.eqb_spec x 0) as [->|N]; cbn [negb].
  - rewrite count_len_cons, IH. replace (k =? 0) with false by lia. lia.
  - rewrite !count_len_cons, IH. reflexivity.
Qed.

Lemma zseq_in n : forall z x, In x (zseq z n) -> z <= x < z + Z.of_nat n.
Proof. induction n as [|n IH]; intros z x H; [destruct H|]. cbn [zseq] in H. destruct H as [->|H]; [lia|]. apply IH in H. lia. Qed.

Lemma codeword_nz ls s l : znth ls s = Some l -> 0 < l -> codeword ls s l = codeword (filter nz ls) (zlen (filter nz (firstn (Z.to_nat s) ls))) l.
Proof.
  intros H Hl. unfold codeword. do 3 f_equal. unfold start. f_equal.
  - f_equal. apply map_ext_in. intros k Hk. apply zseq_in in Hk. rewrite count_nz by lia. reflexivity.
  - f_equal. unfold zlen. rewrite Nat2Z.id. rewrite <- (firstn_skipn (Z.to_nat s) ls) at 3. rewrite filter_app, firstn_app, Nat.sub_diag. cbn [firstn]. rewrite app_nil_r, firstn_all.
    symmetry. apply count_nz. lia.
Qed.

Lemma kraft_nz ls : kraft (filter nz ls) = kraft ls.
Proof.
  unfold kraft. induction ls as [|x ls IH]; [reflexivity|]. cbn [filter]. unfold nz at 1. destruct (Z.eqb_spec x 0) as [->|N]; cbn [negb map zsum fold_right]; unfold zsum in IH; rewrite IH; reflexivity.
Qed.

(* ---- the possible lengths ---- *)

Definition small_codes : list (list Z) :=
  [[1; 1]; [1; 2; 2]; [2; 1; 2]; [2; 2; 1]; [2; 2; 2; 2];
   [1; 2; 3; 3]; [1; 3; 2; 3]; [1; 3; 3; 2]; [2; 1; 3; 3]; [3; 1; 2; 3]; [3; 1; 3; 2];
   [2; 3; 1; 3]; [3; 2; 1; 3]; [3; 3; 1; 2]; [2; 3; 3; 1]; [3; 2; 3; 1]; [3; 3; 2; 1]].

Fixpoint list_eqb (a b : list Z) : bool :=
  match a, b with
  | [], [] => true
  | x :: a', y :: b' => (x =? y) && list_eqb a' b'
  | _, _ => false
  end.
Lemma list_eqb_eq a : forall b, list_eqb a b = true -> a = b.
Proof. induction a as [|x a IH]; intros [|y b] H; try discriminate; [reflexivity|]. cbn in H. apply andb_prop in H as (A & B). apply Z.eqb_eq in A. subst. f_equal. auto. Qed.
Definition is_small (l : list Z) : bool := negb (kraft l =? 32768) || existsb (list_eqb l) small_codes.

Definition test2 (a : Z) : bool := forallb (fun b => is_small [a; b]) (zseq 1 15).
Definition test3 (a : Z) : bool := forallb (fun b => forallb (fun c => is_small [a; b; c]) (zseq 1 15)) (zseq 1 15).
Definition test4 (a : Z) : bool := forallb (fun b => forallb (fun c => forallb (fun d => is_small [a; b; c; d]) (zseq 1 15)) (zseq 1 15)) (zseq 1 15).
Lemma tests_ok : forallb (fun a => test2 a && test3 a && test4 a) (zseq 1 15) = true.
Proof. vm_cast_no_check (eq_refl true). Qed.

Lemma small_in l : is_small l = true -> kraft l = 32768 -> In l small_codes.
Proof.
  intros H E. unfold is_small in H. rewrite E in H. change (32768 =? 32768) with true in H. cbn [negb orb] in H. apply existsb_exists in H as (x & Hin & Ex). apply list_eqb_eq in Ex. now subst.
Qed.

Lemma small_lengths l : Forall (fun x => 1 <= x <= 15) l -> kraft l = 32768 -> (2 <= length l <= 4)%nat -> In l small_codes.
Proof.
  intros F E Hl. pose proof tests_ok as T.
  assert (Rng : forall x, 1 <= x <= 15 -> In x (zseq 1 15)) by (intros; apply in_zseq; cbn; lia).
  destruct l as [|a [|b l]]; cbn [length] in Hl; try lia. inversion F as [|? ? Ha F1]; subst. inversion F1 as [|? ? Hb F2]; subst.
  pose proof (proj1 (forallb_forall _ _) T a (Rng a Ha)) as Ta. cbv beta in Ta. apply andb_prop in Ta as (Ta & T4). apply andb_prop in Ta as (T2 & T3). clear T.
  destruct l as [|c l].
  - apply small_in; [|exact E]. exact (proj1 (forallb_forall _ _) T2 b (Rng b Hb)).
  - inversion F2 as [|? ? Hc F3]; subst. destruct l as [|d l].
    + apply small_in; [|exact E]. pose proof (proj1 (forallb_forall _ _) T3 b (Rng b Hb)) as T3b. exact (proj1 (forallb_forall _ _) T3b c (Rng c Hc)).
    + inversion F3 as [|? ? Hd F4]; subst. destruct l as [|? ?]; [|cbn [length] in Hl; lia].
      apply small_in; [|exact E]. pose proof (proj1 (forallb_forall _ _) T4 b (Rng b Hb)) as T4b. pose proof (proj1 (forallb_forall _ _) T4b c (Rng c Hc)) as T4c. exact (proj1 (forallb_forall _ _) T4c d (Rng d Hd)).
Qed.

(* ---- symbols replaced by their ranks ---- *)

Section Ranks.
Variables (depths lens used : list Z).
Let m := zlen lens.
Hypothesis Hm : 2 <= m <= 4.
Hypothesis Hu : zlen used = m.
Let phi (i : Z) : Z := nth (Z.to_nat i) used 0.
Hypothesis Hphi : forall i, 0 <= i < m -> znth depths (phi i) = znth lens i.
Hypothesis Hmono : forall i j, 0 <= i < m -> 0 <= j < m -> (phi i <? phi j) = (i <? j).
Let rng (i : Z) : Prop := 0 <= i < m.

Lemma znth_map_phi l i : znth (map phi l) i = option_map phi (znth l i).
Proof. unfold znth. destruct (i <? 0); [reflexivity|]. apply nth_error_map. Qed.

Lemma swap_if_phi i j l : Forall rng l ->
  match swap_if lens i j l with Some l' => swap_if depths i j (map phi l) = Some (map phi l') /\ Forall rng l' | None => swap_if depths i j (map phi l) = None end.
Proof.
  intros F. unfold swap_if. rewrite !znth_map_phi.
  assert (R : forall k x, znth l k = Some x -> rng x). { intros k x E. pose proof (znth_some_inv _ _ _ E). unfold znth in E. replace (k <? 0) with false in E by lia. apply nth_error_In in E. exact (proj1 (Forall_forall _ _) F x E). }
  destruct (znth l i) as [a|] eqn:Ea; [|reflexivity]. cbn [option_map]. destruct (znth l j) as [b|] eqn:Eb; [|reflexivity]. cbn [option_map].
  rewrite (Hphi a), (Hphi b) by (eapply R; eassumption). destruct (znth lens a) as [da|]; [|reflexivity]. destruct (znth lens b) as [db|]; [|reflexivity].
  destruct (db <? da); [|split; [reflexivity|assumption]]. rewrite map_length. split.
  - f_equal. rewrite map_map. apply map_ext_in. intros k Hk. apply zseq_in in Hk. destruct (k =? i); [reflexivity|]. destruct (k =? j); [reflexivity|].
    rewrite (nth_indep _ 0 (phi 0)) by (rewrite map_length; lia). apply map_nth.
  - apply Forall_forall. intros x Hx. apply in_map_iff in Hx as (k & <- & Hk). apply zseq_in in Hk. destruct (k =? i); [eapply R; eassumption|]. destruct (k =? j); [eapply R; eassumption|].
    apply (proj1 (Forall_forall _ _) F). apply nth_In. lia.
Qed.

Lemma sort_inner_phi i js : forall l, Forall rng l ->
  match sort_inner lens i js l with Some l' => sort_inner depths i js (map phi l) = Some (map phi l') /\ Forall rng l' | None => sort_inner depths i js (map phi l) = None end.
Proof.
  induction js as [|j js IH]; intros l F; cbn [sort_inner]; [auto|]. pose proof (swap_if_phi i j l F) as S0. destruct (swap_if lens i j l) as [l'|].
  - destruct S0 as (-> & F'). apply IH. exact F'.
  - now rewrite S0.
Qed.

Lemma sort_outer_phi is : forall l, Forall rng l ->
  match sort_outer lens is l with Some l' => sort_outer depths is (map phi l) = Some (map phi l') /\ Forall rng l' | None => sort_outer depths is (map phi l) = None end.
Proof.
  induction is as [|i is IH]; intros l F; cbn [sort_outer]; [auto|].
  replace (zlen (map phi l)) with (zlen l) by (unfold zlen; now rewrite map_length).
  pose proof (sort_inner_phi i (zseq (i + 1) (Z.to_nat (zlen l - (i + 1)))) l F) as S0. destruct (sort_inner lens i _ l) as [l'|].
  - destruct S0 as (-> & F'). apply IH. exact F'.
  - now rewrite S0.
Qed.

Lemma order2_phi i j l : length l = 4%nat -> (i < 4)%nat -> (j < 4)%nat -> rng (nth i l 0) -> rng (nth j l 0) -> order2 i j (map phi l) = map phi (order2 i j l).
Proof.
  intros Hl Hi Hj Ri Rj. unfold order2. assert (N : forall k, (k < 4)%nat -> nth k (map phi l) 0 = phi (nth k l 0)).
  { intros k Hk. rewrite (nth_indep _ 0 (phi 0)) by (rewrite map_length; lia). apply map_nth. }
  rewrite (N i Hi), (N j Hj), Hmono by assumption. destruct (_ <? _); [|reflexivity]. rewrite map_map. apply map_ext_in. intros k Hk. apply in_seq in Hk.
  destruct (k =? i)%nat; [reflexivity|]. destruct (k =? j)%nat; [reflexivity|]. apply N. lia.
Qed.

Lemma entries_phi k l : length l = 4%nat -> (k = 2 /\ m = 2 \/ k = 3 /\ m = 3 \/ (k = 4 \/ k = 5) /\ m = 4) -> Forall rng (firstn (Z.to_nat m) l) ->
  simple_entries k (map phi l) = option_map (map (fun e => (fst e, phi (snd e)))) (simple_entries k l).
Proof.
  intros Hl Hk F. assert (N : forall l i, length l = 4%nat -> (i < 4)%nat -> nth i (map phi l) 0 = phi (nth i l 0)).
  { intros l' i Hl' Hi. rewrite (nth_indep _ 0 (phi 0)) by (rewrite map_length; lia). apply map_nth. }
  assert (R : forall i, (i < Z.to_nat m)%nat -> rng (nth i l 0)).
  { intros i Hi. apply (proj1 (Forall_forall _ _) F). rewrite <- (firstn_skipn (Z.to_nat m) l) at 1. rewrite app_nth1 by (rewrite firstn_length; lia). apply nth_In. rewrite firstn_length. lia. }
  destruct Hk as [(-> & Em)|[(-> & Em)|([->| ->] & Em)]]; unfold simple_entries; cbn [option_map map fst snd].
  - rewrite order2_phi; try lia; try (apply R; rewrite Em; cbn; lia). rewrite !N; try lia; try reflexivity. all: apply (order2_ok (fun _ => True)); try lia; apply Forall_forall; auto.
  - rewrite order2_phi; try lia; try (apply R; rewrite Em; cbn; lia). rewrite !N; try lia; try reflexivity. all: apply (order2_ok (fun _ => True)); try lia; apply Forall_forall; auto.
  - rewrite Em in F, R. assert (F4 : Forall rng l) by (rewrite firstn_all2 in F by (rewrite Hl; cbn; lia); exact F).
    assert (G : forall l i j, length l = 4%nat /\ Forall rng l -> (i < 4)%nat -> (j < 4)%nat -> order2 i j (map phi l) = map phi (order2 i j l) /\ length (order2 i j l) = 4%nat /\ Forall rng (order2 i j l)).
    { intros l' i j (Hl' & F') Hi Hj. split; [apply order2_phi; try assumption; apply (proj1 (Forall_forall _ _) F'); apply nth_In; lia|]. apply order2_ok; assumption. }
    destruct (G l 0%nat 1%nat (conj Hl F4) ltac:(lia) ltac:(lia)) as (-> & G1). destruct (G _ 0%nat 2%nat G1 ltac:(lia) ltac:(lia)) as (-> & G2). destruct (G _ 0%nat 3%nat G2 ltac:(lia) ltac:(lia)) as (-> & G3).
    destruct (G _ 1%nat 2%nat G3 ltac:(lia) ltac:(lia)) as (-> & G4). destruct (G _ 1%nat 3%nat G4 ltac:(lia) ltac:(lia)) as (-> & G5). destruct (G _ 2%nat 3%nat G5 ltac:(lia) ltac:(lia)) as (-> & G6).
    rewrite !N; try lia; try reflexivity; apply G6.
  - rewrite order2_phi; try lia; try (apply R; rewrite Em; cbn; lia). rewrite !N; try lia; try reflexivity. all: apply (order2_ok (fun _ => True)); try lia; apply Forall_forall; auto.
Qed.

Lemma distinct_phi l : Forall rng l -> all_distinct (map phi l) = all_distinct l.
Proof.
  induction l as [|x l IH]; intros F; [reflexivity|]. cbn [map all_distinct]. rewrite IH by (now apply Forall_inv_tail in F). f_equal. f_equal.
  pose proof (Forall_inv F) as Rx. apply Forall_inv_tail in F. clear IH. induction l as [|y l IH]; [reflexivity|]. cbn [map existsb]. rewrite IH by (now apply Forall_inv_tail in F). f_equal.
  pose proof (Forall_inv F) as Ry. pose proof (Hmono x y Rx Ry). pose proof (Hmono y x Ry Rx).
  destruct (Z.ltb_spec (phi x) (phi y)), (Z.ltb_spec x y), (Z.ltb_spec (phi y) (phi x)), (Z.ltb_spec y x), (Z.eqb_spec (phi x) (phi y)), (Z.eqb_spec x y); try discriminate; try reflexivity; lia.
Qed.
End Ranks.

(* ---- the seventeen codes ---- *)

Definition ranks (lens : list Z) : list Z := zseq 0 (length lens).
Definition tree_select (lens : list Z) : bool := existsb (Z.eqb 1) lens.
Definition code_number (lens : list Z) : Z := if (zlen lens =? 4) && tree_select lens then 5 else zlen lens.
Definition pad4 (l : list Z) : list Z := l ++ zseq (zlen l) (4 - length l).

Definition entry_eqb (a b : Z * Z) : bool := (fst a =? fst b) && (snd a =? snd b).
Definition word_check (lens : list Z) (es : list (Z * Z)) (i : Z) : bool :=
  match znth lens i with
  | Some l => forallb (fun x => negb (x mod 2 ^ l =? key_of lens i l) || entry_eqb (nth (Z.to_nat (x mod 2 ^ log_size es)) es (0, 0)) (l, i)) (zseq 0 256)
  | None => false
  end.
Definition small_check (lens : list Z) : bool :=
  match sort_outer lens (ranks lens) (ranks lens) with
  | Some idx =>
      (zlen idx =? zlen lens) && all_distinct idx &&
      match znth idx 0 with
      | Some i => match znth lens i with Some d => Bool.eqb (d =? 1) (tree_select lens) | None => false end
      | None => false
      end &&
      match simple_entries (code_number lens) (pad4 idx) with
      | Some es => forallb (word_check lens es) (ranks lens)
      | None => false
      end
  | None => false
  end.
Lemma all_small_checked : forallb (fun lens => small_check lens && (2 <=? zlen lens) && (zlen lens <=? 4)) small_codes = true.
Proof. vm_cast_no_check (eq_refl true). Qed.

(* ---- reading ---- *)

Definition size_bits (n : Z) : Z := if 1 <? n then Z.log2 (n - 1) + 1 else 0.

Lemma size_bits_ok n : 1 <= n <= 2 ^ 15 -> 0 <= size_bits n <= 15 /\ n <= 2 ^ size_bits n.
Proof.
  intros Hn. unfold size_bits. destruct (Z.ltb_spec 1 n); [|split; [lia|change (2 ^ 0) with 1; lia]]. pose proof (Z.log2_nonneg (n - 1)). assert (Z.log2 (n - 1) < 15) by (apply Z.log2_lt_pow2; lia).
  split; [lia|]. pose proof (Z.log2_spec (n - 1) ltac:(lia)) as (_ & U). change (Z.succ (Z.log2 (n - 1))) with (Z.log2 (n - 1) + 1) in U. lia.
Qed.

Lemma max_bits_ok fuel : forall c b, 0 <= c < 2 ^ Z.of_nat fuel -> max_bits_loop fuel c b = Some (b + (if c =? 0 then 0 else Z.log2 c + 1)).
Proof.
  induction fuel as [|fuel IH]; intros c b Hc.
  - change (2 ^ Z.of_nat 0) with 1 in Hc. replace c with 0 by lia. cbn. f_equal. lia.
  - cbn [max_bits_loop]. destruct (Z.eqb_spec c 0) as [->|N]; [f_equal; lia|].
    assert (E : Z.shiftr c 1 = c / 2) by (rewrite Z.shiftr_div_pow2 by lia; reflexivity). rewrite E.
    assert (H2 : 0 <= c / 2 < 2 ^ Z.of_nat fuel).
    { split; [apply Z.div_pos; lia|]. apply Z.div_lt_upper_bound; [lia|]. replace (Z.of_nat (S fuel)) with (Z.of_nat fuel + 1) in Hc by lia. rewrite Z.pow_add_r in Hc by lia. change (2 ^ 1) with 2 in Hc. lia. }
    rewrite IH by exact H2. f_equal. destruct (Z.eqb_spec (c / 2) 0) as [E0|N0].
    + assert (c = 1). { pose proof (Z.div_mod c 2 ltac:(lia)). pose proof (Z.mod_pos_bound c 2 ltac:(lia)). lia. } subst c. cbn. lia.
    + assert (L : Z.log2 c = Z.log2 (c / 2) + 1); [|lia]. rewrite <- E. rewrite Z.log2_shiftr by lia. assert (1 <= Z.log2 c); [|lia].
      apply Z.log2_le_pow2; [lia|]. change (2 ^ 1) with 2. destruct (Z.le_gt_cases 2 c); [assumption|]. assert (c = 1) by lia. subst c. contradiction.
Qed.

Lemma max_bits_size n : 1 <= n <= 2 ^ 15 -> max_bits_loop 64 (w64 (n - 1)) 0 = Some (size_bits n).
Proof.
  intros Hn. change (2 ^ 15) with 32768 in Hn. replace (w64 (n - 1)) with (n - 1) by (unfold w64; symmetry; apply Z.mod_small; lia).
  rewrite max_bits_ok by (change (2 ^ Z.of_nat 64) with 18446744073709551616; lia). unfold size_bits. destruct (Z.eqb_spec (n - 1) 0), (Z.ltb_spec 1 n); try lia; reflexivity.
Qed.

Lemma read_symbols_parses n : 1 <= n <= 2 ^ 15 -> forall syms, Forall (fun s => 0 <= s < n) syms ->
  Forall field_ok (map (fun s => (size_bits n, s)) syms) /\
  parses (read_symbols (length syms) n (size_bits n)) (fields_bits (map (fun s => (size_bits n, s)) syms)) (Some syms).
Proof.
  intros Hn syms. destruct (size_bits_ok n Hn) as (Hb & Hp). induction 1 as [|s syms Hs _ (IH1 & IH2)]; [split; [constructor|apply parses_ret]|].
  cbn [map length read_symbols]. split. { constructor; [unfold field_ok; cbn [fst snd]; lia|exact IH1]. }
  rewrite fields_bits_cons. cbn [fst snd]. eapply parses_bind; [apply parses_rd; lia|].
  replace (w16 s) with s by (unfold w16; symmetry; apply Z.mod_small; change (2 ^ 15) with 32768 in Hn; lia). replace (n <=? s) with false by lia.
  eapply parses_bind_nil; [exact IH2|]. cbn [option_map]. apply parses_ret.
Qed.

Lemma simple_key lens es i l t : (forall r, 0 <= r < 256 -> t r = nth (Z.to_nat (r mod 2 ^ log_size es)) es (0, 0)) ->
  1 <= l <= 8 -> 0 <= log_size es <= 3 -> forall s, (forall x, 0 <= x < 256 -> x mod 2 ^ l = key_of lens i l -> nth (Z.to_nat (x mod 2 ^ log_size es)) es (0, 0) = (l, s)) ->
  parses_buffered 15 (huff_read (256, t)) (codeword lens i l) (Some s).
Proof.
  intros Ht Hl Hlog s H. rewrite codeword_key by lia. intros pre post av Hav. exists (av - l). rewrite zlen_to_bits, Z2Nat.id by lia. split; [|lia].
  apply huff_run with (key := key_of lens i l); try lia; [pose proof (zlen_nonneg pre); lia| |].
  - unfold looks_up. replace (l <=? 8) with true by lia. change (2 ^ 8) with 256. intros r Hr E. rewrite Ht by assumption. now apply H.
  - apply bits_at_exact; [lia|]. apply key_of_range. lia.
Qed.

Theorem simple_roundtrip mem garbage depths : lengths_ok depths -> complete depths -> zlen depths <= 2 ^ 15 -> 2 <= zlen (used_of depths) <= 4 ->
  exists fs t, store_simple depths (used_of depths) (size_bits (zlen depths)) = Some fs /\ Forall field_ok fs /\
    parses (read_from_bit_stream mem garbage (zlen depths)) (fields_bits fs) (Some (Some (256, t))) /\
    forall s l, znth depths s = Some l -> 0 < l -> parses_buffered 15 (huff_read (256, t)) (codeword depths s l) (Some s).
Proof.
  intros Hok Hc Hn Hm0. set (lens := filter nz depths). set (used := used_of depths). set (n := zlen depths) in *.
  assert (Hul : length used = length lens) by apply used_length.
  assert (Hm : 2 <= zlen lens <= 4) by (unfold used in *; unfold zlen in Hm0 |- *; lia).
  assert (Hpos : Forall (fun l => 1 <= l <= 15) lens).
  { apply Forall_forall. intros x Hx. apply filter_In in Hx as (Hin & Hx). pose proof (proj1 (Forall_forall _ _) Hok x Hin). cbv beta in *. unfold nz in Hx. destruct (Z.eqb_spec x 0); [discriminate|lia]. }
  assert (Hk : kraft lens = 32768). { unfold lens. rewrite kraft_nz. exact Hc. }
  assert (Hin : In lens small_codes) by (apply small_lengths; [exact Hpos|exact Hk|unfold zlen in Hm; lia]).
  pose proof (proj1 (forallb_forall _ _) all_small_checked lens Hin) as Chk. cbv beta in Chk. apply andb_prop in Chk as (Chk & _). apply andb_prop in Chk as (Chk & _). unfold small_check in Chk.
  set (phi := fun i => nth (Z.to_nat i) used 0).
  assert (Hphi : forall i, 0 <= i < zlen lens -> 0 <= phi i < n /\ znth depths (phi i) = znth lens i).
  { intros i Hi. destruct (used_nth depths 0 (Z.to_nat i)) as (s & E & R & Z1 & _); [fold lens; unfold zlen in Hi; lia|]. unfold phi, used, used_of. rewrite E, Z.add_0_l. split; [exact R|].
    rewrite Z1. symmetry. apply znth_some. exact Hi. }
  assert (Hmono : forall i j, 0 <= i < zlen lens -> 0 <= j < zlen lens -> (phi i <? phi j) = (i <? j)).
  { assert (M : forall i j, 0 <= i < j -> j < zlen lens -> phi i < phi j) by (intros i j Hij Hj; apply used_sorted; fold lens; unfold zlen in Hj; lia).
    intros i j Hi Hj. destruct (Z.lt_trichotomy i j) as [L|[->|L]]; [specialize (M i j ltac:(lia) ltac:(lia))|rewrite !Z.ltb_irrefl; reflexivity|specialize (M j i ltac:(lia) ltac:(lia))];
    destruct (Z.ltb_spec (phi i) (phi j)), (Z.ltb_spec i j); try reflexivity; lia. }
  assert (Hu : zlen used = zlen lens) by (unfold zlen; lia).
  assert (Frk : Forall (fun i => 0 <= i < zlen lens) (ranks lens)) by (apply Forall_forall; intros x Hx; apply zseq_in in Hx; unfold zlen; lia).
  assert (Emap : map phi (ranks lens) = used).
  { unfold ranks, phi. rewrite <- Hul. clear. 
    assert (G : forall (l : list Z) k, 0 <= k -> map (fun i => nth (Z.to_nat (i - k)) l 0) (zseq k (length l)) = l).
    { induction l as [|x l IH]; intros k Hk; [reflexivity|]. cbn [length zseq map]. rewrite Z.sub_diag. cbn [Z.to_nat nth]. f_equal. rewrite <- (IH (k + 1) ltac:(lia)) at 2. apply map_ext_in.
      intros i Hi. apply zseq_in in Hi. replace (Z.to_nat (i - k)) with (S (Z.to_nat (i - (k + 1)))) by lia. reflexivity. }
    transitivity (map (fun i => nth (Z.to_nat (i - 0)) used 0) (zseq 0 (length used))); [|apply G; lia]. apply map_ext. intros i. now rewrite Z.sub_0_r. }
  pose proof (sort_outer_phi depths lens used (fun i Hi => proj2 (Hphi i Hi)) Hmono (ranks lens) (ranks lens) Frk) as Hsort. fold phi in Hsort. rewrite Emap in Hsort.
  destruct (sort_outer lens (ranks lens) (ranks lens)) as [idx|]; [|discriminate]. destruct Hsort as (Esort & Fidx).
  apply andb_prop in Chk as (Chk & Ces). apply andb_prop in Chk as (Chk & Cd0). apply andb_prop in Chk as (Clen & Cdist). apply Z.eqb_eq in Clen.
  destruct (simple_entries (code_number lens) (pad4 idx)) as [es|] eqn:Ees; [|discriminate].
  destruct (znth idx 0) as [i0|] eqn:Ei0; [|discriminate].
  assert (Ri0 : 0 <= i0 < zlen lens). { unfold znth in Ei0. apply nth_error_In in Ei0. exact (proj1 (Forall_forall _ _) Fidx i0 Ei0). }
  destruct (znth lens i0) as [d0|] eqn:Ed0; [|discriminate]. apply Bool.eqb_prop in Cd0.
  set (syms := map phi idx).
  assert (Fsyms : Forall (fun s => 0 <= s < n) syms). { apply Forall_forall. intros x Hx. apply in_map_iff in Hx as (i & <- & Hi). apply Hphi. exact (proj1 (Forall_forall _ _) Fidx i Hi). }
  assert (Hn1 : 1 <= n <= 2 ^ 15) by (pose proof (proj1 (Hphi 0 ltac:(lia))); lia).
  assert (Hsl : zlen syms = zlen lens) by (unfold syms, zlen in *; rewrite map_length; lia).
  assert (Hl4 : length (pad4 idx) = 4%nat). { unfold pad4. rewrite app_length. assert (L : forall k z, length (zseq z k) = k) by (clear; induction k; intros; cbn; [reflexivity|now rewrite IHk]). rewrite L. unfold zlen in Clen, Hm. lia. }
  assert (Epad : syms ++ repeat 0 (4 - length syms) = map phi (pad4 idx)).
  { unfold pad4, syms. rewrite map_app, map_length. f_equal. rewrite <- (map_id (repeat 0 _)).
    assert (G : forall k z, zlen used <= z -> repeat 0 k = map phi (zseq z k)).
    { clear. induction k as [|k IH]; intros z Hz; [reflexivity|]. cbn [repeat zseq map]. f_equal; [|apply IH; lia]. unfold phi. rewrite nth_overflow; [reflexivity|]. unfold zlen in Hz. lia. }
    rewrite map_id. apply G. lia. }
  assert (Ent : simple_entries (code_number lens) (syms ++ repeat 0 (4 - length syms)) = Some (map (fun e => (fst e, phi (snd e))) es)).
  { rewrite Epad. rewrite (entries_phi depths lens used Hm (fun i Hi => proj2 (Hphi i Hi)) Hmono).
    - fold phi. rewrite Ees. reflexivity.
    - exact Hl4.
    - unfold code_number. destruct (Z.eqb_spec (zlen lens) 4) as [->|]; cbn [andb]; [destruct (tree_select lens); lia|]. lia.
    - unfold pad4. rewrite firstn_app. replace (Z.to_nat (zlen lens) - length idx)%nat with 0%nat by (unfold zlen in *; lia). cbn [firstn]. rewrite app_nil_r, firstn_all2 by (unfold zlen in *; lia). exact Fidx. }
  set (es' := map (fun e => (fst e, phi (snd e))) es) in *.
  assert (Hlen' : zlen es' = zlen es) by (unfold es', zlen; now rewrite map_length).
  assert (Hlog' : log_size es' = log_size es) by (unfold log_size; now rewrite Hlen').
  destruct (entries_ok _ _ es Hl4 (fun _ => True) ltac:(apply Forall_forall; auto) Ees) as (_ & Le & L3).
  destruct (simple_table es' (fun _ => (0, 0)) ltac:(rewrite Hlen', Hlog'; exact Le) ltac:(rewrite Hlog'; exact L3)) as (t & Et & Ht).
  destruct (read_symbols_parses n Hn1 syms Fsyms) as (Fs & Ps). destruct (size_bits_ok n Hn1) as (Hsb & _).
  assert (D : all_distinct syms = true). { unfold syms, phi. rewrite (distinct_phi depths lens used (fun i Hi => proj2 (Hphi i Hi)) Hmono idx Fidx). exact Cdist. }
  set (x := if (zlen lens =? 4) && tree_select lens then 1 else 0).
  set (tail := if zlen lens =? 4 then [(1, x)] else []).
  exists ([(2, 1); (2, zlen lens - 1)] ++ map (fun s => (size_bits n, s)) syms ++ tail), t.
  assert (Hx : 0 <= x <= 1) by (unfold x; destruct (_ && _); lia).
  split.
  { unfold store_simple. fold used. replace (zseq 0 (length used)) with (ranks lens) by (unfold ranks; now rewrite Hul). rewrite Esort. fold syms. rewrite Hu. unfold tail, x.
    destruct ((zlen lens =? 2) || (zlen lens =? 3)) eqn:E23.
    - replace (zlen lens =? 4) with false by lia. now rewrite app_nil_r.
    - replace (zlen lens =? 4) with true by lia. cbn [andb]. assert (E0 : znth syms 0 = Some (phi i0)) by (unfold znth in *; cbn [Z.ltb Z.compare Z.to_nat] in *; unfold syms; rewrite nth_error_map, Ei0; reflexivity). rewrite E0. 
      rewrite (proj2 (Hphi i0 Ri0)), Ed0, Cd0. rewrite <- app_assoc. reflexivity. }
  split.
  { apply Forall_app. split; [repeat constructor; unfold field_ok; cbn [fst snd]; change (2 ^ 2) with 4; lia|]. apply Forall_app. split; [exact Fs|]. unfold tail. clearbody x. destruct (zlen lens =? 4); constructor; [|constructor]. unfold field_ok. cbn [fst snd]. change (2 ^ 1) with 2. lia. }
  split.
  { unfold read_from_bit_stream. change (Z.shiftl 1 PREFIX_MAX_BITS) with (2 ^ 15). replace (2 ^ 15 <? n) with false by lia.
    rewrite !fields_bits_app, !fields_bits_cons. cbn [fst snd fields_bits flat_map]. rewrite app_nil_r, <- app_assoc.
    eapply parses_bind; [apply parses_rd; [lia|change (2 ^ 2) with 4; lia]|]. change (1 =? 1) with true. cbv iota.
    apply parses_bind_nil with (a := Some (Some t)); [|apply parses_ret].
    unfold read_simple_code. fold (size_bits n). eapply parses_bind; [apply parses_rd; [lia|change (2 ^ 2) with 4; lia]|].
    replace (Z.to_nat (zlen lens - 1 + 1)) with (length syms) by (unfold zlen in *; lia).
    eapply parses_bind; [exact Ps|]. cbv beta iota. rewrite D. cbn [negb].
    eapply parses_bind_nil with (a := x).
    - unfold tail. replace (zlen lens - 1 + 1) with (zlen lens) by lia. destruct (zlen lens =? 4) eqn:E4.
      + rewrite <- (app_nil_r (fields_bits _)). cbn [fields_bits flat_map fst snd]. rewrite !app_nil_r. apply parses_rd; [lia|change (2 ^ 1) with 2; lia].
      + unfold x. cbn [andb]. apply parses_ret.
    - replace (zlen lens - 1 + 1 + x) with (code_number lens) by (unfold code_number, x; destruct (Z.eqb_spec (zlen lens) 4) as [->|]; cbn [andb]; [destruct (tree_select lens)|]; lia).
      rewrite Ent. rewrite Et. apply parses_ret. }
  intros s l Hs Hl. rewrite (codeword_nz depths s l Hs Hl). fold lens. destruct (used_at depths 0 s l Hs Hl) as (A & B & Hi). set (i := length (filter nz (firstn (Z.to_nat s) depths))) in *. fold lens in B, Hi.
  change (zlen (filter nz (firstn (Z.to_nat s) depths))) with (Z.of_nat i).
  pose proof (proj1 (forallb_forall _ _) Ces (Z.of_nat i) ltac:(apply in_zseq; lia)) as Cw. unfold word_check in Cw.
  rewrite (znth_some lens (Z.of_nat i) 0) in Cw by (unfold zlen; lia). rewrite Nat2Z.id, B in Cw.
  assert (Hl15 : 1 <= l <= 15). { rewrite <- B. apply (proj1 (Forall_forall _ _) Hpos). apply nth_In. exact Hi. }
  assert (L8 : l <= 8). { 
    assert (S8 : forallb (fun lens => forallb (fun l => l <=? 8) lens) small_codes = true) by reflexivity.
    pose proof (proj1 (forallb_forall _ _) (proj1 (forallb_forall _ _) S8 lens Hin) l ltac:(rewrite <- B; apply nth_In; exact Hi)) as L. cbv beta in L. lia. }
  apply (simple_key lens es' (Z.of_nat i) l t); [exact Ht|lia|rewrite Hlog'; exact L3|]. rewrite Hlog'. intros y Hy Ey.
  pose proof (proj1 (forallb_forall _ _) Cw y ltac:(apply in_zseq; cbn; lia)) as Cy. cbv beta in Cy. rewrite Ey, Z.eqb_refl in Cy. cbn [negb orb] in Cy.
  unfold es'. change (0, 0) with ((fun e : Z * Z => (fst e, 0)) (0, 0)). 
  assert (Hj : (Z.to_nat (y mod 2 ^ log_size es) < length es)%nat). { pose proof (Z.mod_pos_bound y (2 ^ log_size es) ltac:(apply Z.pow_pos_nonneg; lia)). unfold zlen in Le. lia. }
  rewrite (nth_indep _ _ ((fun e => (fst e, phi (snd e))) (0, 0))) by (rewrite map_length; exact Hj). rewrite (map_nth (fun e => (fst e, phi (snd e)))).
  unfold entry_eqb in Cy. apply andb_prop in Cy as (Y1 & Y2). cbn [fst snd] in Y1, Y2. apply Z.eqb_eq in Y1, Y2. rewrite Y1, Y2. f_equal. unfold phi. rewrite Nat2Z.id. unfold used, used_of. rewrite A. lia.
Qed.

Theorem one_symbol_roundtrip mem garbage n s : 1 <= n <= 2 ^ 15 -> 0 <= s < n ->
  let fs := [(4, 1); (size_bits n, s)] in
  exists t, Forall field_ok fs /\ parses (read_from_bit_stream mem garbage n) (fields_bits fs) (Some (Some (256, t))) /\
    parses_buffered 15 (huff_read (256, t)) [] (Some s).
Proof.
  intros Hn Hs fs. destruct (read_symbols_parses n Hn [s] ltac:(repeat constructor; lia)) as (Fs & Ps). cbn [map length] in *.
  destruct (simple_table [(0, s)] (fun _ => (0, 0)) eq_refl ltac:(cbn; lia)) as (t & Et & Ht). cbn [log_size] in Ht. exists t.
  split. { constructor; [unfold field_ok; cbn [fst snd]; change (2 ^ 4) with 16; lia|exact Fs]. }
  split.
  - unfold read_from_bit_stream. change (Z.shiftl 1 PREFIX_MAX_BITS) with (2 ^ 15). replace (2 ^ 15 <? n) with false by lia.
    unfold fs. rewrite fields_bits_cons. cbn [fst snd]. change (to_bits (Z.to_nat 4) 1) with (to_bits (Z.to_nat 2) 1 ++ to_bits (Z.to_nat 2) 0). rewrite <- app_assoc.
    eapply parses_bind; [apply parses_rd; [lia|change (2 ^ 2) with 4; lia]|]. change (1 =? 1) with true. cbv iota.
    apply parses_bind_nil with (a := Some (Some t)); [|apply parses_ret].
    unfold read_simple_code. fold (size_bits n). eapply parses_bind; [apply parses_rd; [lia|change (2 ^ 2) with 4; lia]|].
    change (Z.to_nat (0 + 1)) with 1%nat. eapply parses_bind_nil; [exact Ps|]. cbn [all_distinct existsb negb andb]. eapply parses_bind_nil; [apply parses_ret|].
    change (simple_entries (0 + 1 + 0) ([s] ++ repeat 0 (4 - length [s]))) with (Some [(0, s)]). cbv beta iota. rewrite Et. apply parses_ret.
  - intros pre post av Hav. exists av. cbn [app zlen length Z.of_nat]. split; [|cbn; lia].
    unfold huff_read, kHuffmanTableBits. cbn [run_bits fst snd]. replace ((0 <=? 8) && (8 <=? av)) with true by lia.
    pose proof (bits_at_range (pre ++ post) (zlen pre) 8 ltac:(lia)) as R. change (2 ^ 8) with 256 in R. rewrite get_ok by lia. rewrite Ht by exact R. change (2 ^ log_size [(0, s)]) with 1. rewrite Z.mod_1_r. cbn [Z.to_nat nth run_bits Z.ltb Z.compare].
    replace ((0 <=? 0) && (0 <=? av)) with true by lia. rewrite Z.sub_0_r. reflexivity.
Qed.
