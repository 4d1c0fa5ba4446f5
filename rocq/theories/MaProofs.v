(* Decision trees: reading. *)
From Verif Require Import Base HuffRle HuffSafe BitReaderModel BitProg BitProgProofs FieldsModel FieldsProofs HybridUintModel HybridUintProofs
  ListAux LzProofs AliasSpec AliasProofs AnsSpec AnsProofs AnsTop MtfSpec CodesModel CodesSpec CodesSafe CodesRound CodesTop TocSpec PermProofs TocLayout COrderProofs MaModel MaSpec.
Ltac Zify.zify_post_hook ::= idtac.

Lemma rev_rev' {A} (l : list A) : rev' l = rev l.
Proof. unfold rev'. now rewrite <- rev_alt. Qed.

(* ---- the order in which nodes are read: at index k, p nodes are announced, and the next leaf has number leaf ---- *)
Definition leaf_fields (n : node) : Prop := 0 <= npred n < 14 /\ is_i32 (noffset n) /\ 1 <= nmul n < 2 ^ 31.
Inductive level : Z -> Z -> Z -> list node -> Prop :=
| lv_nil k leaf : level k 0 leaf []
| lv_leaf k p leaf n l : 0 < p -> nprop n = -1 -> lchild n = leaf -> leaf_fields n -> level (k + 1) (p - 1) (leaf + 1) l -> level k p leaf (n :: l)
| lv_split k p leaf n l : 0 < p -> 0 <= nprop n < 256 -> is_i32 (splitval n) -> lchild n = k + p -> rchild n = k + p + 1 ->
    level (k + 1) (p + 1) leaf l -> level k p leaf (n :: l).

Lemma multiplier_ok ml mb : 0 <= ml < 31 -> 0 <= mb < 2 ^ (31 - ml) - 1 -> w32 (Z.shiftl (w32 (mb + 1)) ml) = (mb + 1) * 2 ^ ml /\ 1 <= (mb + 1) * 2 ^ ml < 2 ^ 31.
Proof.
  intros H1 H2. assert (A : 2 ^ 31 = 2 ^ (31 - ml) * 2 ^ ml) by (rewrite <- Z.pow_add_r by lia; f_equal; lia).
  assert (B : 1 <= 2 ^ ml) by (change 1 with (2 ^ 0); apply Z.pow_le_mono_r; lia).
  assert (C : 2 ^ (31 - ml) <= 2 ^ 31) by (apply Z.pow_le_mono_r; lia).
  assert (D : (mb + 1) * 2 ^ ml < 2 ^ 31). { rewrite A. apply Z.mul_lt_mono_pos_r; lia. }
  assert (E : 1 <= (mb + 1) * 2 ^ ml) by nia.
  split; [|lia]. rewrite (w32_id (mb + 1)) by lia. rewrite Z.shiftl_mul_pow2 by lia. apply w32_id. lia.
Qed.
Lemma bound_ok ml : 0 <= ml < 31 -> w32 (w32 (Z.shiftl 1 (31 - ml)) - 1) = 2 ^ (31 - ml) - 1.
Proof.
  intros H. rewrite Z.shiftl_1_l. assert (C : 2 ^ (31 - ml) <= 2 ^ 31) by (apply Z.pow_le_mono_r; lia).
  assert (B : 1 <= 2 ^ (31 - ml)) by (change 1 with (2 ^ 0); apply Z.pow_le_mono_r; lia).
  rewrite (w32_id (2 ^ (31 - ml))) by lia. apply w32_id. lia.
Qed.
Lemma unpack_i32 v : 0 <= v -> is_i32 (unpack_signed v).
Proof. intros _. unfold unpack_signed, s32, is_i32. match goal with |- context [?a mod 2 ^ 32] => pose proof (Z.mod_pos_bound a (2 ^ 32) ltac:(lia)) end. lia. Qed.

Lemma read_nodes_level within limit : 0 <= limit <= 2 ^ 22 -> forall fuel leaf td tree,
  limit + 2 <= zlen tree + Z.of_nat fuel -> zlen tree <= limit + 1 -> 0 <= td <= zlen tree + 1 -> 0 <= leaf <= zlen tree ->
  tall (read_nodes fuel within limit leaf td tree) (fun r => exists o, r = Some o /\
    forall t, o = Some t -> exists l, t = rev tree ++ l /\ level (zlen tree) td leaf l /\ zlen t <= limit + 1).
Proof.
  intros Hlim. induction fuel as [|fuel IH]; intros leaf td tree Hf Hs Ht Hl.
  - exfalso. lia.
  - cbn [read_nodes]. destruct (Z.eqb_spec td 0) as [->|N0].
    { cbn [tall]. eexists. split; [reflexivity|]. intros t E. apply Some_eq in E. subst t. exists []. rewrite rev_rev', app_nil_r. split; [reflexivity|]. split; [constructor|].
      unfold zlen in *. now rewrite rev_length. }
    cbv zeta. destruct (negb (within (zlen tree))); [cbn [tall]; exists None; split; [reflexivity|discriminate]|].
    destruct (Z.ltb_spec limit (zlen tree)) as [|Hls]; [cbn [tall]; exists None; split; [reflexivity|discriminate]|].
    cbn [tall]. intros v Hv. pose proof (Z.mod_pos_bound v (2 ^ 32) ltac:(lia)) as Hw. fold (w32 v) in Hw. destruct (Z.ltb_spec 256 (w32 v)) as [|Hp]; [cbn [tall]; exists None; split; [reflexivity|discriminate]|].
    destruct (Z.eqb_spec (w32 v - 1) (-1)) as [E1|E1].
    + cbn [tall]. intros pr Hpr. unfold kNumModularPredictors. destruct (Z.leb_spec 14 pr) as [|Hpr2]; [cbn [tall]; exists None; split; [reflexivity|discriminate]|].
      cbn [tall]. intros vo Hvo ml0 Hml0. pose proof (Z.mod_pos_bound ml0 (2 ^ 32) ltac:(lia)) as Hm. fold (w32 ml0) in Hm. set (ml := w32 ml0) in *. clearbody ml.
      destruct (Z.leb_spec 31 ml) as [|Hml]; [cbn [tall]; exists None; split; [reflexivity|discriminate]|].
      cbn [tall]. intros mb0 Hmb0. pose proof (Z.mod_pos_bound mb0 (2 ^ 32) ltac:(lia)) as Hb. fold (w32 mb0) in Hb. set (mb := w32 mb0) in *. clearbody mb.
      rewrite bound_ok by lia. destruct (Z.leb_spec (2 ^ (31 - ml) - 1) mb) as [|Hmb]; [cbn [tall]; exists None; split; [reflexivity|discriminate]|].
      destruct (multiplier_ok ml mb ltac:(lia) ltac:(lia)) as (Em & Rm). rewrite Em. rewrite (w32_id leaf) by lia.
      eapply tall_weaken; [apply IH; rewrite ?zlen_cons; lia|]. intros r (o & -> & Ho). exists o. split; [reflexivity|]. intros t Et. destruct (Ho t Et) as (l & -> & Lv & Z1).
      eexists. split; [cbn [rev]; rewrite <- app_assoc; reflexivity|]. split; [|exact Z1]. rewrite zlen_cons in Lv. cbn [app]. apply lv_leaf; try reflexivity; [lia| |].
      * unfold leaf_fields. cbn [npred noffset nmul]. split; [lia|]. split; [apply unpack_i32; exact Hvo|exact Rm].
      * replace (zlen tree + 1) with (1 + zlen tree) by lia. first [exact Lv | replace (1 + zlen tree) with (zlen tree + 1) by lia; exact Lv].
    + cbn [tall]. intros vs Hvs. rewrite (w32_id (zlen tree + (td - 1) + 1)), (w32_id (zlen tree + (td - 1) + 2)) by lia.
      eapply tall_weaken; [apply IH; rewrite ?zlen_cons; lia|]. intros r (o & -> & Ho). exists o. split; [reflexivity|]. intros t Et. destruct (Ho t Et) as (l & -> & Lv & Z1).
      eexists. split; [cbn [rev]; rewrite <- app_assoc; reflexivity|]. split; [|exact Z1]. rewrite zlen_cons in Lv. cbn [app]. apply lv_split; cbn [nprop splitval lchild rchild]; try lia.
      * apply unpack_i32; exact Hvs.
      * replace (td + 1) with (td - 1 + 2) by lia. first [exact Lv | replace (zlen tree + 1) with (1 + zlen tree) by lia; exact Lv].
Qed.

Lemma nodes_contexts within limit : forall fuel leaf td tree, contexts_below 6 (read_nodes fuel within limit leaf td tree).
Proof.
  induction fuel as [|fuel IH]; intros leaf td tree; cbn [read_nodes]; destruct (td =? 0); try constructor. cbv zeta.
  destruct (negb _); [constructor|]. destruct (limit <? _); [constructor|]. constructor; [unfold kPropertyContext; lia|]. intros v.
  destruct (256 <? w32 v); [constructor|]. destruct (w32 v - 1 =? -1).
  - constructor; [unfold kPredictorContext; lia|]. intros pr. destruct (_ <=? pr); [constructor|]. constructor; [unfold kOffsetContext; lia|]. intros o.
    constructor; [unfold kMultiplierLogContext; lia|]. intros ml. destruct (31 <=? _); [constructor|]. constructor; [unfold kMultiplierBitsContext; lia|]. intros mb. destruct (_ <=? w32 mb); [constructor|apply IH].
  - constructor; [unfold kSplitValContext; lia|]. intros s. apply IH.
Qed.
Lemma tree_contexts within limit : contexts_below 6 (read_tree within limit).
Proof. unfold read_tree. apply tbind_contexts; [apply nodes_contexts|]. intros [[t|]|]; constructor. Qed.

(* ---- trees stored in level order ---- *)
Fixpoint total_nodes (ts : list mtree) : Z := match ts with [] => 0 | t :: ts => nodes_of t + total_nodes ts end.
Lemma total_app a b : total_nodes (a ++ b) = total_nodes a + total_nodes b.
Proof. induction a as [|x a IH]; cbn [app total_nodes]; [reflexivity|]. rewrite IH. lia. Qed.
Definition forest (t : list node) (k : Z) (ts : list mtree) : Prop := forall j x, znth ts j = Some x -> stored t (k + j) x.

Lemma znth_mid {A} (a : list A) x b : znth (a ++ x :: b) (zlen a) = Some x.
Proof. rewrite znth_app_r by lia. now rewrite Z.sub_diag. Qed.

Lemma two_last {A} (l : list A) : 2 <= zlen l -> exists f x y, l = f ++ [x; y].
Proof.
  intros H. destruct (exists_last (l := l)) as (l1 & y & ->). { intros ->. cbn in H. lia. }
  destruct (exists_last (l := l1)) as (f & x & ->). { intros ->. cbn in H. lia. }
  exists f, x, y. now rewrite <- app_assoc.
Qed.

Lemma forest_of : forall l k p leaf pre, level k p leaf l -> zlen pre = k -> exists ts, zlen ts = p /\ forest (pre ++ l) k ts /\ total_nodes ts = zlen l.
Proof.
  induction l as [|n l IH]; intros k p leaf pre Lv E; inversion Lv as [|? ? ? ? ? Hp Hl Hc Hf L1|? ? ? ? ? Hp Hn Hi Hc Hr L1]; subst.
  - exists []. split; [reflexivity|]. split; [|reflexivity]. intros j x H. apply znth_bound in H. change (zlen (@nil mtree)) with 0 in H. lia.
  - destruct (IH _ _ _ (pre ++ [n]) L1 ltac:(rewrite zlen_app; reflexivity)) as (ts & T1 & T2 & T3). rewrite <- app_assoc in T2. cbn [app] in T2.
    exists (MLeaf (lchild n) (npred n) (noffset n) (nmul n) :: ts). rewrite !zlen_cons. split; [lia|]. split; [|cbn [total_nodes nodes_of]; lia].
    intros j x H. pose proof (znth_bound _ _ _ H) as B. destruct (Z.eq_dec j 0) as [->|Nj].
    + change (znth (?a :: ts) 0) with (Some a) in H. apply Some_eq in H. subst x. rewrite Z.add_0_r. apply stored_leaf; [apply znth_mid|exact Hl].
    + rewrite znth_cons in H by lia. apply T2 in H. replace (zlen pre + j) with (zlen pre + 1 + (j - 1)) by lia. exact H.
  - destruct (IH _ _ _ (pre ++ [n]) L1 ltac:(rewrite zlen_app; reflexivity)) as (ts & T1 & T2 & T3). rewrite <- app_assoc in T2. cbn [app] in T2.
    destruct (two_last ts ltac:(lia)) as (f & x & y & ->). rewrite zlen_app in T1. change (zlen [x; y]) with 2 in T1.
    exists (MSplit (nprop n) (splitval n) x y :: f). rewrite zlen_cons. split; [lia|]. split.
    + intros j z H. pose proof (znth_bound _ _ _ H) as B. destruct (Z.eq_dec j 0) as [->|Nj].
      * change (znth (?a :: f) 0) with (Some a) in H. apply Some_eq in H. subst z. rewrite Z.add_0_r. apply stored_split; [apply znth_mid|lia| |].
        -- rewrite Hc. specialize (T2 (zlen f) x). rewrite znth_mid in T2. specialize (T2 eq_refl). replace (zlen pre + p) with (zlen pre + 1 + zlen f) by lia. exact T2.
        -- rewrite Hr. specialize (T2 (zlen f + 1) y). rewrite znth_app_r in T2 by lia. replace (zlen f + 1 - zlen f) with 1 in T2 by lia. specialize (T2 eq_refl).
           replace (zlen pre + p + 1) with (zlen pre + 1 + (zlen f + 1)) by lia. exact T2.
      * rewrite znth_cons in H by lia. rewrite zlen_cons in B. specialize (T2 (j - 1) z). rewrite znth_app_l in T2 by lia. replace (zlen pre + j) with (zlen pre + 1 + (j - 1)) by lia. now apply T2.
    + rewrite zlen_cons, <- T3, total_app. cbn [total_nodes nodes_of]. lia.
Qed.

Lemma tree_of l : level 0 1 0 l -> exists T, stored l 0 T /\ nodes_of T = zlen l.
Proof.
  intros Lv. destruct (forest_of l 0 1 0 [] Lv eq_refl) as (ts & T1 & T2 & T3). destruct ts as [|T [|T' ts]]; [discriminate| |rewrite !zlen_cons in T1; pose proof (zlen_nonneg ts); lia].
  exists T. split; [apply (T2 0 T eq_refl)|]. cbn [total_nodes] in T3. lia.
Qed.

(* ---- facts about the nodes ---- *)
Lemma level_nodes : forall l k p leaf, level k p leaf l -> 0 <= p ->
  (forall j n, znth l j = Some n -> is_leaf n = false -> 0 <= nprop n < 256 /\ is_i32 (splitval n) /\ k + p <= lchild n /\ k + j < lchild n /\ rchild n = lchild n + 1 /\ rchild n < k + zlen l) /\
  (forall j n, znth l j = Some n -> is_leaf n = true -> lchild n = leaf + zlen (filter is_leaf (firstn (Z.to_nat j) l)) /\ leaf_fields n) /\
  p <= zlen l /\ 2 * zlen (filter is_leaf l) = zlen l + p.
Proof.
  induction l as [|n l IH]; intros k p leaf Lv Hp0; inversion Lv as [|? ? ? ? ? Hp Hl Hc Hf L1|? ? ? ? ? Hp Hn Hi Hc Hr L1]; subst.
  - split; [|split; [|cbn; lia]]; intros j n H; apply znth_bound in H; change (zlen (@nil node)) with 0 in H; lia.
  - destruct (IH _ _ _ L1 ltac:(lia)) as (A & B & C & D). rewrite zlen_cons. assert (El : is_leaf n = true) by (unfold is_leaf; lia). split; [|split; [|split; [lia|cbn [filter]; rewrite El, zlen_cons; lia]]].
    + intros j m H Hm. pose proof (znth_bound _ _ _ H) as Bd. destruct (Z.eq_dec j 0) as [->|Nj]; [change (znth (n :: l) 0) with (Some n) in H; apply Some_eq in H; congruence|].
      rewrite znth_cons in H by lia. specialize (A _ _ H Hm). rewrite zlen_cons in Bd. destruct A as (A1 & A2 & A3 & A4 & A5 & A6). split; [exact A1|]. split; [exact A2|]. lia.
    + intros j m H Hm. pose proof (znth_bound _ _ _ H) as Bd. destruct (Z.eq_dec j 0) as [->|Nj]; [change (znth (n :: l) 0) with (Some n) in H; apply Some_eq in H; subst m; cbn; split; [lia|exact Hf]|].
      rewrite znth_cons in H by lia. destruct (B _ _ H Hm) as (B1 & B2). split; [|exact B2]. replace (Z.to_nat j) with (S (Z.to_nat (j - 1))) by lia. cbn [firstn filter]. rewrite El, zlen_cons. lia.
  - destruct (IH _ _ _ L1 ltac:(lia)) as (A & B & C & D). rewrite zlen_cons. assert (El : is_leaf n = false) by (unfold is_leaf; lia). split; [|split; [|split; [lia|cbn [filter]; rewrite El; lia]]].
    + intros j m H Hm. pose proof (znth_bound _ _ _ H) as Bd. destruct (Z.eq_dec j 0) as [->|Nj].
      * change (znth (n :: l) 0) with (Some n) in H. apply Some_eq in H. subst m. split; [exact Hn|]. split; [exact Hi|]. lia.
      * rewrite znth_cons in H by lia. specialize (A _ _ H Hm). rewrite zlen_cons in Bd. destruct A as (A1 & A2 & A3 & A4 & A5 & A6). split; [exact A1|]. split; [exact A2|]. lia.
    + intros j m H Hm. pose proof (znth_bound _ _ _ H) as Bd. destruct (Z.eq_dec j 0) as [->|Nj]; [change (znth (n :: l) 0) with (Some n) in H; apply Some_eq in H; congruence|].
      rewrite znth_cons in H by lia. destruct (B _ _ H Hm) as (B1 & B2). split; [|exact B2]. replace (Z.to_nat j) with (S (Z.to_nat (j - 1))) by lia. cbn [firstn filter]. rewrite El. lia.
Qed.

Lemma level_parents : forall l k p leaf, level k p leaf l -> 0 <= p -> forall x, k + p <= x < k + zlen l ->
  exists j, (exists n, znth l j = Some n /\ is_leaf n = false /\ (lchild n = x \/ rchild n = x)) /\
    forall j', (exists n, znth l j' = Some n /\ is_leaf n = false /\ (lchild n = x \/ rchild n = x)) -> j' = j.
Proof.
  induction l as [|n l IH]; intros k p leaf Lv Hp0 x Hx; inversion Lv as [|? ? ? ? ? Hp Hl Hc Hf L1|? ? ? ? ? Hp Hn Hi Hc Hr L1]; subst.
  - change (zlen (@nil node)) with 0 in Hx. lia.
  - rewrite zlen_cons in Hx. destruct (IH _ _ _ L1 ltac:(lia) x ltac:(lia)) as (j & (m & E1 & E2 & E3) & U). pose proof (znth_bound _ _ _ E1) as Bj. exists (j + 1). split.
    + exists m. rewrite znth_cons by lia. replace (j + 1 - 1) with j by lia. auto.
    + intros j' (m' & F1 & F2 & F3). pose proof (znth_bound _ _ _ F1) as Bj'. destruct (Z.eq_dec j' 0) as [->|Nj].
      * change (znth (n :: l) 0) with (Some n) in F1. apply Some_eq in F1. subst m'. unfold is_leaf in F2. lia.
      * rewrite znth_cons in F1 by lia. assert (j' - 1 = j) by (apply U; eauto). lia.
  - rewrite zlen_cons in Hx. assert (El : is_leaf n = false) by (unfold is_leaf; lia). destruct (Z_lt_le_dec x (k + p + 2)) as [C|C].
    + exists 0. split; [exists n; split; [reflexivity|split; [exact El|lia]]|]. intros j' (m' & F1 & F2 & F3). pose proof (znth_bound _ _ _ F1) as Bj'. destruct (Z.eq_dec j' 0) as [->|Nj]; [reflexivity|].
      rewrite znth_cons in F1 by lia. destruct (level_nodes _ _ _ _ L1 ltac:(lia)) as (A & _). specialize (A _ _ F1 F2). lia.
    + destruct (IH _ _ _ L1 ltac:(lia) x ltac:(lia)) as (j & (m & E1 & E2 & E3) & U). pose proof (znth_bound _ _ _ E1) as Bj. exists (j + 1). split.
      * exists m. rewrite znth_cons by lia. replace (j + 1 - 1) with j by lia. auto.
      * intros j' (m' & F1 & F2 & F3). pose proof (znth_bound _ _ _ F1) as Bj'. destruct (Z.eq_dec j' 0) as [->|Nj].
        -- change (znth (n :: l) 0) with (Some n) in F1. apply Some_eq in F1. subst m'. lia.
        -- rewrite znth_cons in F1 by lia. assert (j' - 1 = j) by (apply U; eauto). lia.
Qed.

Lemma level_well_formed t : level 0 1 0 t -> well_formed t.
Proof.
  intros Lv. destruct (level_nodes t 0 1 0 Lv ltac:(lia)) as (A & B & C & D). split; [|split; [|split]].
  - intros i n H Hn. destruct (A i n H Hn) as (A1 & A2 & A3 & A4 & A5 & A6). split; [exact A1|]. split; [exact A2|]. lia.
  - intros i n H Hn. destruct (B i n H Hn) as (B1 & B2). split; [lia|exact B2].
  - intros j Hj. destruct (level_parents t 0 1 0 Lv ltac:(lia) j ltac:(lia)) as (i & I1 & I2). exists i. split; [exact I1|]. intros i' H. apply I2. exact H.
  - lia.
Qed.
