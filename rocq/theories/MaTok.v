(* Decision trees: writing, and reading back. *)
From Verif Require Import Base HuffRle HuffSafe BitReaderModel BitProg BitProgProofs FieldsModel FieldsProofs HybridUintModel HybridUintSpec HybridUintProofs
  ListAux LzProofs AliasModel AliasSpec AliasProofs AnsModel AnsSpec AnsProofs AnsTop MtfSpec CodesModel CodesSpec CodesSafe CodesRound CodesTop TocModel TocSpec PermProofs TocLayout COrderProofs MaModel MaSpec MaProofs MaValid.
Ltac Zify.zify_post_hook ::= idtac.

(* ---- the nodes of a list of trees, level by level ---- *)
Inductive laid : Z -> Z -> list mtree -> list node -> Prop :=
| laid_nil k leaf : laid k leaf [] []
| laid_leaf k leaf c p o m ts l : laid (k + 1) (leaf + 1) ts l -> laid k leaf (MLeaf c p o m :: ts) (Node (-1) 0 leaf 0 p o m :: l)
| laid_split k leaf p v gt le ts l : laid (k + 1) leaf (ts ++ [gt; le]) l ->
    laid k leaf (MSplit p v gt le :: ts) (Node p v (k + 1 + zlen ts) (k + 2 + zlen ts) pZero 0 1 :: l).

Lemma laid_total k leaf ts l : laid k leaf ts l -> zlen l = total_nodes ts.
Proof. induction 1 as [k leaf|k leaf c p o m ts l _ IH|k leaf p v gt le ts l _ IH]; rewrite ?zlen_cons; cbn [total_nodes nodes_of]; [reflexivity|lia|]. rewrite IH, total_app. cbn [total_nodes]. lia. Qed.
Lemma laid_level k leaf ts l : laid k leaf ts l -> Forall writable ts -> level k (zlen ts) leaf l.
Proof.
  induction 1 as [k leaf|k leaf c p o m ts l _ IH|k leaf p v gt le ts l _ IH]; intros W; [constructor| |]; pose proof (Forall_inv W) as W1; pose proof (Forall_inv_tail W) as W2; cbn [writable] in W1; rewrite zlen_cons; pose proof (zlen_nonneg ts).
  - apply lv_leaf; try reflexivity; [lia|exact W1|]. replace (1 + zlen ts - 1) with (zlen ts) by lia. now apply IH.
  - destruct W1 as (W3 & W4 & W5 & W6). apply lv_split; cbn [nprop splitval lchild rchild]; try lia; [exact W4|]. specialize (IH ltac:(apply Forall_app; auto)). rewrite zlen_app in IH. change (zlen [gt; le]) with 2 in IH.
    replace (1 + zlen ts + 1) with (zlen ts + 2) by lia. exact IH.
Qed.
Lemma laid_forest k leaf ts l : laid k leaf ts l -> Forall writable ts -> forall pre, zlen pre = k -> exists ts', forest (pre ++ l) k ts' /\ map no_contexts ts' = map no_contexts ts.
Proof.
  induction 1 as [k leaf|k leaf c p o m ts l Hl IH|k leaf p v gt le ts l Hl IH]; intros W pre E.
  - exists []. split; [|reflexivity]. intros j x H. apply znth_bound in H. change (zlen (@nil mtree)) with 0 in H. lia.
  - pose proof (Forall_inv_tail W) as W2. set (n := Node _ _ _ _ _ _ _). destruct (IH W2 (pre ++ [n]) ltac:(rewrite zlen_app; change (zlen [n]) with 1; lia)) as (ts' & T1 & T2). rewrite <- app_assoc in T1. cbn [app] in T1.
    exists (MLeaf (lchild n) (npred n) (noffset n) (nmul n) :: ts'). split; [|cbn [map no_contexts]; now rewrite T2].
    intros j x H. pose proof (znth_bound _ _ _ H) as B. destruct (Z.eq_dec j 0) as [->|Nj].
    + change (znth (?a :: ts') 0) with (Some a) in H. apply Some_eq in H. subst x. rewrite Z.add_0_r, <- E. apply stored_leaf; [apply znth_mid|reflexivity].
    + rewrite znth_cons in H by lia. apply T1 in H. replace (k + j) with (k + 1 + (j - 1)) by lia. exact H.
  - pose proof (Forall_inv W) as W1. pose proof (Forall_inv_tail W) as W2. cbn [writable] in W1. destruct W1 as (W3 & W4 & W5 & W6). set (n := Node _ _ _ _ _ _ _).
    destruct (IH ltac:(apply Forall_app; auto) (pre ++ [n]) ltac:(rewrite zlen_app; change (zlen [n]) with 1; lia)) as (ts' & T1 & T2). rewrite <- app_assoc in T1. cbn [app] in T1.
    rewrite map_app in T2. apply map_eq_app in T2. destruct T2 as (f & y & -> & T2 & T3). destruct y as [|x1 [|x2 [|x3 y]]]; try discriminate. cbn [map] in T3. injection T3 as G1 G2.
    exists (MSplit (nprop n) (splitval n) x1 x2 :: f). split; [|cbn [map no_contexts]; now rewrite T2, G1, G2]. assert (Lf : zlen f = zlen ts). { apply (f_equal (@length _)) in T2. rewrite !map_length in T2. unfold zlen. lia. }
    intros j z H. pose proof (znth_bound _ _ _ H) as B. destruct (Z.eq_dec j 0) as [->|Nj].
    + change (znth (?a :: f) 0) with (Some a) in H. apply Some_eq in H. subst z. rewrite Z.add_0_r, <- E. apply stored_split; [apply znth_mid|cbn; lia| |].
      * cbn [lchild n]. specialize (T1 (zlen f) x1). rewrite znth_mid in T1. specialize (T1 eq_refl). rewrite <- Lf. exact T1.
      * cbn [rchild n]. specialize (T1 (zlen f + 1) x2). rewrite znth_app_r in T1 by lia. replace (zlen f + 1 - zlen f) with 1 in T1 by lia. specialize (T1 eq_refl).
        rewrite <- Lf. replace (k + 2 + zlen f) with (k + 1 + (zlen f + 1)) by lia. exact T1.
    + rewrite znth_cons in H by lia. rewrite zlen_cons in B. specialize (T1 (j - 1) z). rewrite znth_app_l in T1 by lia. replace (k + j) with (k + 1 + (j - 1)) by lia. now apply T1.
Qed.

(* ---- multipliers ---- *)
Lemma pos_zeros_spec p : 0 <= pos_zeros p /\ exists q, Zpos p = q * 2 ^ pos_zeros p /\ 1 <= q.
Proof.
  induction p as [p IH|p (IH1 & q & IH2 & IH3)|]; cbn [pos_zeros].
  - split; [lia|]. exists (Zpos (xI p)). rewrite Z.pow_0_r. lia.
  - split; [lia|]. exists q. split; [|exact IH3]. rewrite Pos2Z.inj_xO, IH2, Z.pow_add_r by lia. lia.
  - split; [lia|]. exists 1. cbn. lia.
Qed.
Lemma multiplier_split m : 1 <= m < 2 ^ 31 -> let ml := trailing_zeros m in let mb := w32 (Z.shiftr m ml - 1) in
  0 <= ml < 31 /\ 0 <= mb < 2 ^ (31 - ml) - 1 /\ (mb + 1) * 2 ^ ml = m.
Proof.
  intros H. destruct m as [|p|p]; try lia. unfold trailing_zeros. cbv zeta. destruct (pos_zeros_spec p) as (H0 & q & E & Hq). set (ml := pos_zeros p) in *. clearbody ml.
  rewrite Z.shiftr_div_pow2 by exact H0. assert (B : 1 <= 2 ^ ml) by (change 1 with (2 ^ 0); apply Z.pow_le_mono_r; lia).
  assert (Eq : Zpos p / 2 ^ ml = q) by (rewrite E; apply Z.div_mul; lia). rewrite Eq.
  assert (Lml : ml < 31). { destruct (Z.lt_ge_cases ml 31) as [|G]; [assumption|]. assert (2 ^ 31 <= 2 ^ ml) by (apply Z.pow_le_mono_r; lia). nia. }
  assert (A : 2 ^ 31 = 2 ^ (31 - ml) * 2 ^ ml) by (rewrite <- Z.pow_add_r by lia; f_equal; lia).
  assert (Q : q < 2 ^ (31 - ml)). { apply (Z.mul_lt_mono_pos_r (2 ^ ml)); lia. }
  assert (C : 2 ^ (31 - ml) <= 2 ^ 31) by (apply Z.pow_le_mono_r; lia). rewrite (w32_id (q - 1)) by lia. split; [lia|]. split; [lia|]. replace (q - 1 + 1) with q by lia. lia.
Qed.

(* ---- the tokens and what is read from them ---- *)
Lemma s32_id v : is_i32 v -> s32 v = v.
Proof. unfold is_i32, s32. intros H. rewrite Z.mod_small by lia. lia. Qed.
Lemma placed_eq c v : placed (Token false c v) = (Some c, v).
Proof. reflexivity. Qed.

Lemma Forall2_len {A B} (R : A -> B -> Prop) l l' : Forall2 R l l' -> length l = length l'.
Proof. induction 1; cbn; congruence. Qed.
Section Tok.
Variables (within : Z -> bool) (tree : list node).
Hypothesis Hw : forall n, within n = true.

Lemma tokenize_run : forall fuel queue ts leaf tokens out, Forall2 (stored tree) queue ts -> Forall writable ts -> total_nodes ts <= Z.of_nat fuel ->
  0 <= leaf <= zlen out -> zlen out + total_nodes ts <= 2 ^ 23 ->
  exists raw l, tokenize_loop fuel tree queue leaf tokens out = Some (Some (rev tokens ++ raw, rev out ++ l)) /\ laid (zlen out) leaf ts l /\ zlen raw <= 5 * zlen l /\ (0 < zlen ts -> In (Token false kPropertyContext 0) raw) /\
    forall m limit F, 6 <= m -> zlen out + zlen l <= limit + 1 -> zlen l < Z.of_nat F ->
      run_toks m (read_nodes F within limit leaf (zlen queue) out) (map placed raw) = Some (Some (Some (rev out ++ l)), []).
Proof.
  induction fuel as [|fuel IH]; intros queue ts leaf tokens out Q W Hf Hleaf Hsz.
  - assert (P : forall t, 1 <= nodes_of t) by (induction t; cbn [nodes_of]; lia). assert (N : forall x, 0 <= total_nodes x) by (induction x as [|t x IHx]; cbn [total_nodes]; [lia|]; pose proof (P t); lia).
    destruct Q as [|i T queue ts Q1 Q2]; [|exfalso; cbn [total_nodes] in Hf; pose proof (P T); pose proof (N ts); lia].
    exists [], []. cbn [tokenize_loop]. rewrite !rev_rev', !app_nil_r. split; [reflexivity|]. split; [constructor|]. split; [cbn; lia|]. split; [cbn; lia|]. intros m limit F _ _ HF. destruct F; [cbn in HF; lia|]. cbn [read_nodes map]. change (zlen (@nil Z)) with 0. cbn [Z.eqb run_toks]. now rewrite rev_rev'.
  - destruct Q as [|i T queue ts Q1 Q2].
    { exists [], []. cbn [tokenize_loop]. rewrite !rev_rev', !app_nil_r. split; [reflexivity|]. split; [constructor|]. split; [cbn; lia|]. split; [cbn; lia|]. intros m limit F _ _ HF. destruct F; [cbn in HF; lia|]. cbn [read_nodes map]. change (zlen (@nil Z)) with 0. cbn [Z.eqb run_toks]. now rewrite rev_rev'. }
    pose proof (Forall_inv W) as W1. pose proof (Forall_inv_tail W) as W2. pose proof (zlen_nonneg queue) as Hq0. pose proof (zlen_nonneg out) as Ho0.
    assert (Lq : zlen queue = zlen ts) by (unfold zlen; now rewrite (Forall2_len _ _ _ Q2)).
    assert (P : forall t, 1 <= nodes_of t) by (induction t; cbn [nodes_of]; lia). assert (N : forall x, zlen x <= total_nodes x) by (induction x as [|t x IHx]; cbn [total_nodes]; rewrite ?zlen_cons; [cbn; lia|]; pose proof (P t); lia). pose proof (N ts) as Nts.
    rewrite zlen_cons. cbn [tokenize_loop total_nodes] in *. destruct Q1 as [i n E1 E2|i n gt le E1 E2 Sg Sl]; rewrite E1; cbn [writable nodes_of] in *.
    + rewrite E2. change (-1 <? -1) with false. change (-1 =? -1) with true. cbv iota zeta. destruct W1 as (Wp & Wo & Wm). replace (nmul n =? 0) with false by lia. unfold kNumModularPredictors. replace (14 <=? npred n) with false by lia.
      destruct (multiplier_split (nmul n) Wm) as (M1 & M2 & M3). set (ml := trailing_zeros (nmul n)) in *. set (mb := w32 (Z.shiftr (nmul n) ml - 1)) in *.
      rewrite (w32_id leaf) by lia. change (w32 (-1 + 1)) with 0. rewrite (s32_id _ Wo).
      specialize (IH queue ts (leaf + 1) (Token false kMultiplierBitsContext mb :: Token false kMultiplierLogContext ml :: Token false kOffsetContext (pack_signed (noffset n)) :: Token false kPredictorContext (npred n) :: Token false kPropertyContext 0 :: tokens)
        (Node (-1) 0 leaf 0 (npred n) (noffset n) (nmul n) :: out) Q2 W2 ltac:(lia) ltac:(rewrite zlen_cons; lia) ltac:(rewrite zlen_cons; lia)).
      destruct IH as (raw & l & R1 & R2 & R3 & R5 & R4). rewrite R1. eexists _, _. split; [cbn [rev]; rewrite <- !app_assoc; reflexivity|]. cbn [app]. rewrite zlen_cons in R2. rewrite !zlen_cons.
      split; [replace (1 + zlen out) with (zlen out + 1) in R2 by lia; apply laid_leaf; exact R2|]. split; [lia|]. split; [intros _; left; reflexivity|]. intros m limit F Hm Hlim HF. pose proof (zlen_nonneg l). destruct F as [|F]; [lia|].
      cbn [read_nodes map]. rewrite !placed_eq. replace (1 + zlen queue =? 0) with false by lia. cbv zeta. rewrite Hw. cbn [negb]. replace (limit <? zlen out) with false by lia. cbv iota. unfold kPropertyContext, kPredictorContext, kOffsetContext, kMultiplierLogContext, kMultiplierBitsContext.
      assert (CB : forall c, 0 <= c < 6 -> ((0 <=? c) && (c <? m) && (c =? c)) = true) by (intros c Hc; lia).
      cbn [run_toks]. rewrite CB by lia. change (w32 0) with 0. change (256 <? 0) with false. change (0 - 1 =? -1) with true. cbv iota. cbn [run_toks]. rewrite CB by lia. unfold kNumModularPredictors. replace (14 <=? npred n) with false by lia.
      cbn [run_toks]. rewrite CB by lia. cbn [run_toks]. rewrite CB by lia. rewrite (w32_id ml) by lia. replace (31 <=? ml) with false by lia. cbn [run_toks]. rewrite CB by lia.
      assert (CC : 2 ^ (31 - ml) <= 2 ^ 31) by (apply Z.pow_le_mono_r; lia). rewrite (w32_id mb) by lia. rewrite bound_ok by lia. replace (2 ^ (31 - ml) - 1 <=? mb) with false by lia.
      destruct (multiplier_ok ml mb M1 M2) as (Em & _). rewrite Em, M3, (w32_id leaf) by lia. rewrite unpack_pack by exact Wo. replace (1 + zlen queue - 1) with (zlen queue) by lia.
      rewrite R4; [cbn [rev]; now rewrite <- app_assoc|exact Hm|rewrite zlen_cons; lia|lia].
    + destruct W1 as (Wp & Wv & Wg & Wl). replace (nprop n <? -1) with false by lia. replace (nprop n =? -1) with false by lia. cbv zeta.
      pose proof (P gt). pose proof (P le). rewrite (w32_id (zlen out + zlen queue + 1)), (w32_id (zlen out + zlen queue + 2)), (w32_id (nprop n + 1)) by lia.
      assert (Q3 : Forall2 (stored tree) (queue ++ [lchild n; rchild n]) (ts ++ [gt; le])) by (apply Forall2_app; [exact Q2|auto]).
      specialize (IH (queue ++ [lchild n; rchild n]) (ts ++ [gt; le]) leaf (Token false kSplitValContext (pack_signed (splitval n)) :: Token false kPropertyContext (nprop n + 1) :: tokens)
        (Node (nprop n) (splitval n) (zlen out + zlen queue + 1) (zlen out + zlen queue + 2) pZero 0 1 :: out) Q3 ltac:(apply Forall_app; auto)).
      rewrite total_app in IH. cbn [total_nodes] in IH. specialize (IH ltac:(lia) ltac:(rewrite zlen_cons; lia) ltac:(rewrite zlen_cons; lia)).
      destruct IH as (raw & l & R1 & R2 & R3 & R5 & R4). rewrite R1. eexists _, _. split; [cbn [rev]; rewrite <- !app_assoc; reflexivity|]. cbn [app]. rewrite zlen_cons in R2. rewrite !zlen_cons.
      split. { replace (1 + zlen out) with (zlen out + 1) in R2 by lia. replace (zlen out + zlen queue + 1) with (zlen out + 1 + zlen ts) by lia. replace (zlen out + zlen queue + 2) with (zlen out + 2 + zlen ts) by lia. now apply laid_split. }
      split; [lia|]. split. { intros _. right. right. apply R5. rewrite zlen_app. change (zlen [gt; le]) with 2. lia. } intros m limit F Hm Hlim HF. pose proof (zlen_nonneg l). destruct F as [|F]; [lia|].
      cbn [read_nodes map]. rewrite !placed_eq. replace (1 + zlen queue =? 0) with false by lia. cbv zeta. rewrite Hw. cbn [negb]. replace (limit <? zlen out) with false by lia. cbv iota. unfold kPropertyContext, kSplitValContext.
      assert (CB : forall c, 0 <= c < 6 -> ((0 <=? c) && (c <? m) && (c =? c)) = true) by (intros c Hc; lia).
      cbn [run_toks]. rewrite CB by lia. rewrite (w32_id (nprop n + 1)) by lia. replace (256 <? nprop n + 1) with false by lia. replace (nprop n + 1 - 1) with (nprop n) by lia. replace (nprop n =? -1) with false by lia.
      cbn [run_toks]. rewrite CB by lia. rewrite unpack_pack by exact Wv. replace (zlen out + (1 + zlen queue - 1) + 1) with (zlen out + zlen queue + 1) by lia. replace (zlen out + (1 + zlen queue - 1) + 2) with (zlen out + zlen queue + 2) by lia.
      rewrite (w32_id (zlen out + zlen queue + 1)), (w32_id (zlen out + zlen queue + 2)) by lia. rewrite zlen_app in R4. change (zlen [lchild n; rchild n]) with 2 in R4. replace (1 + zlen queue - 1 + 2) with (zlen queue + 2) by lia.
      rewrite R4; [cbn [rev]; now rewrite <- app_assoc|exact Hm|rewrite zlen_cons; lia|lia].
Qed.
End Tok.

Lemma needed_contexts T T' : no_contexts T = no_contexts T' -> each_leaf_needed T -> each_leaf_needed T'.
Proof.
  intros E H.
  assert (X : forall t, each_leaf_needed t <-> vcheck 1 t start = true).
  { intros t. rewrite vcheck_meaning by (intros i; cbn; unfold int32_min, int32_max; lia).
    assert (Bi : forall pv, in_box start pv <-> forall i, is_i32 (pv i)). { intros pv. unfold in_box, start, is_i32, int32_min, int32_max. cbn [fst snd]. split; intros G i; specialize (G i); lia. }
    unfold each_leaf_needed, kHeightLimit. split; intros G q Hq; destruct (G q Hq) as (A & pv & B & C); (split; [lia|]); exists pv; (split; [now apply Bi|exact C]). }
  apply X. rewrite <- (vcheck_contexts T T' 1 start E). now apply X.
Qed.
Lemma nodes_contexts_eq T : forall T', no_contexts T = no_contexts T' -> nodes_of T = nodes_of T'.
Proof. induction T as [c p o m|p v gt IHg le IHl]; intros [c' p' o' m'|p' v' gt' le'] E; try discriminate; cbn [nodes_of]; [reflexivity|]. cbn [no_contexts] in E. injection E as _ _ E1 E2. now rewrite (IHg _ E1), (IHl _ E2). Qed.

Lemma cost_nodes T : 1 <= nodes_of T /\ True.
Proof. split; [|exact I]. induction T; cbn [nodes_of]; lia. Qed.
(* ---- a symbol that the code can say is not excluded by a degenerate one ---- *)
Lemma codable_only codes dc j s x : codes_match codes dc -> codable codes dc j s -> symbol_in dc j (fun sym => sym = x) -> s = x.
Proof.
  intros (Cp & _) C S. unfold codable in C. rewrite <- Cp in C. unfold read_symbol, symbol_in in S. destruct (use_prefix_code dc) eqn:Up.
  - destruct C as (infos & info & t & _ & _ & _ & _ & Et & P). destruct (P [] [] 16 ltac:(lia)) as (av' & R & _). destruct (S 0 ([] ++ to_bits (Z.to_nat (depth info)) (bits info) ++ []) 0 16 ltac:(lia) ltac:(lia) ltac:(lia)) as (sym & st' & pos' & av2 & R2 & -> & _).
    unfold read_symbol in R2. rewrite Up, Et, run_bits_bind in R2. change (zlen (@nil bool)) with 0 in R. rewrite R in R2. cbn [run_bits option_map] in R2. now injection R2 as ->.
  - destruct C as (h & f & t & infos & Hh & Hf & Hpos & Et & (_ & Sl) & _). destruct (Sl s f 0 Hf ltac:(lia)) as (v & (Hv & Ev) & _).
    destruct (S v [] 0 16 ltac:(lia) ltac:(lia) ltac:(lia)) as (sym & st' & pos' & av2 & R2 & -> & _). unfold read_symbol in R2. rewrite Up, Et in R2. unfold ans_read in R2. cbv zeta in R2.
    replace (Z.land v (ANS_TAB_SIZE - 1)) with v in R2. 2:{ change (ANS_TAB_SIZE - 1) with (Z.ones 12). rewrite Z.land_ones by lia. symmetry. apply Z.mod_small. lia. }
    rewrite Ev in R2. cbn [run_bits] in R2. destruct (w32 _ <? _) in R2; cbn [Z.leb Z.compare] in R2; repeat (match type of R2 with context [if ?c then _ else _] => destruct c; [|discriminate R2] end); injection R2; congruence.
Qed.

(* the code can say that a node is a leaf *)
Definition says_leaf (p : plan) : Prop := exists j, znth (p_map p) kPropertyContext = Some j /\ counted p j 0.

Lemma literals_in p ts minlen hist l : planned p 0 ts -> lz_enabled (p_lz p) = false -> expand minlen 0 0 hist ts = Some l ->
  forall x, In x l -> exists c v j s, x = (Some c, v) /\ planned_token p 0 (Token false c v) j s.
Proof.
  intros H Hl. revert hist l. induction H as [|c v j s ts Ht Hs _ IH|c n j s c' d s' ts L _ _ _ _ _]; intros hist l E x Hx; [|  |congruence]; cbn [expand] in E.
  - apply Some_eq in E. subst l. contradiction.
  - destruct (expand _ _ _ _ ts) as [l'|] eqn:E1; [|discriminate]. apply Some_eq in E. subst l. destruct Hx as [<-|Hx]; [exists c, v, j, s; auto|]. eauto.
Qed.
Lemma plain_says_leaf mp p ts raw : coding_of kNumTreeContexts mp p ts raw -> lz_enabled (p_lz p) = false -> In (Token false kPropertyContext 0) raw -> says_leaf p.
Proof.
  intros (Hp & _ & Hts & l & Hx & HF) Hl Hin. pose proof (literals_in p ts _ _ l Hts Hl Hx) as Lit. assert (In (Some kPropertyContext, 0) l).
  { clear -HF Hin Lit. induction HF as [|x t l raw (H1 & H2) _ IH]; [contradiction|]. destruct Hin as [->|Hin].
    - destruct (Lit x (or_introl eq_refl)) as (c & v & j & s & -> & _). cbn in H1, H2. destruct H1 as [H1|]; [|discriminate]. left. now rewrite H1, H2.
    - right. apply IH; [exact Hin|]. intros y Hy. apply Lit. now right. }
  destruct (Lit _ H) as (c & v & j & s & E & (_ & Hm & cfg & tok & nb & b & Hc & He & Hs & _ & Hcnt)). injection E as <- <-. cbn [is_lz77_length value context] in *. rewrite Z.add_0_l in Hm. exists j. split; [exact Hm|].
  assert (Hcfg : hconfig_codable (p_log_alpha p) cfg). { destruct Hp as (_ & _ & _ & F & _). rewrite Forall_forall in F. apply F. eapply znth_member; exact Hc. }
  unfold hybrid_encode in He. assert (0 < split_token cfg).
  { assert (Hla : 0 <= p_log_alpha p <= 15). { destruct Hp as (_ & _ & _ & _ & Hh). unfold histograms_ok in Hh. destruct (p_prefix p); lia. }
    destruct Hcfg as (C1 & C2 & C3 & C4 & _). unfold split_token. rewrite Z.shiftl_1_l. assert (2 ^ split_exponent cfg <= 2 ^ 15) by (apply Z.pow_le_mono_r; lia). assert (0 < 2 ^ split_exponent cfg) by (apply Z.pow_pos_nonneg; lia). rewrite w32_id by lia. lia. }
  replace (0 <? split_token cfg) with true in He by lia. injection He as <- _ _. now replace s with 0 in Hcnt by lia.
Qed.

Theorem tree_roundtrip M mem within limit tree T fuel : lane_count (m_lanes M) -> (forall n, within n = true) -> stored tree 0 T -> writable T -> each_leaf_needed T ->
  zlen tree <= kMaxTreeSize -> nodes_of T <= Z.min limit kMaxTreeSize + 1 -> nodes_of T <= Z.of_nat fuel ->
  exists raw out, tokenize_tree fuel tree = Some (Some (raw, out)) /\ well_formed out /\
    (exists T', stored out 0 T' /\ no_contexts T' = no_contexts T /\ nodes_of T' = zlen out) /\
    forall mp p ts, coding_of kNumTreeContexts mp p ts raw -> lz_enabled (p_lz p) = false \/ says_leaf p ->
      exists fs, encode_with_plan mem mp p ts = Some fs /\ Forall field_ok fs /\
        parses (decode_tree M within limit) (fields_bits fs) (Some (Some out)).
Proof.
  intros HL Hw St W Hn Hz Hlim Hf. pose proof (proj1 (cost_nodes T)) as P1.
  destruct (tokenize_run within tree Hw fuel [0] [T] 0 [] [] ltac:(auto) ltac:(auto) ltac:(cbn [total_nodes]; lia) ltac:(cbn; lia) ltac:(cbn [total_nodes]; unfold kMaxTreeSize in *; cbn; lia)) as (raw & l & R1 & R2 & R3 & R5 & R4).
  cbn [rev app] in *. change (zlen (@nil node)) with 0 in *. change (zlen [0]) with 1 in R4. exists raw, l. pose proof (laid_total _ _ _ _ R2) as Lt. cbn [total_nodes] in Lt.
  split. { unfold tokenize_tree. replace (zlen tree <=? kMaxTreeSize) with true by lia. exact R1. }
  pose proof (laid_level _ _ _ _ R2 ltac:(auto)) as Lv. change (zlen [T]) with 1 in Lv. split; [now apply level_well_formed|].
  destruct (laid_forest _ _ _ _ R2 ltac:(auto) [] eq_refl) as (ts' & T1 & T2). destruct ts' as [|T' [|? ?]]; try discriminate. cbn [map] in T2. injection T2 as T2.
  assert (St' : stored l 0 T') by (apply (T1 0 T' eq_refl)). pose proof (nodes_contexts_eq _ _ T2) as Nn.
  split; [exists T'; split; [exact St'|]; split; [exact T2|lia]|].
  intros mp p ts HC Hsl. assert (SL : says_leaf p). { destruct Hsl as [Hlz|]; [|assumption]. apply (plain_says_leaf mp p ts raw HC Hlz). apply R5. change (zlen [T]) with 1. lia. }
  assert (Va : validate_tree l = Some true). { destruct (validate_meaning l T' St' ltac:(lia)) as (b & -> & Hb). f_equal. apply Hb. now apply (needed_contexts T T'). }
  set (lim := Z.min limit kMaxTreeSize) in *.
  destruct (coding_roundtrip M mem kNumTreeContexts mp p ts raw (read_tree within lim) (Some (Some l)) HL HC ltac:(unfold kMaxTreeSize in *; lia)) as (fs & codes & ws & d & r & A1 & A2 & A3 & A4 & A5 & A6 & A7).
  { intros m Hm. unfold read_tree. rewrite run_tbind. specialize (R4 m lim (Z.to_nat (lim + 2)) ltac:(unfold kNumTreeContexts in Hm; lia) ltac:(lia) ltac:(lia)). rewrite R4. cbn [run_toks]. now rewrite Va. }
  exists (fs ++ ws). split; [exact A3|]. split; [exact A4|]. rewrite fields_bits_app. unfold decode_tree. eapply parses_bind; [exact A5|]. cbv beta iota.
  destruct HC as (Hp & Hmp & _). destruct (histograms_roundtrip M mem mp kNumTreeContexts p false HL Hp ltac:(discriminate) Hmp) as (fs' & codes' & d' & B1 & _ & B3 & B4).
  rewrite B1 in A1. injection A1 as <- <-. destruct (A5 [] [] 0 ltac:(lia)) as (av1 & G1 & _). destruct (B3 [] [] 0 ltac:(lia)) as (av2 & G2 & _). rewrite G1 in G2. injection G2 as <- _. 
  destruct (accepted_code M kNumTreeContexts false HL ltac:(unfold kNumTreeContexts; lia) ([] ++ fields_bits fs' ++ []) 0 0 ltac:(lia) ltac:(lia)) as (o & pos' & av' & E & Ho). change (zlen (@nil bool)) with 0 in G1. rewrite G1 in E. injection E as <- _ _.
  destruct (Ho d eq_refl) as (_ & _ & _ & _ & Dg). pose proof B4 as (Cm & _ & Dm & _ & _ & _ & Cc). destruct SL as (j & Ej & Hj). rewrite Dm, Ej.
  assert (Ds : exists s, znth (degenerate d) j = Some s /\ s <= 0). { destruct (Dg j) as [Dj|(x & Dj & Sx)]; [rewrite Dm; eapply znth_member; exact Ej|exists (-1); split; [exact Dj|lia]|]. exists x. split; [exact Dj|]. rewrite <- (codable_only _ _ _ 0 x Cm (Cc j 0 Hj) Sx). lia. }
  destruct Ds as (s & -> & Hs). replace (0 <? s) with false by lia.
  eapply parses_bind_nil; [rewrite <- Dm; exact A6|]. cbv beta iota. rewrite A7. apply parses_ret.
Qed.
