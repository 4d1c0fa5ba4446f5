(* What the encoder's and the decoder's versions of a tree have in common. *)
From Verif Require Import Base ListAux OMap Wrap FieldsModel MaModel MaSpec MaProofs MaValid MaFlat MaLut ResModel ResSpec ResLoop ResPaths.
Ltac Zify.zify_post_hook ::= idtac.

(* ---- the shape of a flat tree: all but its contexts ---- *)
Definition same_node (a b : fnode) : Prop :=
  match a, b with
  | FLeaf _ p o m, FLeaf _ p' o' m' => p = p' /\ o = o' /\ m = m'
  | FNode _ _ _ _ _ _ _, FNode _ _ _ _ _ _ _ => a = b
  | _, _ => False
  end.
Lemma cluster_shape cm fl fc : cluster_leaves cm fl = Some fc -> Forall2 same_node fl fc.
Proof.
  revert fc. induction fl as [|n fl IH]; intros fc E; cbn [cluster_leaves] in E; [injection E as <-; constructor|]. destruct n as [c p o m|p0 v0 p1 v1 p2 v2 k].
  - destruct (znth cm c); [|discriminate]. destruct (cluster_leaves cm fl); [|discriminate]. injection E as <-. constructor; [cbn; auto|auto].
  - destruct (cluster_leaves cm fl); [|discriminate]. injection E as <-. constructor; [cbn; auto|auto].
Qed.
Lemma cluster_id n fl fc : cluster_leaves (zseq 0 n) fl = Some fc -> fc = fl.
Proof.
  revert fc. induction fl as [|k fl IH]; intros fc E; cbn [cluster_leaves] in E; [congruence|]. destruct k as [c p o m|p0 v0 p1 v1 p2 v2 k].
  - destruct (znth (zseq 0 n) c) as [x|] eqn:X; [|discriminate]. destruct (cluster_leaves _ fl) as [r|]; [|discriminate]. injection E as <-. rewrite (IH r eq_refl). f_equal. f_equal.
    pose proof X as Xb. unfold znth in Xb. destruct (Z.ltb_spec c 0); [discriminate|]. assert (nth_error (zseq 0 n) (Z.to_nat c) <> None) by congruence. apply nth_error_Some in H0. rewrite zseq_length in H0. rewrite znth_zseq in X by lia. apply Some_inj in X. lia.
  - destruct (cluster_leaves _ fl) as [r|]; [|discriminate]. injection E as <-. now rewrite (IH r eq_refl).
Qed.
Lemma shape_nth fl fc i : Forall2 same_node fl fc -> match znth fl i, znth fc i with Some a, Some b => same_node a b | None, None => True | _, _ => False end.
Proof.
  intros F. unfold znth. destruct (i <? 0); [exact I|]. generalize (Z.to_nat i). induction F; intros [|n]; cbn; auto. apply IHF.
Qed.

(* whether a table can be made depends on the shape *)
Definition same_outcome {A B} (a : option (option A)) (b : option (option B)) : Prop :=
  match a, b with None, None => True | Some None, Some None => True | Some (Some _), Some (Some _) => True | _, _ => False end.
Lemma fill_shape l c c' : forall lut lut' : option (Z -> Z), (lut = None <-> lut' = None) ->
  let f c := fold_left (fun l i => do l <- l; set (2 * kPropRangeFast) l (i + kPropRangeFast) c) l in f c lut = None <-> f c' lut' = None.
Proof.
  induction l as [|i l IH]; intros lut lut' E; cbn [fold_left]; [exact E|]. apply IH. destruct lut as [lut|], lut' as [lut'|]; [|exfalso; destruct E as (_ & E2); specialize (E2 eq_refl); discriminate|exfalso; destruct E as (E1 & _); specialize (E1 eq_refl); discriminate|tauto].
  unfold set. destruct ((0 <=? i + kPropRangeFast) && (i + kPropRangeFast <? 2 * kPropRangeFast)); split; discriminate || reflexivity.
Qed.
Lemma lut_shape wr wr' fl fc : Forall2 same_node fl fc -> forall fuel ranges lut lut', same_outcome (lut_loop fuel wr fl ranges lut) (lut_loop fuel wr' fc ranges lut').
Proof.
  intros F. induction fuel as [|fuel IH]; intros [|((b & e) & pos) ranges] lut lut'; cbn [lut_loop]; try exact I.
  destruct ((b <? - kPropRangeFast - 1) || (kPropRangeFast - 1 <=? b) || (kPropRangeFast - 1 <? e)); [exact I|].
  pose proof (shape_nth fl fc pos F) as N. destruct (znth fl pos) as [x|], (znth fc pos) as [z|]; try contradiction; [|exact I].
  destruct x as [c p o m|p0 v0 p1 v1 p2 v2 k], z as [c' p' o' m'|p0' v0' p1' v1' p2' v2' k']; cbn [same_node] in N; try contradiction.
  - destruct N as (<- & <- & <-). destruct ((o <? -128) || (127 <? o)); [exact I|]. destruct ((m <? -128) || (127 <? m)); [exact I|]. destruct (negb (m =? 1)); [exact I|]. destruct (negb (o =? 0)); [exact I|].
    unfold fill_range. pose proof (fill_shape (zseq (b + 1) (Z.to_nat (e - b))) (wr c) (wr' c') (Some lut) (Some lut') ltac:(split; discriminate)) as S. cbv zeta beta in S.
    destruct (fold_left _ _ (Some lut)) as [l1|], (fold_left _ _ (Some lut')) as [l2|]; [apply IH|destruct S as (_ & S); specialize (S eq_refl); discriminate|destruct S as (S & _); specialize (S eq_refl); discriminate|exact I].
  - injection N as <- <- <- <- <- <- <-. apply IH.
Qed.
Lemma maybe_shape wr wr' wanted fl fc lut lut' : Forall2 same_node fl fc -> same_outcome (maybe_lut wr wanted fl lut) (maybe_lut wr' wanted fc lut').
Proof.
  intros F. unfold maybe_lut. destruct wanted; [|exact I]. unfold tree_to_lut. replace (length fc) with (length fl) by (clear - F; induction F; cbn; congruence). apply lut_shape, F.
Qed.

Section Tree.
Variables (t : list node) (T : mtree) (cm : list Z) (sp : Z -> Z).
Hypothesis Ht : tree_ok t T cm.

Lemma tree_parts : exists fl np uw wo g fc, filter_tree t sp = Some (fl, np, uw, wo, g) /\ cluster_leaves cm fl = Some fc /\ Forall2 same_node fl fc /\
  16 <= np /\ np mod 4 = 0 /\
  (forall pv, agrees sp pv -> lookup (length fl) fl np pv 0 = Some (decide T pv)) /\
  (forall pv, agrees sp pv -> lookup (length fc) fc np pv 0 = Some (let '(c, p, o, m) := decide T pv in (in_map cm c, p, o, m))) /\
  (uw = true <-> (exists v, has_split (resolve sp T) 15 v) \/ has_leaf (resolve sp T) 6) /\
  (wo = true <-> (forall p v, has_split (resolve sp T) p v -> p = 15) /\ (forall q, has_leaf (resolve sp T) q -> q = 6)) /\
  (g = true <-> (forall p v, has_split (resolve sp T) p v -> p = 9) /\ (forall q, has_leaf (resolve sp T) q -> q = 5)).
Proof.
  destruct Ht as (Wf & St & Hn & Hz & Nd & Hc & Hu). destruct (filter_spec t T sp Wf St Hn Hz) as (fl & np & uw & wo & g & E & _ & _ & _ & _ & N1 & N2 & _ & L & A1 & A2 & A3).
  destruct (clustered_lookup t T sp cm Wf St Hn Hz Hc) as (fl' & np' & uw' & wo' & g' & fc & E' & C1 & _ & _ & C4). rewrite E in E'. injection E' as <- <- <- <- <-.
  exists fl, np, uw, wo, g, fc. split; [exact E|]. split; [exact C1|]. split; [eapply cluster_shape, C1|]. split; [lia|]. split; [exact N2|]. split; [exact L|]. split; [|auto].
  intros pv Ag. destruct (C4 pv Ag) as (c & p & o & m & x & D & X & K). rewrite K, D. unfold in_map. now rewrite X.
Qed.

Lemma decide_cm pv c p o m : decide T pv = (c, p, o, m) -> znth cm c = Some (in_map cm c) /\ 0 <= c < zlen cm /\ 1 <= m < 2 ^ 31 /\ 0 <= in_map cm c < 256.
Proof.
  destruct Ht as (Wf & St & Hn & Hz & Nd & Hc & Hu). pose proof (stored_contexts t T Wf 0 St) as Cx. rewrite <- Hc in Cx. pose proof (stored_writable t T Wf 0 St) as Wr. intros D.
  assert (B : 0 <= c < zlen cm /\ 1 <= m < 2 ^ 31). { clear - D Cx Wr. revert D Cx Wr. induction T as [c' p' o' m'|p' v' gt IHg le IHl]; cbn [decide contexts_in writable]; [intros D; injection D as -> -> -> ->; tauto|]. intros D (A & B) (_ & _ & W1 & W2). destruct (v' <? pv p'); auto. }
  destruct (znth_ex cm c ltac:(tauto)) as (x & X). unfold in_map. rewrite X. split; [reflexivity|]. split; [tauto|]. split; [tauto|]. rewrite Forall_forall in Hu. apply (Hu x). unfold znth in X. destruct (_ <? 0); [discriminate|]. eapply nth_error_In, X.
Qed.

Lemma decide_resolved pv : agrees sp pv -> decide (resolve sp T) pv = decide T pv.
Proof. destruct Ht as (Wf & St & _). intros A. apply resolve_decide; [exact A|]. apply writable_props, (stored_writable t T Wf 0 St). Qed.
Lemma decide_has_leaf U pv c p o m : decide U pv = (c, p, o, m) -> has_leaf U p.
Proof. induction U as [c' p' o' m'|p' v' gt IHg le IHl]; cbn [decide has_leaf]; [intros D; injection D as _ -> _ _; reflexivity|]. destruct (v' <? pv p'); auto. Qed.
Lemma decide_only U pv pv' : (forall p v, has_split U p v -> pv p = pv' p) -> decide U pv = decide U pv'.
Proof.
  induction U as [c' p' o' m'|p' v' gt IHg le IHl]; cbn [decide has_split]; [reflexivity|]. intros H. rewrite (H p' v') by auto. destruct (v' <? pv' p'); eauto.
Qed.
(* without the weighted predictor, property 15 does not matter *)
Lemma no_wp pv pv' : agrees sp pv -> agrees sp pv' -> ~ ((exists v, has_split (resolve sp T) 15 v) \/ has_leaf (resolve sp T) 6) -> (forall i, 2 <= i -> i <> 15 -> pv i = pv' i) ->
  decide T pv = decide T pv' /\ snd (fst (fst (decide T pv))) <> 6.
Proof.
  intros A A' N E. destruct Ht as (Wf & St & _). pose proof (writable_props T (stored_writable t T Wf 0 St)) as Pb.
  rewrite <- (decide_resolved pv A), <- (decide_resolved pv' A'). split.
  - apply decide_only. intros p v H. pose proof (resolve_split sp T p v Pb H). apply E; [lia|]. intros ->. apply N. left. exists v. exact H.
  - destruct (decide (resolve sp T) pv) as (((c & p) & o) & m) eqn:D. cbn [fst snd]. intros ->. apply N. right. eapply decide_has_leaf, D.
Qed.
Lemma resolved_split p v : has_split (resolve sp T) p v -> has_split T p v.
Proof. clear. induction T as [c' p' o' m'|p' v' gt IHg le IHl]; cbn [resolve has_split]; [auto|]. destruct (p' <? 2); [destruct (v' <? sp p'); auto|]. cbn [has_split]. tauto. Qed.

(* the tables *)
Lemma lut_facts wr wr' lut0 lut0' fl np uw wo g fc q pr : filter_tree t sp = Some (fl, np, uw, wo, g) -> cluster_leaves cm fl = Some fc ->
  (wo = true /\ q = 15 /\ pr = 6) \/ (g = true /\ q = 9 /\ pr = 5) -> forall le ld, tree_to_lut wr fl lut0 = Some (Some le) -> tree_to_lut wr' fc lut0' = Some (Some ld) ->
  (forall v, exists c, 0 <= c < zlen cm /\ lutv le v = wr c /\ lutv ld v = wr' (in_map cm c)) /\
  (forall pv, agrees sp pv -> -8192 <= pv q \/ ~ has_split T q (-8193) -> exists c, decide T pv = (c, pr, 0, 1) /\ lutv le (pv q) = wr c /\ lutv ld (pv q) = wr' (in_map cm c)).
Proof.
  intros Ef Ec Hq le ld El Ed. pose proof Ht as (Wf & St & Hn & Hz & Nd & Hc & Hu).
  destruct (lut_meaning t T sp (zseq 0 (length cm)) wr lut0 Wf St Hn Hz Nd ltac:(unfold zlen in *; rewrite zseq_length; lia)) as (fl1 & np1 & uw1 & wo1 & g1 & fc1 & r1 & E1 & C1 & M1).
  destruct (lut_meaning t T sp cm wr' lut0' Wf St Hn Hz Nd Hc) as (fl2 & np2 & uw2 & wo2 & g2 & fc2 & r2 & E2 & C2 & M2).
  rewrite Ef in E1, E2. injection E1 as <- <- <- <- <-. injection E2 as <- <- <- <- <-. rewrite Ec in C2. apply Some_inj in C2. subst fc2. apply cluster_id in C1. subst fc1.
  destruct (M1 q pr Hq) as (R1 & K1). destruct (M2 q pr Hq) as (R2 & K2). rewrite El in R1. apply Some_inj in R1. rewrite Ed in R2. apply Some_inj in R2. subst r1 r2.
  assert (Both : forall pv, agrees sp pv -> -8192 <= pv q \/ ~ has_split T q (-8193) -> exists c, decide T pv = (c, pr, 0, 1) /\ lutv le (pv q) = wr c /\ lutv ld (pv q) = wr' (in_map cm c)).
  { intros pv Ag Hx. assert (Hx' : -8192 <= pv q \/ ~ has_split (resolve sp T) q (-8193)) by (destruct Hx as [Hx|Hx]; [auto|right; intros H; apply Hx, resolved_split, H]).
    destruct (K1 le eq_refl pv Ag Hx') as (c & x & D & X & L). destruct (K2 ld eq_refl pv Ag Hx') as (c2 & x2 & D2 & X2 & L2). rewrite D in D2. injection D2 as <-. exists c. split; [exact D|].
    rewrite lut_total in L, L2. apply Some_inj in L, L2. rewrite L, L2. unfold in_map. rewrite X2. split; [|reflexivity]. f_equal.
    pose proof (decide_cm pv c pr 0 1 D) as (_ & B & _). rewrite znth_zseq in X by (unfold zlen in B; lia). apply Some_inj in X. lia. }
  split; [|exact Both]. intros v. set (u := Z.min (Z.max (-8192) v) 8191). set (pv := fun i => if i =? q then u else sp i).
  assert (Q : 2 <= q) by (destruct Hq as [(_ & -> & _)|(_ & -> & _)]; lia).
  destruct (Both pv) as (c & D & A & B).
  - unfold agrees, pv. replace (0 =? q) with false by lia. replace (1 =? q) with false by lia. auto.
  - left. unfold pv. rewrite Z.eqb_refl. unfold u. lia.
  - exists c. split; [apply (decide_cm pv c pr 0 1 D)|]. assert (V : forall l, lutv l v = lutv l (pv q)). { intros l. unfold lutv, pv. rewrite Z.eqb_refl. f_equal. unfold u, kPropRangeFast. lia. } rewrite !V. auto.
Qed.

Lemma noop_leaves : all_gradient_noop t = true -> forall pv c p o m, decide T pv = (c, p, o, m) -> p = 5 /\ o = 0 /\ m = 1.
Proof.
  destruct Ht as (Wf & St & _). unfold all_gradient_noop. rewrite forallb_forall. intros F pv. clear - St F.
  assert (Hin : forall i n, znth t i = Some n -> In n t) by (intros i n; unfold znth; destruct (i <? 0); [discriminate|]; apply nth_error_In).
  enough (G : forall i U, stored t i U -> forall c p o m, decide U pv = (c, p, o, m) -> p = 5 /\ o = 0 /\ m = 1) by (intros c p o m; apply (G 0 T St)).
  clear St T. intros i0 U St. induction St as [i n E Hp|i n gt le E Hp S1 IH1 S2 IH2]; intros c p o m; cbn [decide].
  - intros D. injection D as _ <- <- <-. specialize (F n (Hin i n E)). rewrite Hp in F. cbn [Z.eqb] in F. apply andb_true_iff in F. destruct F as (F & F3). apply andb_true_iff in F. destruct F as (F1 & F2). unfold pGradient in F1. lia.
  - destruct (splitval n <? pv (nprop n)); eauto.
Qed.
End Tree.
