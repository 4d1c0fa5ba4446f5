(* Decision trees: the flattened tree decides like the tree. *)
From Verif Require Import Base HuffRle FieldsModel FieldsProofs ListAux LzProofs AliasProofs PermProofs CodesSafe TocLayout COrderProofs MaModel MaSpec MaProofs MaValid MaTok.
Ltac Zify.zify_post_hook ::= idtac.

Lemma lookup_more np pv nodes : forall fuel fuel' pos r, (fuel <= fuel')%nat -> lookup fuel nodes np pv pos = Some r -> lookup fuel' nodes np pv pos = Some r.
Proof.
  induction fuel as [|fuel IH]; intros fuel' pos r L H; cbn [lookup] in H; destruct (znth nodes pos) as [[c p o m|p0 v0 p1 v1 p2 v2 ch]|] eqn:E; try discriminate.
  - destruct fuel'; cbn [lookup]; now rewrite E.
  - destruct fuel'; cbn [lookup]; now rewrite E.
  - destruct fuel' as [|fuel']; [lia|]. cbn [lookup]. rewrite E. destruct (get np pv p0); [|discriminate]. destruct (get np pv p1); [|discriminate]. destruct (get np pv p2); [|discriminate]. apply IH; [lia|exact H].
Qed.

Section Flat.
Variable sp : Z -> Z.

(* the first node that is not decided *)
Fixpoint strip (t : mtree) : mtree :=
  match t with
  | MLeaf _ _ _ _ => t
  | MSplit p v gt le => if p <? 2 then (if v <? sp p then strip gt else strip le) else t
  end.
Lemma strip_resolve t : resolve sp (strip t) = resolve sp t.
Proof. induction t as [c p o m|p v gt IHg le IHl]; cbn [strip resolve]; [reflexivity|]. destruct (p <? 2) eqn:E; [|cbn [resolve]; now rewrite E]. now destruct (v <? sp p). Qed.
Lemma strip_split t p v gt le : strip t = MSplit p v gt le -> 2 <= p /\ resolve sp t = MSplit p v (resolve sp gt) (resolve sp le).
Proof.
  intros E. rewrite <- strip_resolve, E. cbn [resolve]. assert (2 <= p).
  { revert E. induction t as [c0 p0 o m|p0 v0 g0 IHg l0 IHl]; cbn [strip]; [discriminate|]. destruct (Z.ltb_spec p0 2); [now destruct (v0 <? sp p0)|]. intros E. injection E as <- _ _ _. lia. }
  split; [assumption|]. now replace (p <? 2) with false by lia.
Qed.
Lemma strip_leaf t c p o m : strip t = MLeaf c p o m -> resolve sp t = MLeaf c p o m.
Proof. intros E. now rewrite <- strip_resolve, E. Qed.
Lemma resolve_nodes t : nodes_of (resolve sp t) <= nodes_of t.
Proof. assert (P : forall t, 1 <= nodes_of t) by (intros x; apply cost_nodes). induction t as [c p o m|p v gt IHg le IHl]; cbn [resolve nodes_of]; [lia|]. pose proof (P gt). pose proof (P le). destruct (p <? 2); [destruct (v <? sp p); lia|]. cbn [nodes_of]. lia. Qed.
Lemma resolve_decide t pv : agrees sp pv -> props_below 256 t -> decide (resolve sp t) pv = decide t pv.
Proof.
  intros (A0 & A1). induction t as [c p o m|p v gt IHg le IHl]; cbn [resolve decide props_below]; [reflexivity|]. intros (H1 & H2 & H3). destruct (Z.ltb_spec p 2) as [L|L].
  - assert (E : pv p = sp p) by (assert (C : p = 0 \/ p = 1) by lia; destruct C; subst p; assumption). rewrite E. destruct (v <? sp p); auto.
  - cbn [decide]. now rewrite IHg, IHl.
Qed.

Definition halves (t : mtree) : Z * Z * list mtree :=
  match strip t with MSplit p v gt le => (p, v, [gt; le]) | l => (0, 0, [l; l]) end.

(* the flat nodes of a list of trees *)
Inductive flat : Z -> list mtree -> list fnode -> Prop :=
| flat_nil k : flat k [] []
| flat_leaf k T c p o m ts l : strip T = MLeaf c p o m -> flat (k + 1) ts l -> flat k (T :: ts) (FLeaf c p o m :: l)
| flat_node k T p v gt le p0 v0 q0 p1 v1 q1 ts l : strip T = MSplit p v gt le -> halves gt = (p0, v0, q0) -> halves le = (p1, v1, q1) ->
    flat (k + 1) (ts ++ q0 ++ q1) l -> flat k (T :: ts) (FNode p v p0 v0 p1 v1 (k + 1 + zlen ts) :: l).

Lemma halves_two t p v q : halves t = (p, v, q) -> exists a b, q = [a; b].
Proof. unfold halves. destruct (strip t); intros E; injection E as <- <- <-; eauto. Qed.

(* what a half decides *)
Lemma halves_decide t p v a b pv : halves t = (p, v, [a; b]) ->
  decide (resolve sp (if v <? pv p then a else b)) pv = decide (resolve sp t) pv.
Proof.
  unfold halves. destruct (strip t) as [c p0 o m|p0 v0 gt le] eqn:E; intros H; injection H as <- <- <- <-.
  - rewrite (strip_leaf _ _ _ _ _ E). now destruct (0 <? pv 0).
  - destruct (strip_split _ _ _ _ _ E) as (L & ->). cbn [decide]. now destruct (v0 <? pv p0).
Qed.

Lemma flat_count k ts l : flat k ts l -> zlen ts <= zlen l.
Proof.
  induction 1 as [k|k T c p o m ts l E H IH|k T p v gt le p0 v0 q0 p1 v1 q1 ts l E E0 E1 H IH]; rewrite ?zlen_cons; [cbn; lia|lia|].
  rewrite zlen_app in IH. pose proof (zlen_nonneg (q0 ++ q1)). lia.
Qed.
Definition indices (n : fnode) : list Z := match n with FLeaf _ _ _ _ => [] | FNode p _ p0 _ p1 _ _ => [p; p0; p1] end.
Lemma flat_lookup np pv : forall l k ts, flat k ts l -> forall pre, zlen pre = k -> k + zlen l < 2 ^ 31 -> Forall (fun n => Forall (fun p => 0 <= p < np) (indices n)) l ->
  forall j T, znth ts j = Some T -> lookup (length l) (pre ++ l) np pv (k + j) = Some (decide (resolve sp T) pv).
Proof.
  intros l k ts H. induction H as [k|k T c p o m ts l E H IH|k T p v gt le p0 v0 q0 p1 v1 q1 ts l E E0 E1 H IH]; intros pre Hpre Hsz HF j X Hj.
  - apply znth_bound in Hj. change (zlen (@nil mtree)) with 0 in Hj. lia.
  - pose proof (znth_bound _ _ _ Hj) as Bj. destruct (Z.eq_dec j 0) as [->|Nj].
    + change (znth (T :: ts) 0) with (Some T) in Hj. apply Some_eq in Hj. subst X. rewrite Z.add_0_r, <- Hpre. cbn [length lookup]. rewrite znth_mid. now rewrite (strip_leaf _ _ _ _ _ E).
    + rewrite znth_cons in Hj by lia. rewrite zlen_cons in Hsz. specialize (IH (pre ++ [FLeaf c p o m]) ltac:(rewrite zlen_app, zlen_cons; cbn; lia) ltac:(lia) (Forall_inv_tail HF) (j - 1) X Hj).
      rewrite <- app_assoc in IH. cbn [app] in IH. replace (k + 1 + (j - 1)) with (k + j) in IH by lia. cbn [length]. apply lookup_more with (fuel := length l); [lia|exact IH].
  - destruct (halves_two _ _ _ _ E0) as (a & b & ->). destruct (halves_two _ _ _ _ E1) as (c & d & ->). rewrite zlen_cons in Hsz. pose proof (zlen_nonneg l) as Hl0. pose proof (zlen_nonneg ts) as Ht0. pose proof (zlen_nonneg pre) as Hp0.
    specialize (IH (pre ++ [FNode p v p0 v0 p1 v1 (k + 1 + zlen ts)]) ltac:(rewrite zlen_app, zlen_cons; cbn; lia) ltac:(lia) (Forall_inv_tail HF)). rewrite <- app_assoc in IH. cbn [app] in IH.
    pose proof (znth_bound _ _ _ Hj) as Bj. destruct (Z.eq_dec j 0) as [->|Nj].
    + change (znth (T :: ts) 0) with (Some T) in Hj. apply Some_eq in Hj. subst X. rewrite Z.add_0_r, <- Hpre. cbn [length lookup]. rewrite znth_mid.
      pose proof (Forall_inv HF) as Hi. cbn [indices] in Hi. pose proof (Forall_inv Hi) as I0. pose proof (Forall_inv (Forall_inv_tail Hi)) as I1. pose proof (Forall_inv (Forall_inv_tail (Forall_inv_tail Hi))) as I2.
      rewrite (get_ok np pv p) by exact I0. rewrite (get_ok np pv p0) by exact I1. rewrite (get_ok np pv p1) by exact I2. destruct (strip_split _ _ _ _ _ E) as (L & ->).
      cbn [decide]. assert (Ln : zlen ts + 4 <= zlen l) by (pose proof (flat_count _ _ _ H) as Hc; rewrite zlen_app in Hc; cbn [app] in Hc; change (zlen [a; b; c; d]) with 4 in Hc; lia).
      assert (At : forall i Y, znth [a; b; c; d] i = Some Y -> 0 <= i < 4 -> lookup (length l) (pre ++ FNode p v p0 v0 p1 v1 (k + 1 + zlen ts) :: l) np pv (w32 (k + 1 + zlen ts + i)) = Some (decide (resolve sp Y) pv)).
      { intros i Y Hy Hi4. rewrite w32_id by lia. replace (k + 1 + zlen ts + i) with (k + 1 + (zlen ts + i)) by lia. apply IH. rewrite znth_app_r by lia. replace (zlen ts + i - zlen ts) with i by lia. exact Hy. }
      rewrite Hpre. destruct (Z.leb_spec (pv p) v) as [C0|C0].
      * replace (v <? pv p) with false by lia. rewrite <- (halves_decide _ _ _ _ _ pv E1). destruct (Z.leb_spec (pv p1) v1) as [C1|C1]; cbn [HeadersModel.b2z].
        -- replace (v1 <? pv p1) with false by lia. apply (At 3); [reflexivity|lia].
        -- replace (v1 <? pv p1) with true by lia. apply (At 2); [reflexivity|lia].
      * replace (v <? pv p) with true by lia. rewrite <- (halves_decide _ _ _ _ _ pv E0). destruct (Z.leb_spec (pv p0) v0) as [C1|C1]; cbn [HeadersModel.b2z].
        -- replace (v0 <? pv p0) with false by lia. apply (At 1); [reflexivity|lia].
        -- replace (v0 <? pv p0) with true by lia. apply (At 0); [reflexivity|lia].
    + rewrite znth_cons in Hj by lia. rewrite zlen_cons in Bj. specialize (IH (j - 1) X). rewrite znth_app_l in IH by lia. specialize (IH Hj).
      replace (k + 1 + (j - 1)) with (k + j) in IH by lia. cbn [length]. apply lookup_more with (fuel := length l); [lia|exact IH].
Qed.

(* ---- which properties and predictors there are ---- *)
Fixpoint any (P Q : Z -> Prop) (t : mtree) : Prop :=
  match t with MLeaf _ q _ _ => Q q | MSplit p v gt le => P p \/ any P Q gt \/ any P Q le end.
Definition anys (P Q : Z -> Prop) (ts : list mtree) : Prop := Exists (fun t => any P Q (resolve sp t)) ts.
Lemma any_halves P Q t p v q : halves t = (p, v, q) -> (any P Q (resolve sp t) <-> (2 <= p /\ P p) \/ anys P Q q).
Proof.
  unfold halves. destruct (strip t) as [c p0 o m|p0 v0 gt le] eqn:E; intros H; injection H as <- <- <-.
  - rewrite (strip_leaf _ _ _ _ _ E). unfold anys. rewrite !Exists_cons. cbn [any resolve]. rewrite Exists_nil. split; [tauto|]. intros [(H & _)|H]; [lia|tauto].
  - destruct (strip_split _ _ _ _ _ E) as (L & ->). unfold anys. rewrite !Exists_cons, Exists_nil. cbn [any]. tauto.
Qed.
Lemma anys_node P Q T p v gt le p0 v0 q0 p1 v1 q1 ts : strip T = MSplit p v gt le -> halves gt = (p0, v0, q0) -> halves le = (p1, v1, q1) ->
  (anys P Q (T :: ts) <-> P p \/ (2 <= p0 /\ P p0) \/ (2 <= p1 /\ P p1) \/ anys P Q (ts ++ q0 ++ q1)).
Proof.
  intros E E0 E1. unfold anys at 1. rewrite Exists_cons. destruct (strip_split _ _ _ _ _ E) as (L & ->). cbn [any]. rewrite (any_halves P Q _ _ _ _ E0), (any_halves P Q _ _ _ _ E1).
  unfold anys. rewrite !Exists_app. tauto.
Qed.
Lemma flat_indices np : 0 < np -> forall k ts l, flat k ts l -> ~ anys (fun p => ~ 0 <= p < np) (fun _ => False) ts -> Forall (fun n => Forall (fun p => 0 <= p < np) (indices n)) l.
Proof.
  intros Hn k ts l. induction 1 as [k|k T c p o m ts l E H IH|k T p v gt le p0 v0 q0 p1 v1 q1 ts l E E0 E1 H IH]; intros A; constructor.
  - constructor.
  - apply IH. intros B. apply A. unfold anys in *. rewrite Exists_cons. auto.
  - rewrite (anys_node _ _ _ _ _ _ _ _ _ _ _ _ _ _ E E0 E1) in A. cbn [indices]. destruct (strip_split _ _ _ _ _ E) as (L & _).
    assert (Hh : forall t pp vv qq, halves t = (pp, vv, qq) -> pp = 0 \/ 2 <= pp). { intros t pp vv qq. unfold halves. destruct (strip t) as [? ? ? ?|? ? ? ?] eqn:Es; intros X; injection X as <- _ _; [auto|]. right. now apply strip_split in Es. }
    constructor; [destruct (Z.lt_ge_cases p np); [lia|exfalso; apply A; left; lia]|]. constructor; [|constructor; [|constructor]].
    + destruct (Hh _ _ _ _ E0); [lia|]. destruct (Z.lt_ge_cases p0 np); [lia|exfalso; apply A; right; left; lia].
    + destruct (Hh _ _ _ _ E1); [lia|]. destruct (Z.lt_ge_cases p1 np); [lia|exfalso; apply A; right; right; left; lia].
  - apply IH. intros B. apply A. apply (anys_node _ _ _ _ _ _ _ _ _ _ _ _ _ _ E E0 E1). auto.
Qed.

(* ---- FilterTree ---- *)
Fixpoint pops (t : mtree) : nat :=
  match t with
  | MLeaf _ _ _ _ => 1
  | MSplit _ _ gt le =>
      1 + match gt with MLeaf _ _ _ _ => 2 | MSplit _ _ a b => pops a + pops b end
        + match le with MLeaf _ _ _ _ => 2 | MSplit _ _ a b => pops a + pops b end
  end.
Fixpoint total_pops (ts : list mtree) : nat := match ts with [] => 0 | t :: ts => pops (resolve sp t) + total_pops ts end.
Lemma total_pops_app a b : total_pops (a ++ b) = (total_pops a + total_pops b)%nat.
Proof. induction a as [|x a IH]; cbn [app total_pops]; [reflexivity|]. rewrite IH. lia. Qed.
Lemma pops_bound n : forall t, nodes_of t <= Z.of_nat n -> Z.of_nat (pops t) <= 2 * nodes_of t - 1.
Proof.
  assert (P : forall t, 1 <= nodes_of t) by (intros x; apply cost_nodes).
  induction n as [|n IH]; intros t H; [pose proof (P t); lia|]. destruct t as [c p o m|p v gt le]; cbn [pops nodes_of] in *; [lia|]. pose proof (P gt). pose proof (P le).
  assert (Q : forall x, nodes_of x <= Z.of_nat n -> Z.of_nat (match x with MLeaf _ _ _ _ => 2 | MSplit _ _ a b => pops a + pops b end) <= 2 * nodes_of x).
  { intros [? ? ? ?|p1 v1 a b] Hx; cbn [nodes_of] in *; [lia|]. pose proof (P a). pose proof (P b). pose proof (IH a ltac:(lia)). pose proof (IH b ltac:(lia)). lia. }
  pose proof (Q gt ltac:(lia)). pose proof (Q le ltac:(lia)). lia.
Qed.

Variable tree : list node.
Definition small (t : mtree) : Prop := writable t /\ nodes_of t <= zlen tree.
Lemma skip_run t : forall fuel i, stored tree i t -> writable t -> nodes_of t <= Z.of_nat fuel ->
  exists c n, skip_static fuel tree sp i = Some (c, n) /\ znth tree c = Some n /\ stored tree c (strip t) /\ writable (strip t) /\ nodes_of (strip t) <= nodes_of t.
Proof.
  assert (P : forall t, 1 <= nodes_of t) by (intros x; apply cost_nodes).
  induction t as [c p o m|p v gt IHg le IHl]; intros fuel i St W Hf; inversion St as [? n E1 E2|? n ? ? E1 E2 Sg Sl]; subst.
  - exists i, n. split; [destruct fuel; cbn [skip_static]; rewrite E1, E2; reflexivity|]. split; [exact E1|]. split; [exact St|]. split; [exact W|cbn [strip]; lia].
  - cbn [writable nodes_of] in *. destruct W as (W1 & W2 & W3 & W4). pose proof (P gt). pose proof (P le). destruct fuel as [|fuel]; [lia|]. cbn [skip_static strip]. rewrite E1. replace (negb (nprop n =? -1)) with true by lia. rewrite andb_true_r. unfold kNumStaticProperties.
    destruct (Z.ltb_spec (nprop n) 2) as [L|L].
    + rewrite get_ok by lia. destruct (splitval n <? sp (nprop n)).
      * destruct (IHg fuel _ Sg W3 ltac:(lia)) as (c & m & A1 & A2 & A3 & A4 & A5). exists c, m. split; [exact A1|]. split; [exact A2|]. split; [exact A3|]. split; [exact A4|lia].
      * destruct (IHl fuel _ Sl W4 ltac:(lia)) as (c & m & A1 & A2 & A3 & A4 & A5). exists c, m. split; [exact A1|]. split; [exact A2|]. split; [exact A3|]. split; [exact A4|lia].
    + exists i, n. split; [reflexivity|]. split; [exact E1|]. split; [exact St|]. split; [cbn [writable]; auto|cbn [nodes_of]; lia].
Qed.

Definition marks (b b' : bool) (P Q : Z -> Prop) (ts : list mtree) : Prop := b' = true <-> b = true \/ anys P Q ts.
Definition flags_for (f : flags) (ts : list mtree) (f' : flags) : Prop :=
  marks (has_wp f) (has_wp f') (fun p => p = 15) (fun q => q = 6) ts /\
  marks (has_non_wp f) (has_non_wp f') (fun p => p <> 15) (fun q => q <> 6) ts /\
  marks (negb (gradient_only f)) (negb (gradient_only f')) (fun p => p <> 9) (fun q => q <> 5) ts /\
  (forall P, P = (fun p => num_props f' <= p) -> num_props f <= num_props f' /\ ~ anys P (fun _ => False) ts) /\
  (num_props f' = num_props f \/ anys (fun p => p + 1 = num_props f') (fun _ => False) ts).

Lemma filter_run : forall fuel queue ts out f, Forall2 (stored tree) queue ts -> Forall small ts -> (total_pops ts <= fuel)%nat -> zlen out + Z.of_nat (total_pops ts) < 2 ^ 31 ->
  exists l f', filter_loop fuel tree sp queue out f = Some (rev out ++ l, f') /\ flat (zlen out) ts l /\ zlen l = Z.of_nat (total_pops ts) /\ flags_for f ts f'.
Proof.
  assert (PP : forall t, (1 <= pops t)%nat) by (intros [?|?]; cbn [pops]; lia).
  assert (nil_case : forall fuel out f, exists l f', filter_loop fuel tree sp [] out f = Some (rev out ++ l, f') /\ flat (zlen out) [] l /\ zlen l = Z.of_nat (total_pops []) /\ flags_for f [] f').
  { intros fuel out f. exists [], f. destruct fuel; cbn [filter_loop]; rewrite rev_rev', app_nil_r; (split; [reflexivity|]); (split; [constructor|]); (split; [reflexivity|]); unfold flags_for, marks, anys; rewrite !Exists_nil; (split; [tauto|]); (split; [tauto|]); (split; [tauto|]); (split; [|auto]); intros P _; rewrite Exists_nil; (split; [lia|tauto]). }
  induction fuel as [|fuel IH]; intros queue ts out f Q S Hf Hsz; destruct Q as [|i T queue ts Q1 Q2]; try apply nil_case.
  { exfalso. cbn [total_pops] in Hf. pose proof (PP (resolve sp T)). lia. }
  pose proof (Forall_inv S) as (W & Sz). pose proof (Forall_inv_tail S) as S2. cbn [filter_loop total_pops] in *.
  assert (Lq : zlen queue = zlen ts) by (unfold zlen; now rewrite (Forall2_len _ _ _ Q2)).
  destruct (skip_run T (length tree) i Q1 W Sz) as (c & n & A1 & A2 & A3 & A4 & A5). rewrite A1. inversion A3 as [? n' E1 E2 Ei Es|? n' gt le E1 E2 Sg Sl Ei Es]; subst; rewrite A2 in E1; apply Some_eq in E1; subst n'.
  - rewrite E2. change (-1 =? -1) with true. cbv iota. rewrite <- Es in A4. cbn [writable] in A4. destruct A4 as (W1 & W2 & W3). rewrite (s32_id (noffset n)) by exact W2. rewrite (s32_id (nmul n)) by (unfold is_i32; lia).
    pose proof (strip_leaf T _ _ _ _ (eq_sym Es)) as R. rewrite R in Hf, Hsz. cbn [pops] in *.
    destruct (IH queue ts (FLeaf (lchild n) (npred n) (noffset n) (nmul n) :: out) (mark_leaf f (npred n)) Q2 S2 ltac:(lia) ltac:(rewrite zlen_cons; lia)) as (l & f' & B1 & B2 & B3 & B4).
    rewrite B1. eexists _, f'. split; [cbn [rev]; rewrite <- app_assoc; reflexivity|]. cbn [app]. rewrite zlen_cons in B2. split; [apply flat_leaf; [now rewrite <- Es|now rewrite Z.add_comm]|]. rewrite zlen_cons, R. cbn [pops]. split; [lia|].
    assert (X : forall P Q', anys P Q' (T :: ts) <-> Q' (npred n) \/ anys P Q' ts) by (intros P Q'; unfold anys; rewrite Exists_cons, R; cbn [any]; tauto).
    unfold flags_for, marks in *. destruct B4 as (C1 & C2 & C3 & C4 & C5). rewrite !X. cbn [mark_leaf has_wp has_non_wp gradient_only num_props] in *. unfold pWeighted, pGradient in *.
    split; [rewrite C1, orb_true_iff, Z.eqb_eq; tauto|]. split; [rewrite C2, orb_true_iff, negb_true_iff, Z.eqb_neq; tauto|]. split; [rewrite C3, negb_andb, orb_true_iff, !negb_true_iff, Z.eqb_neq; tauto|].
    split; [intros P HP; rewrite X; destruct (C4 P HP); split; [assumption|tauto]|]. destruct C5; [left; assumption|right; tauto].
  - rewrite <- Es in A4. cbn [writable] in A4. destruct A4 as (W1 & W2 & W3 & W4). replace (nprop n =? -1) with false by lia. cbv zeta.
    destruct (strip_split T _ _ _ _ (eq_sym Es)) as (L2 & R). assert (Sg' : small gt /\ small le). { rewrite <- Es in A5. cbn [nodes_of] in A5. pose proof (cost_nodes gt) as (? & _). pose proof (cost_nodes le) as (? & _). split; (split; [assumption|lia]). }
    destruct Sg' as ((_ & Sg1) & (_ & Sg2)).
    assert (HC : forall t j g, stored tree j t -> writable t -> nodes_of t <= zlen tree -> exists pp vv qi qt, flat_child (length tree) tree sp j g = Some (pp, vv, qi, if pp =? 0 then g else need_props g pp) /\
      halves t = (pp, vv, qt) /\ Forall2 (stored tree) qi qt /\ Forall small qt /\ zlen qi = 2 /\ (pp = 0 \/ 2 <= pp) /\
      total_pops qt = match resolve sp t with MLeaf _ _ _ _ => 2%nat | MSplit _ _ a b => (pops a + pops b)%nat end).
    { intros t j g St Wt Szt. destruct (skip_run t (length tree) j St Wt Szt) as (c' & n' & D1 & D2 & D3 & D4 & D5). unfold flat_child. rewrite D1. unfold halves.
      inversion D3 as [? m E1' E2' Ei' Es'|? m gt' le' E1' E2' Sg' Sl' Ei' Es']; subst; rewrite D2 in E1'; apply Some_eq in E1'; subst m.
      - rewrite E2'. change (-1 =? -1) with true. cbv iota. pose proof (strip_leaf t _ _ _ _ (eq_sym Es')) as R'. eexists 0, 0, _, _. split; [reflexivity|]. split; [reflexivity|]. rewrite Es'.
        assert (Sm : small (strip t)) by (split; [exact D4|lia]). split; [auto|]. split; [auto|]. split; [reflexivity|]. split; [auto|]. cbn [total_pops]. rewrite strip_resolve, R'. reflexivity.
      - replace (nprop n' =? -1) with false by lia. destruct (strip_split t _ _ _ _ (eq_sym Es')) as (L2' & R'). rewrite <- Es' in D4, D5. cbn [writable nodes_of] in D4, D5. destruct D4 as (_ & _ & V3 & V4). pose proof (cost_nodes gt') as (? & _). pose proof (cost_nodes le') as (? & _).
        eexists _, _, _, _. replace (nprop n' =? 0) with false by lia. split; [reflexivity|]. split; [reflexivity|]. split; [auto|]. split; [repeat constructor; try assumption; lia|]. split; [reflexivity|]. split; [auto|]. cbn [total_pops]. rewrite R'. lia. }
    destruct (HC gt (lchild n) (need_props f (nprop n)) Sg W3 Sg1) as (p0 & v0 & q0 & t0 & F0 & H0 & G0 & K0 & Z0 & O0 & N0). rewrite F0. set (f0 := if p0 =? 0 then _ else _) in *.
    destruct (HC le (rchild n) f0 Sl W4 Sg2) as (p1 & v1 & q1 & t1 & F1 & H1 & G1 & K1 & Z1 & O1 & N1). rewrite F1. set (f1 := if p1 =? 0 then _ else _) in *.
    rewrite R in Hf, Hsz. cbn [pops] in Hf, Hsz. rewrite <- N0, <- N1 in Hf, Hsz.
    assert (Q3 : Forall2 (stored tree) (queue ++ q0 ++ q1) (ts ++ t0 ++ t1)) by (repeat apply Forall2_app; assumption).
    assert (S3 : Forall small (ts ++ t0 ++ t1)) by (repeat (apply Forall_app; split); assumption).
    set (f2 := mark_property _ _). pose proof (zlen_nonneg out) as Ho0. pose proof (zlen_nonneg queue) as Hq0. pose proof (PP (resolve sp T)).
    assert (Lt : forall x, zlen x <= Z.of_nat (total_pops x)) by (induction x as [|y x IHx]; cbn [total_pops]; rewrite ?zlen_cons; [cbn; lia|]; pose proof (PP (resolve sp y)); lia). pose proof (Lt ts) as Lts.
    rewrite (w32_id (zlen out + zlen queue + 1)) by lia.
    destruct (IH (queue ++ q0 ++ q1) (ts ++ t0 ++ t1) (FNode (nprop n) (splitval n) p0 v0 p1 v1 (zlen out + zlen queue + 1) :: out) f2 Q3 S3 ltac:(rewrite !total_pops_app; lia) ltac:(rewrite zlen_cons, !total_pops_app; lia)) as (l & f' & B1 & B2 & B3 & B4).
    rewrite B1. eexists _, f'. split; [cbn [rev]; rewrite <- app_assoc; reflexivity|]. cbn [app]. rewrite zlen_cons in B2. rewrite zlen_cons, R. cbn [pops]. rewrite <- N0, <- N1. rewrite !total_pops_app in B3. split; [|split; [lia|]].
    { replace (zlen out + zlen queue + 1) with (zlen out + 1 + zlen ts) by lia. apply (flat_node _ _ _ _ gt le p0 v0 t0 p1 v1 t1); [now rewrite <- Es|exact H0|exact H1|]. now rewrite Z.add_comm. }
    assert (X : forall P Q', anys P Q' (T :: ts) <-> P (nprop n) \/ (2 <= p0 /\ P p0) \/ (2 <= p1 /\ P p1) \/ anys P Q' (ts ++ t0 ++ t1)) by (intros P Q'; apply (anys_node P Q' T _ _ gt le p0 v0 t0 p1 v1 t1 ts (eq_sym Es) H0 H1)).
    assert (Ff : has_wp f1 = has_wp f /\ has_non_wp f1 = has_non_wp f /\ gradient_only f1 = gradient_only f /\ num_props f1 = Z.max (if p1 =? 0 then 0 else p1 + 1) (Z.max (if p0 =? 0 then 0 else p0 + 1) (Z.max (nprop n + 1) (num_props f)))).
    { unfold f1, f0. destruct (Z.eqb_spec p0 0), (Z.eqb_spec p1 0); cbn [need_props has_wp has_non_wp gradient_only num_props]; repeat split; lia. }
    destruct Ff as (Y1 & Y2 & Y3 & Y4). unfold flags_for, marks in *. destruct B4 as (C1 & C2 & C3 & C4 & C5). rewrite !X. unfold f2 in *. cbn [mark_property has_wp has_non_wp gradient_only num_props] in *. rewrite Y1 in C1. rewrite Y2 in C2. rewrite Y3 in C3. rewrite Y4 in C4, C5. clear Y1 Y2 Y3 Y4.
    assert (WP : forall p, p =? kWPProp = true <-> p = 15) by (intros p; apply Z.eqb_eq). assert (GP : forall p, (p =? kGradientProp) = true <-> p = 9) by (intros p; apply Z.eqb_eq). unfold kNumStaticProperties in *.
    assert (U0 : p0 = 15 -> 2 <= p0) by lia. assert (U1 : p1 = 15 -> 2 <= p1) by lia. 
    split. { rewrite C1, !orb_true_iff, !WP. tauto. }
    split. { rewrite C2, !orb_true_iff, !andb_true_iff, !negb_true_iff, <- !not_true_iff_false, !WP, !Z.leb_le. tauto. }
    split. { assert (NB : forall g a b c, negb (g && negb a && negb b && negb c) = negb g || a || b || c) by (intros [] [] [] []; reflexivity). rewrite C3, NB, !orb_true_iff, !andb_true_iff, !negb_true_iff, <- !not_true_iff_false, !GP, !Z.leb_le. tauto. }
    split.
    + intros P HP. rewrite X. destruct (C4 P HP) as (D1 & D2). split; [lia|]. subst P. intros [D|[(_ & D)|[(_ & D)|D]]]; [lia| | |tauto].
      * destruct (Z.eqb_spec p0 0); destruct O0; lia.
      * destruct (Z.eqb_spec p1 0); destruct O1; lia.
    + destruct C5 as [C5|C5]; [|tauto]. rewrite C5. generalize (anys (fun p => p + 1 = Z.max (if p1 =? 0 then 0 else p1 + 1) (Z.max (if p0 =? 0 then 0 else p0 + 1) (Z.max (nprop n + 1) (num_props f)))) (fun _ => False) (ts ++ t0 ++ t1)) as A. clear -O0 O1 L2. generalize (num_props f) as x. revert L2. generalize (nprop n) as y. intros y L2 x A. destruct (Z.eqb_spec p0 0), (Z.eqb_spec p1 0); lia.
Qed.
End Flat.
