(* Decision trees: what FilterTree says about the tree, and lookup tables. *)
From Verif Require Import Base HuffRle FieldsModel FieldsProofs ListAux LzProofs AliasProofs PermProofs CodesSafe TocLayout COrderProofs COrderNat MaModel MaSpec MaProofs MaValid MaTok MaFlat.
Ltac Zify.zify_post_hook ::= idtac.

Lemma stored_writable t T : well_formed t -> forall i, stored t i T -> writable T.
Proof.
  intros (W1 & W2 & _). induction T as [c p o m|p v gt IHg le IHl]; intros i St; inversion St as [? n E1 E2|? n ? ? E1 E2 Sg Sl]; subst; cbn [writable].
  - destruct (W2 _ _ E1 ltac:(unfold is_leaf; lia)) as (_ & A). exact A.
  - destruct (W1 _ _ E1 ltac:(unfold is_leaf; lia)) as (A & B & _). repeat split; try apply A; try apply B; eauto.
Qed.
Lemma writable_props T : writable T -> props_below 256 T.
Proof. induction T as [c p o m|p v gt IHg le IHl]; cbn; intuition. Qed.
Lemma some_leaf T : exists q, has_leaf T q.
Proof. induction T as [c p o m|p v gt (q & IHg) le _]; cbn [has_leaf]; eauto. Qed.
Lemma any_spec P Q T : any P Q T <-> (exists p v, has_split T p v /\ P p) \/ (exists q, has_leaf T q /\ Q q).
Proof.
  induction T as [c q o m|p v gt IHg le IHl]; cbn [any has_split has_leaf].
  - split; [intros H; right; exists q; auto|]. intros [(? & ? & [] & _)|(? & -> & H)]. exact H.
  - rewrite IHg, IHl. split.
    + intros [H|[[(p' & v' & H & K)|(q & H & K)]|[(p' & v' & H & K)|(q & H & K)]]]; [left; exists p, v; auto|left; exists p', v'; auto|right; exists q; auto|left; exists p', v'; auto|right; exists q; auto].
    + intros [(p' & v' & [(-> & ->)|[H|H]] & K)|(q & [H|H] & K)]; eauto 8.
Qed.
Lemma resolve_split sp T p v : props_below 256 T -> has_split (resolve sp T) p v -> 2 <= p < 256.
Proof.
  induction T as [c q o m|p0 v0 gt IHg le IHl]; cbn [resolve has_split props_below]; [contradiction|]. intros (H1 & H2 & H3). destruct (Z.ltb_spec p0 2); [destruct (v0 <? sp p0); auto|]. cbn [has_split]. intros [(-> & _)|[A|A]]; auto. lia.
Qed.

Theorem filter_spec t T sp : well_formed t -> stored t 0 T -> nodes_of T = zlen t -> zlen t <= 2 ^ 23 -> let R := resolve sp T in
  exists fl np use_wp wp_only grad, filter_tree t sp = Some (fl, np, use_wp, wp_only, grad) /\ flat sp 0 [T] fl /\ 1 <= zlen fl < 2 * zlen t /\ zlen fl = Z.of_nat (pops R) /\
    (forall p v, has_split R p v -> 2 <= p < np) /\ 16 <= np < 260 /\ np mod 4 = 0 /\ (np = 16 \/ exists p v, has_split R p v /\ np - 4 <= p) /\
    (forall pv, agrees sp pv -> lookup (length fl) fl np pv 0 = Some (decide T pv)) /\
    (use_wp = true <-> (exists v, has_split R 15 v) \/ has_leaf R 6) /\
    (wp_only = true <-> (forall p v, has_split R p v -> p = 15) /\ (forall q, has_leaf R q -> q = 6)) /\
    (grad = true <-> (forall p v, has_split R p v -> p = 9) /\ (forall q, has_leaf R q -> q = 5)).
Proof.
  intros Wf St Hn Hz R. pose proof (stored_writable t T Wf 0 St) as W. pose proof (writable_props T W) as Pb.
  pose proof (resolve_nodes sp T) as Rn. pose proof (pops_bound sp (Z.to_nat (nodes_of R)) R) as Pp. fold R in Rn. pose proof (cost_nodes R) as (Rp & _). specialize (Pp ltac:(lia)). assert (Pq : (1 <= pops R)%nat) by (clearbody R; destruct R; cbn [pops]; lia).
  destruct (filter_run sp t (2 * length t) [0] [T] [] (Flags 0 false false true) ltac:(auto) ltac:(constructor; [split; [exact W|lia]|constructor]) ltac:(cbn [total_pops]; fold R; unfold zlen in *; lia) ltac:(cbn [total_pops]; fold R; change (zlen (@nil fnode)) with 0; lia)) as (fl & f' & F1 & F2 & F3 & F4).
  cbn [total_pops rev app] in *. fold R in F3. change (zlen (@nil fnode)) with 0 in F2. unfold filter_tree. rewrite F1.
  set (np := if kNumNonrefProperties <? num_props f' then _ else _).
  assert (X : forall P Q, anys sp P Q [T] <-> any P Q R) by (intros P Q; unfold anys; rewrite Exists_cons, Exists_nil; fold R; tauto).
  destruct F4 as (C1 & C2 & C3 & C4 & C5). unfold marks in *. rewrite X in C1, C2, C3, C5. cbn [has_wp has_non_wp gradient_only num_props] in *. destruct (C4 _ eq_refl) as (C6 & C7). rewrite X in C7.
  assert (Sp : forall p v, has_split R p v -> 2 <= p < 256) by (intros p v H; apply (resolve_split sp T p v Pb H)).
  assert (Sn : forall p v, has_split R p v -> p < num_props f'). { intros p v H. destruct (Z.lt_ge_cases p (num_props f')); [assumption|]. exfalso. apply C7, any_spec. left. exists p, v. auto. }
  assert (Nn : num_props f' = 0 \/ exists p v, has_split R p v /\ num_props f' = p + 1). { destruct C5 as [C5|C5]; [auto|]. right. apply any_spec in C5. destruct C5 as [(p & v & H & K)|(q & _ & [])]. exists p, v. auto. }
  assert (Np : 16 <= np /\ num_props f' <= np < num_props f' + 4 \/ np = 16 /\ num_props f' <= 16). { unfold np, kNumNonrefProperties, kExtraPropsPerChannel, div_ceil. destruct (Z.ltb_spec 16 (num_props f')); [left|right; lia]. pose proof (Z.div_mod (num_props f' - 16 + 4 - 1) 4 ltac:(lia)). pose proof (Z.mod_pos_bound (num_props f' - 16 + 4 - 1) 4 ltac:(lia)). lia. }
  assert (N4 : np mod 4 = 0). { unfold np, kNumNonrefProperties, kExtraPropsPerChannel, div_ceil. destruct (16 <? num_props f'); [|reflexivity]. replace ((num_props f' - 16 + 4 - 1) / 4 * 4 + 16) with (((num_props f' - 16 + 4 - 1) / 4 + 4) * 4) by lia. apply Z.mod_mul. lia. }
  assert (N5 : np < 260). { destruct Nn as [Nn|(p & v & H & K)]; [lia|]. specialize (Sp p v H). lia. }
  clearbody np. exists fl, np, (has_wp f'), (has_wp f' && negb (has_non_wp f')), (gradient_only f'). split; [reflexivity|]. split; [exact F2|]. split; [lia|]. split; [lia|].
  split. { intros p v H. pose proof (Sp p v H). pose proof (Sn p v H). lia. } split; [lia|]. split; [exact N4|]. split.
  { destruct Np as [Np|Np]; [|left; lia]. destruct Nn as [Nn|(p & v & H & K)]; [left; lia|]. right. exists p, v. split; [exact H|lia]. } split.
  { intros pv Ha. rewrite <- (resolve_decide sp T pv Ha Pb). apply (flat_lookup sp np pv fl 0 [T] F2 [] eq_refl ltac:(lia)) with (j := 0); [|reflexivity].
    apply (flat_indices sp np ltac:(lia) 0 [T] fl F2). rewrite X. intros A. apply any_spec in A. destruct A as [(p & v & H & K)|(q & _ & [])]. pose proof (Sp p v H). pose proof (Sn p v H). lia. } split.
  { rewrite C1, any_spec. split; [intros [A|[(p & v & H & ->)|(q & H & ->)]]; [discriminate|eauto|auto]|]. intros [(v & H)|H]; right; [left; exists 15, v; auto|right; exists 6; auto]. } split.
  - rewrite andb_true_iff, negb_true_iff, <- not_true_iff_false, C1, C2, !any_spec. split.
    + intros (_ & A). split; [intros p v H|intros q H].
      * destruct (Z.eq_dec p 15); [assumption|]. exfalso. apply A. right. left. exists p, v. auto.
      * destruct (Z.eq_dec q 6); [assumption|]. exfalso. apply A. right. right. exists q. auto.
    + intros (A & B). split; [right; right; destruct (some_leaf R) as (q & H); exists q; auto|]. intros [D|[(p & v & H & K)|(q & H & K)]]; [discriminate|apply K; eauto|apply K; eauto].
  - assert (G : gradient_only f' = true <-> ~ (negb (gradient_only f') = true)) by (destruct (gradient_only f'); cbn; intuition congruence). rewrite G, C3, any_spec. cbn [negb]. split.
    + intros A. split; [intros p v H|intros q H].
      * destruct (Z.eq_dec p 9); [assumption|]. exfalso. apply A. right. left. exists p, v. auto.
      * destruct (Z.eq_dec q 5); [assumption|]. exfalso. apply A. right. right. exists q. auto.
    + intros (A & B) [D|[(p & v & H & K)|(q & H & K)]]; [discriminate|apply K; eauto|apply K; eauto].
Qed.

(* ---- clustering ---- *)
Definition in_map (cm : list Z) (c : Z) : Z := match znth cm c with Some x => x | None => 0 end.
Fixpoint contexts_in (n : Z) (t : mtree) : Prop := match t with MLeaf c _ _ _ => 0 <= c < n | MSplit _ _ gt le => contexts_in n gt /\ contexts_in n le end.
Lemma map_strip f sp t : strip sp (map_contexts f t) = map_contexts f (strip sp t).
Proof. induction t as [c p o m|p v gt IHg le IHl]; cbn [strip map_contexts]; [reflexivity|]. destruct (p <? 2); [|reflexivity]. destruct (v <? sp p); assumption. Qed.
Lemma map_resolve f sp t : resolve sp (map_contexts f t) = map_contexts f (resolve sp t).
Proof. induction t as [c p o m|p v gt IHg le IHl]; cbn [resolve map_contexts]; [reflexivity|]. destruct (p <? 2); [destruct (v <? sp p); assumption|]. cbn [map_contexts]. congruence. Qed.
Lemma map_halves f sp t p v q : halves sp t = (p, v, q) -> halves sp (map_contexts f t) = (p, v, map (map_contexts f) q).
Proof. unfold halves. rewrite map_strip. destruct (strip sp t); cbn [map_contexts]; intros E; injection E as <- <- <-; reflexivity. Qed.
Lemma strip_contexts n sp t : contexts_in n t -> contexts_in n (strip sp t).
Proof. induction t as [c p o m|p v gt IHg le IHl]; cbn [strip contexts_in]; [auto|]. intros (A & B). destruct (p <? 2); [destruct (v <? sp p); auto|]. cbn. auto. Qed.
Lemma cluster_flat cm sp k ts l : flat sp k ts l -> Forall (contexts_in (zlen cm)) ts -> exists l', cluster_leaves cm l = Some l' /\ zlen l' = zlen l /\ flat sp k (map (map_contexts (in_map cm)) ts) l'.
Proof.
  induction 1 as [k|k T c p o m ts l E H IH|k T p v gt le p0 v0 q0 p1 v1 q1 ts l E E0 E1 H IH]; intros F.
  - exists []. split; [reflexivity|]. split; [reflexivity|constructor].
  - pose proof (Forall_inv F) as F1. pose proof (Forall_inv_tail F) as F2. apply (strip_contexts _ sp) in F1. rewrite E in F1. cbn [contexts_in] in F1. destruct (IH F2) as (l' & A & B & C). cbn [cluster_leaves].
    pose proof (znth_some cm c 0 F1) as Ec. rewrite Ec, A. eexists. split; [reflexivity|]. rewrite !zlen_cons. split; [lia|]. cbn [map]. apply flat_leaf; [|exact C]. rewrite map_strip, E. cbn [map_contexts]. unfold in_map. now rewrite Ec.
  - pose proof (Forall_inv F) as F1. pose proof (Forall_inv_tail F) as F2. apply (strip_contexts _ sp) in F1. rewrite E in F1. cbn [contexts_in] in F1. destruct F1 as (Fg & Fl).
    assert (HC : forall t pp vv q, halves sp t = (pp, vv, q) -> contexts_in (zlen cm) t -> Forall (contexts_in (zlen cm)) q). { intros t pp vv q Hq Hc. apply (strip_contexts _ sp) in Hc. unfold halves in Hq. destruct (strip sp t); injection Hq as _ _ <-; [auto|]. destruct Hc. auto. }
    destruct (IH ltac:(repeat (apply Forall_app; split); eauto)) as (l' & A & B & C). cbn [cluster_leaves]. rewrite A. eexists. split; [reflexivity|]. rewrite !zlen_cons. split; [lia|]. cbn [map].
    replace (zlen ts) with (zlen (map (map_contexts (in_map cm)) ts)) by (unfold zlen; now rewrite map_length). rewrite !map_app in C. eapply flat_node; [rewrite map_strip, E; reflexivity|apply map_halves; exact E0|apply map_halves; exact E1|exact C].
Qed.

(* ---- lookup tables ---- *)
Section Lut.
Variables (sp : Z -> Z) (wrap : Z -> Z) (q : Z) (nodes : list fnode).
Inductive at_flat : Z -> mtree -> Prop :=
| af_leaf pos T c p o m : znth nodes pos = Some (FLeaf c p o m) -> strip sp T = MLeaf c p o m -> at_flat pos T
| af_node pos T p v gt le p0 v0 a b p1 v1 c d ch : znth nodes pos = Some (FNode p v p0 v0 p1 v1 ch) -> strip sp T = MSplit p v gt le ->
    halves sp gt = (p0, v0, [a; b]) -> halves sp le = (p1, v1, [c; d]) -> 0 <= ch < 2 ^ 31 ->
    at_flat ch a -> at_flat (ch + 1) b -> at_flat (ch + 2) c -> at_flat (ch + 3) d -> at_flat pos T.

Fixpoint vis (t : mtree) : nat :=
  match t with
  | MLeaf _ _ _ _ => 1
  | MSplit _ _ gt le =>
      1 + match gt with MLeaf _ _ _ _ => 1 | MSplit _ _ a b => vis a + vis b end
        + match le with MLeaf _ _ _ _ => 1 | MSplit _ _ a b => vis a + vis b end
  end.
Lemma vis_bound n : forall t, nodes_of t <= Z.of_nat n -> (vis t <= pops t)%nat.
Proof. clear sp wrap q nodes.
  assert (P : forall t, 1 <= nodes_of t) by (intros x; apply cost_nodes).
  induction n as [|n IH]; intros t H; [pose proof (P t); lia|]. destruct t as [c p o m|p v gt le]; cbn [pops vis nodes_of] in *; [lia|]. pose proof (P gt). pose proof (P le).
  assert (Q : forall x, nodes_of x <= Z.of_nat n -> (match x with MLeaf _ _ _ _ => 1 | MSplit _ _ a b => vis a + vis b end <= match x with MLeaf _ _ _ _ => 2 | MSplit _ _ a b => pops a + pops b end)%nat).
  { intros [? ? ? ?|p1 v1 a b] Hx; cbn [nodes_of] in *; [lia|]. pose proof (P a). pose proof (P b). pose proof (IH a ltac:(lia)). pose proof (IH b ltac:(lia)). lia. }
  pose proof (Q gt ltac:(lia)). pose proof (Q le ltac:(lia)). lia.
Qed.
Fixpoint boxed (l u : Z) (t : mtree) : Prop :=
  match t with MLeaf _ _ _ _ => True | MSplit p v gt le => p = q /\ l <= v < u /\ boxed (v + 1) u gt /\ boxed l v le end.
Fixpoint plain (t : mtree) : Prop := match t with MLeaf _ _ o m => o = 0 /\ m = 1 | MSplit _ _ gt le => plain gt /\ plain le end.
Definition context_at (t : mtree) (x : Z) : Z := let '(c, _, _, _) := decide t (fun _ => x) in c.
Definition good (lut : Z -> Z) (b e : Z) (t : mtree) : Prop := forall i, b < i <= e -> lut (i + 8192) = wrap (context_at t i).
Definition fits (t : mtree) : Prop := forall p v, has_split t p v -> -8193 <= v < 8191.

Lemma fill_ok (c : Z) : forall n b (lut : Z -> Z), -8193 <= b -> b + Z.of_nat n <= 8191 ->
  exists lut', fold_left (fun l i => do l <- l; set (2 * kPropRangeFast) l (i + kPropRangeFast) c) (zseq (b + 1) n) (Some lut) = Some lut' /\
    (forall i, b < i <= b + Z.of_nat n -> lut' (i + 8192) = c) /\ (forall j, ~ (b < j - 8192 <= b + Z.of_nat n) -> lut' j = lut j).
Proof.
  induction n as [|n IH]; intros b lut Hb He.
  - exists lut. split; [reflexivity|]. split; [intros i Hi; lia|auto].
  - cbn [zseq fold_left]. rewrite (set_ok (2 * kPropRangeFast) lut (b + 1 + kPropRangeFast)) by (unfold kPropRangeFast; lia). destruct (IH (b + 1) (fun j => if j =? b + 1 + 8192 then c else lut j) ltac:(lia) ltac:(lia)) as (lut' & A & B & C). exists lut'. split; [exact A|]. split.
    + intros i Hi. destruct (Z.eq_dec i (b + 1)) as [->|]; [|apply B; lia]. rewrite C by lia. now rewrite Z.eqb_refl.
    + intros j Hj. rewrite C by lia. now replace (j =? b + 1 + 8192) with false by lia.
Qed.
Lemma fill_range_ok lut b e c : -8193 <= b -> e <= 8191 ->
  exists lut', fill_range lut b e c = Some lut' /\ (forall i, b < i <= e -> lut' (i + 8192) = c) /\ (forall j, ~ (b < j - 8192 <= e) -> lut' j = lut j).
Proof.
  intros Hb He. unfold fill_range. destruct (Z.le_gt_cases b e) as [L|L].
  - destruct (fill_ok c (Z.to_nat (e - b)) b lut Hb ltac:(lia)) as (lut' & A & B & C). exists lut'. rewrite Z2Nat.id in B, C by lia. replace (b + (e - b)) with e in * by lia. auto.
  - replace (Z.to_nat (e - b)) with O by lia. exists lut. split; [reflexivity|]. split; [intros i Hi; lia|auto].
Qed.

Definition lut_result (T : mtree) (b e pos : Z) : Prop := forall F rest lut,
  lut_loop (vis (resolve sp T) + F) wrap nodes ((b, e, pos) :: rest) lut = Some None \/
  exists lut', lut_loop (vis (resolve sp T) + F) wrap nodes ((b, e, pos) :: rest) lut = lut_loop F wrap nodes rest lut' /\
    good lut' b e (resolve sp T) /\ (forall j, ~ (b < j - 8192 <= e) -> lut' j = lut j) /\ plain (resolve sp T) /\ fits (resolve sp T) /\ -8193 <= b < 8191 /\ e <= 8191.

Lemma leaf_visits c p o m : vis (MLeaf c p o m) = 1%nat.
Proof. reflexivity. Qed.
Lemma halves_cases t p v a b : halves sp t = (p, v, [a; b]) ->
  (p = 0 /\ v = 0 /\ resolve sp a = resolve sp t /\ exists c x o m, resolve sp t = MLeaf c x o m) \/ (2 <= p /\ resolve sp t = MSplit p v (resolve sp a) (resolve sp b)).
Proof.
  unfold halves. destruct (strip sp t) as [c p0 o m|p0 v0 gt le] eqn:E; intros H; injection H as <- <- <- <-.
  - left. rewrite (strip_leaf _ _ _ _ _ _ E). cbn [resolve]. eauto 8.
  - right. exact (strip_split _ _ _ _ _ _ E).
Qed.

Lemma lut_run pos T : at_flat pos T -> forall l u b e, boxed l u (resolve sp T) -> (-8193 <= b -> b = Z.max (l - 1) (-8193)) -> (e <= 8191 -> e = Z.min u 8191) -> lut_result T b e pos.
Proof.
  induction 1 as [pos T c p o m E1 E2|pos T p v gt le p0 v0 a b0 p1 v1 c d ch E1 E2 H0 H1 Hch Aa IHa Ab IHb Ac IHc Ad IHd]; intros l u b e Bx Hb He F rest lut.
  - rewrite (strip_leaf _ _ _ _ _ _ E2). rewrite leaf_visits. cbn [Nat.add lut_loop]. unfold kPropRangeFast. 
    destruct (Z.ltb_spec b (- (8192) - 1)) as [?|L1]; [left; reflexivity|]. destruct (Z.leb_spec (8192 - 1) b) as [?|L2]; [left; reflexivity|]. destruct (Z.ltb_spec (8192 - 1) e) as [?|L3]; [left; reflexivity|]. cbn [orb].
    rewrite E1. destruct ((o <? -128) || (127 <? o)); [left; reflexivity|]. destruct ((m <? -128) || (127 <? m)); [left; reflexivity|]. destruct (Z.eqb_spec m 1) as [Em|]; [|left; reflexivity]. destruct (Z.eqb_spec o 0) as [Eo|]; [|left; reflexivity]. cbn [negb].
    destruct (fill_range_ok lut b e (wrap c) ltac:(lia) ltac:(lia)) as (lut' & A & B & C). rewrite A. right. exists lut'. split; [reflexivity|]. split; [exact B|]. split; [exact C|]. split; [cbn; auto|]. split; [intros ? ? []|lia].
  - destruct (strip_split _ _ _ _ _ _ E2) as (Lp & R). rewrite R in *. cbn [boxed] in Bx. destruct Bx as (Eq & Bv & Bg & Bl).
    set (fu := (match resolve sp gt with MLeaf _ _ _ _ => 1 | MSplit _ _ x y => vis x + vis y end)%nat). set (fl := (match resolve sp le with MLeaf _ _ _ _ => 1 | MSplit _ _ x y => vis x + vis y end)%nat).
    replace (vis (MSplit p v (resolve sp gt) (resolve sp le)) + F)%nat with (S (fl + (fu + F)))%nat by (cbn [vis]; fold fu fl; lia).
    cbn [lut_loop]. unfold kPropRangeFast.
    destruct (Z.ltb_spec b (- (8192) - 1)) as [?|L1]; [left; reflexivity|]. destruct (Z.leb_spec (8192 - 1) b) as [?|L2]; [left; reflexivity|]. destruct (Z.ltb_spec (8192 - 1) e) as [?|L3]; [left; reflexivity|]. cbn [orb].
    rewrite E1. rewrite (w32_id (ch + 1)), (w32_id (ch + 2)), (w32_id (ch + 3)) by lia. specialize (Hb ltac:(lia)). specialize (He ltac:(lia)). unfold kNumStaticProperties.
    (* the two sides *)
    assert (SG : forall F rest lut, let r := (if 2 <=? p0 then (v, v0, ch + 1) :: (v0, e, ch) :: rest else (v, e, ch) :: rest) in lut_loop (fu + F) wrap nodes r lut = Some None \/
      exists lut', lut_loop (fu + F) wrap nodes r lut = lut_loop F wrap nodes rest lut' /\ good lut' v e (resolve sp gt) /\ (forall j, ~ (v < j - 8192 <= e) -> lut' j = lut j) /\ plain (resolve sp gt) /\ fits (resolve sp gt) /\ -8193 <= v < 8191).
    { clear F rest lut. intros F rest lut. cbv zeta. destruct (halves_cases _ _ _ _ _ H0) as [(-> & -> & Ra & cc & x & oo & mm & Rg)|(Lp0 & Rg)].
      - change (2 <=? 0) with false. cbv iota. specialize (IHa (v + 1) u v e ltac:(rewrite Ra; exact Bg) ltac:(lia) ltac:(lia) F rest lut). unfold fu. rewrite Ra, Rg in *. rewrite leaf_visits in IHa. destruct IHa as [IHa|(lut' & I1 & I2 & I3 & I4 & I5 & I6 & I7)]; [left; exact IHa|]. right. exists lut'. auto 8.
      - replace (2 <=? p0) with true by lia. rewrite Rg in Bg. cbn [boxed] in Bg. destruct Bg as (_ & Bv0 & Bga & Bgb). unfold fu. rewrite Rg.
        replace (vis (resolve sp a) + vis (resolve sp b0) + F)%nat with (vis (resolve sp b0) + (vis (resolve sp a) + F))%nat by lia.
        destruct (IHb (v + 1) v0 v v0 Bgb ltac:(lia) ltac:(lia) (vis (resolve sp a) + F)%nat ((v0, e, ch) :: rest) lut) as [I|(lut1 & I1 & I2 & I3 & I4 & I5 & I6 & I7)]; [left; exact I|]. rewrite I1.
        destruct (IHa (v0 + 1) u v0 e Bga ltac:(lia) ltac:(lia) F rest lut1) as [J|(lut2 & J1 & J2 & J3 & J4 & J5 & J6 & J7)]; [left; exact J|]. right. exists lut2. split; [exact J1|]. split; [|split; [|split; [split; assumption|split; [|lia]]]].
        + intros i Hi. unfold context_at. cbn [decide]. destruct (Z.ltb_spec v0 i); [apply J2; lia|]. rewrite J3 by lia. apply I2. lia.
        + intros j Hj. rewrite J3 by lia. apply I3. lia.
        + intros pp vv [(-> & ->)|[Hs|Hs]]; [lia|eapply J5; exact Hs|eapply I5; exact Hs]. }
    assert (SL : forall F rest lut, let r := (if 2 <=? p1 then (b, v1, ch + 3) :: (v1, v, ch + 2) :: rest else (b, v, ch + 2) :: rest) in lut_loop (fl + F) wrap nodes r lut = Some None \/
      exists lut', lut_loop (fl + F) wrap nodes r lut = lut_loop F wrap nodes rest lut' /\ good lut' b v (resolve sp le) /\ (forall j, ~ (b < j - 8192 <= v) -> lut' j = lut j) /\ plain (resolve sp le) /\ fits (resolve sp le) /\ v <= 8191).
    { clear F rest lut. intros F rest lut. cbv zeta. destruct (halves_cases _ _ _ _ _ H1) as [(-> & -> & Ra & cc & x & oo & mm & Rg)|(Lp0 & Rg)].
      - change (2 <=? 0) with false. cbv iota. specialize (IHc l v b v ltac:(rewrite Ra; exact Bl) ltac:(lia) ltac:(lia) F rest lut). unfold fl. rewrite Ra, Rg in *. rewrite leaf_visits in IHc. destruct IHc as [IHc|(lut' & I1 & I2 & I3 & I4 & I5 & I6 & I7)]; [left; exact IHc|]. right. exists lut'. auto 8.
      - replace (2 <=? p1) with true by lia. rewrite Rg in Bl. cbn [boxed] in Bl. destruct Bl as (_ & Bv0 & Bga & Bgb). unfold fl. rewrite Rg.
        replace (vis (resolve sp c) + vis (resolve sp d) + F)%nat with (vis (resolve sp d) + (vis (resolve sp c) + F))%nat by lia.
        destruct (IHd l v1 b v1 Bgb ltac:(lia) ltac:(lia) (vis (resolve sp c) + F)%nat ((v1, v, ch + 2) :: rest) lut) as [I|(lut1 & I1 & I2 & I3 & I4 & I5 & I6 & I7)]; [left; exact I|]. rewrite I1.
        destruct (IHc (v1 + 1) v v1 v Bga ltac:(lia) ltac:(lia) F rest lut1) as [J|(lut2 & J1 & J2 & J3 & J4 & J5 & J6 & J7)]; [left; exact J|]. right. exists lut2. split; [exact J1|]. split; [|split; [|split; [split; assumption|split; [|lia]]]].
        + intros i Hi. unfold context_at. cbn [decide]. destruct (Z.ltb_spec v1 i); [apply J2; lia|]. rewrite J3 by lia. apply I2. lia.
        + intros j Hj. rewrite J3 by lia. apply I3. lia.
        + intros pp vv [(-> & ->)|[Hs|Hs]]; [lia|eapply J5; exact Hs|eapply I5; exact Hs]. }
    cbv zeta. match goal with |- lut_loop _ _ _ (if 2 <=? p1 then _ :: _ :: ?r else _) _ = _ \/ _ => destruct (SL (fu + F)%nat r lut) as [I|(lut1 & I1 & I2 & I3 & I4 & I5 & I6)] end; [left; exact I|].
    rewrite I1. destruct (SG F rest lut1) as [J|(lut2 & J1 & J2 & J3 & J4 & J5 & J6)]; [left; exact J|]. right. exists lut2. split; [exact J1|]. split; [|split; [|split; [split; assumption|split; [|lia]]]].
    + intros i Hi. unfold context_at. cbn [decide]. destruct (Z.ltb_spec v i); [apply J2; lia|]. rewrite J3 by lia. apply I2. lia.
    + intros j Hj. rewrite J3 by lia. apply I3. lia.
    + intros pp vv [(-> & ->)|[Hs|Hs]]; [lia|eapply J5; exact Hs|eapply I5; exact Hs].
Qed.
End Lut.

Lemma flat_at sp l : forall k ts, flat sp k ts l -> forall pre, zlen pre = k -> k + zlen l < 2 ^ 31 -> forall j T, znth ts j = Some T -> at_flat sp (pre ++ l) (k + j) T.
Proof.
  induction l as [|x l IH]; intros k ts F pre Hp Hk j T Hj.
  - inversion F; subst. destruct (znth_bound _ _ _ Hj) as (? & Hb). change (zlen (@nil mtree)) with 0 in Hb. lia.
  - rewrite zlen_cons in Hk. pose proof (zlen_nonneg l) as Nl. inversion F as [|? T0 c p o m ts' l' E F'|? T0 p v gt le p0 v0 q0 p1 v1 q1 ts' l' E E0 E1 F']; subst.
    + assert (Q : pre ++ FLeaf c p o m :: l = (pre ++ [FLeaf c p o m]) ++ l) by (rewrite <- app_assoc; reflexivity).
      destruct (Z.eq_dec j 0) as [->|Nj].
      * apply Some_eq in Hj. subst T0. eapply af_leaf; [|exact E]. rewrite Z.add_0_r. apply znth_mid.
      * rewrite znth_cons in Hj by (destruct (znth_bound _ _ _ Hj); lia). destruct (Z.eqb_spec j 0) as [|_]; [lia|]. rewrite Q. replace (zlen pre + j) with (zlen pre + 1 + (j - 1)) by lia. eapply IH; [exact F'|rewrite zlen_app; reflexivity|lia|exact Hj].
    + match goal with |- at_flat _ (pre ++ ?n :: l) _ _ => assert (Q : pre ++ n :: l = (pre ++ [n]) ++ l) by (rewrite <- app_assoc; reflexivity) end.
      pose proof (IH _ _ F' (pre ++ [FNode p v p0 v0 p1 v1 (zlen pre + 1 + zlen ts')]) ltac:(rewrite zlen_app; reflexivity) ltac:(lia)) as IH'. rewrite <- Q in IH'. clear Q.
      destruct (Z.eq_dec j 0) as [->|Nj].
      * apply Some_eq in Hj. subst T0. rewrite Z.add_0_r. destruct (halves_two _ _ _ _ _ E0) as (a & b & ->). destruct (halves_two _ _ _ _ _ E1) as (c & d & ->).
        assert (G : forall i X, znth [a; b; c; d] i = Some X -> at_flat sp (pre ++ FNode p v p0 v0 p1 v1 (zlen pre + 1 + zlen ts') :: l) (zlen pre + 1 + zlen ts' + i) X).
        { intros i X Hi. rewrite <- (Z.add_assoc (zlen pre + 1)). apply IH'. rewrite znth_app_r by (destruct (znth_bound _ _ _ Hi); lia). replace (zlen ts' + i - zlen ts') with i by lia. exact Hi. }
        pose proof (G 0 a eq_refl) as G0. rewrite Z.add_0_r in G0. pose proof (flat_count _ _ _ _ F') as Fc. rewrite zlen_app in Fc. pose proof (zlen_nonneg ts'). pose proof (zlen_nonneg pre).
        eapply af_node; [apply znth_mid|exact E|exact E0|exact E1| |exact G0|apply G; reflexivity..]. cbn [app] in Fc. rewrite !zlen_cons in Fc. change (zlen (@nil mtree)) with 0 in Fc. lia.
      * rewrite znth_cons in Hj by (destruct (znth_bound _ _ _ Hj); lia). destruct (Z.eqb_spec j 0) as [|_]; [lia|]. replace (zlen pre + j) with (zlen pre + 1 + (j - 1)) by lia. apply IH'. rewrite znth_app_l by (destruct (znth_bound _ _ _ Hj); lia). exact Hj.
Qed.
Lemma boxed_resolve sp q T : 2 <= q -> forall d r, vcheck d T r = true -> (forall p v, has_split (resolve sp T) p v -> p = q) -> boxed q (fst (r q)) (snd (r q)) (resolve sp T).
Proof.
  intros Hq. induction T as [c p o m|p v gt IHg le IHl]; intros d r V S; cbn [resolve] in *; [exact I|]. cbn [vcheck] in V. destruct (r p) as (l, u) eqn:Er.
  apply andb_true_iff in V. destruct V as (_ & V). apply andb_true_iff in V. destruct V as (V & Vl). apply andb_true_iff in V. destruct V as (V & Vg).
  destruct (Z.ltb_spec p 2) as [Lp|Lp].
  - destruct (v <? sp p); [specialize (IHg _ _ Vg S)|specialize (IHl _ _ Vl S)]; unfold upd in *; replace (q =? p) with false in * by lia; assumption.
  - cbn [has_split boxed] in *. assert (p = q) by (apply (S p v); auto). subst p. rewrite Er. cbn [fst snd]. split; [reflexivity|]. split; [lia|].
    specialize (IHg _ _ Vg ltac:(eauto)). specialize (IHl _ _ Vl ltac:(eauto)). unfold upd in *. rewrite Z.eqb_refl in *. auto.
Qed.
Lemma decide_single q R pv i : (forall p v, has_split R p v -> p = q /\ ((v <? pv q) = (v <? i))) -> decide R pv = decide R (fun _ => i).
Proof.
  induction R as [c p o m|p v gt IHg le IHl]; cbn [has_split decide]; intros H; [reflexivity|]. destruct (H p v ltac:(auto)) as (-> & ->). destruct (v <? i); [apply IHg|apply IHl]; eauto.
Qed.
Lemma plain_leaf R pv : plain R -> exists c p, decide R pv = (c, p, 0, 1) /\ has_leaf R p.
Proof.
  induction R as [c p o m|p v gt IHg le IHl]; cbn [plain decide has_leaf]; [intros (-> & ->); eauto|]. intros (A & B). destruct (v <? pv p); [destruct (IHg A) as (c & x & C & D)|destruct (IHl B) as (c & x & C & D)]; eauto.
Qed.
Lemma lut_flat sp wrap q T fl lut0 : 2 <= q -> flat sp 0 [T] fl -> zlen fl < 2 ^ 31 -> zlen fl = Z.of_nat (pops (resolve sp T)) -> props_below 256 T ->
  vcheck 1 T start = true -> (forall p v, has_split (resolve sp T) p v -> p = q) ->
  exists r, tree_to_lut wrap fl lut0 = Some r /\
    forall lut, r = Some lut -> forall pv, agrees sp pv -> -8192 <= pv q \/ ~ has_split (resolve sp T) q (-8193) ->
      exists c p, decide T pv = (c, p, 0, 1) /\ has_leaf (resolve sp T) p /\ lut_at lut (pv q) = Some (wrap c).
Proof.
  intros Hq F Hf Hp Pb V S. pose proof (vis_bound (Z.to_nat (nodes_of (resolve sp T))) (resolve sp T) ltac:(pose proof (cost_nodes (resolve sp T)); lia)) as Vb.
  pose proof (flat_at sp fl 0 [T] F [] eq_refl ltac:(lia) 0 T eq_refl) as A. cbn [app] in A. change (0 + 0) with 0 in A.
  pose proof (boxed_resolve sp q T Hq 1 start V S) as Bx. unfold start in Bx. cbn [fst snd] in Bx.
  destruct (lut_run sp wrap q fl 0 T A _ _ (- kPropRangeFast - 1) (kPropRangeFast - 1) Bx ltac:(unfold kPropRangeFast, int32_min; lia) ltac:(unfold kPropRangeFast, int32_max; lia) (length fl - vis (resolve sp T))%nat [] lut0) as [L|(lut' & L & G & _ & Pl & Ft & _)];
    unfold tree_to_lut; replace (vis (resolve sp T) + (length fl - vis (resolve sp T)))%nat with (length fl) in L by (unfold zlen in Hp; lia).
  - exists None. split; [exact L|]. discriminate.
  - exists (Some lut'). split; [rewrite L; destruct (length fl - vis (resolve sp T))%nat; reflexivity|]. intros lut E. apply Some_eq in E. subst lut. intros pv Ag Hx.
    destruct (plain_leaf (resolve sp T) pv Pl) as (c & p & D & Hl). exists c, p. split; [rewrite <- (resolve_decide sp T pv Ag Pb); exact D|]. split; [exact Hl|].
    unfold lut_at. unfold kPropRangeFast in *. change (- (8192)) with (-8192) in *. set (i := Z.min (Z.max (-8192) (pv q)) (8192 - 1)). rewrite get_ok by lia. f_equal. replace (8192 + i) with (i + 8192) by lia. rewrite G by lia. f_equal. unfold context_at.
    rewrite <- (decide_single q (resolve sp T) pv i), D; [reflexivity|]. intros p' v H. pose proof (S p' v H) as ->. pose proof (Ft q v H) as Fv. split; [reflexivity|].
    destruct Hx as [Hx|Hx]; [unfold i; lia|]. destruct (Z.eq_dec v (-8193)) as [->|]; [contradiction|unfold i; lia].
Qed.

Lemma stored_contexts t T : well_formed t -> forall i, stored t i T -> contexts_in (zlen (filter is_leaf t)) T.
Proof.
  intros (W1 & W2 & _). induction T as [c p o m|p v gt IHg le IHl]; intros i St; inversion St as [? n E1 E2|? n ? ? E1 E2 Sg Sl]; subst; cbn [contexts_in]; [|eauto].
  assert (Ln : is_leaf n = true) by (unfold is_leaf; lia). destruct (W2 _ _ E1 Ln) as (-> & _).
  destruct (znth_bound _ _ _ E1) as (B1 & B2). unfold znth in E1. replace (i <? 0) with false in E1 by lia.
  rewrite <- (firstn_skipn (Z.to_nat i) t) at 3. rewrite filter_app, zlen_app.
  assert (K : skipn (Z.to_nat i) t = n :: skipn (S (Z.to_nat i)) t). { clear - E1. revert E1. generalize (Z.to_nat i) as k. intros k. revert t. induction k as [|k IH]; intros [|x t] H; try discriminate; cbn in *; [congruence|apply IH; exact H]. }
  rewrite K. cbn [filter]. rewrite Ln, zlen_cons. pose proof (zlen_nonneg (filter is_leaf (firstn (Z.to_nat i) t))). pose proof (zlen_nonneg (filter is_leaf (skipn (S (Z.to_nat i)) t))). lia.
Qed.
Lemma map_vcheck f T d r : vcheck d (map_contexts f T) r = vcheck d T r.
Proof. apply vcheck_contexts. induction T as [c p o m|p v gt IHg le IHl]; cbn; [reflexivity|congruence]. Qed.
Lemma map_pops f n : forall t, nodes_of t <= Z.of_nat n -> pops (map_contexts f t) = pops t.
Proof.
  assert (P : forall t, 1 <= nodes_of t) by (intros x; apply cost_nodes).
  induction n as [|n IH]; intros t H; [pose proof (P t); lia|]. destruct t as [c p o m|p v gt le]; cbn [pops map_contexts nodes_of] in *; [reflexivity|]. pose proof (P gt). pose proof (P le).
  assert (Q : forall x, nodes_of x <= Z.of_nat n -> match map_contexts f x with MLeaf _ _ _ _ => 2 | MSplit _ _ a b => pops a + pops b end%nat = match x with MLeaf _ _ _ _ => 2 | MSplit _ _ a b => pops a + pops b end%nat).
  { intros [? ? ? ?|p1 v1 a b] Hx; cbn [nodes_of map_contexts] in *; [reflexivity|]. pose proof (P a). pose proof (P b). rewrite (IH a), (IH b) by lia. reflexivity. }
  rewrite (Q gt), (Q le) by lia. reflexivity.
Qed.
Lemma map_split f t p v : has_split (map_contexts f t) p v <-> has_split t p v.
Proof. induction t as [c x o m|p' v' gt IHg le IHl]; cbn; [tauto|]. rewrite IHg, IHl. tauto. Qed.
Lemma map_leaf f t x : has_leaf (map_contexts f t) x <-> has_leaf t x.
Proof. induction t as [c p o m|p' v' gt IHg le IHl]; cbn; [tauto|]. rewrite IHg, IHl. tauto. Qed.
Lemma map_decide f t pv : decide (map_contexts f t) pv = let '(c, p, o, m) := decide t pv in (f c, p, o, m).
Proof. induction t as [c p o m|p v gt IHg le IHl]; cbn; [reflexivity|]. destruct (v <? pv p); assumption. Qed.
Lemma map_props f n t : props_below n (map_contexts f t) <-> props_below n t.
Proof. induction t as [c p o m|p v gt IHg le IHl]; cbn; [tauto|]. rewrite IHg, IHl. tauto. Qed.

Theorem clustered_lookup t T sp cm : well_formed t -> stored t 0 T -> nodes_of T = zlen t -> zlen t <= 2 ^ 23 -> zlen cm = zlen (filter is_leaf t) ->
  exists fl np use_wp wp_only grad fc, filter_tree t sp = Some (fl, np, use_wp, wp_only, grad) /\ cluster_leaves cm fl = Some fc /\
    flat sp 0 [map_contexts (in_map cm) T] fc /\ zlen fc = zlen fl /\
    forall pv, agrees sp pv -> exists c p o m x, decide T pv = (c, p, o, m) /\ znth cm c = Some x /\ lookup (length fc) fc np pv 0 = Some (x, p, o, m).
Proof.
  intros Wf St Hn Hz Hc. destruct (filter_spec t T sp Wf St Hn Hz) as (fl & np & uw & wo & g & E & F & Hl & Hp & Sp & N1 & N2 & N3 & L & _).
  pose proof (stored_contexts t T Wf 0 St) as Cx. rewrite <- Hc in Cx. destruct (cluster_flat cm sp 0 [T] fl F ltac:(auto)) as (fc & C1 & C2 & C3). cbn [map] in C3.
  exists fl, np, uw, wo, g, fc. split; [exact E|]. split; [exact C1|]. split; [exact C3|]. split; [exact C2|]. intros pv Ag.
  destruct (decide T pv) as (((c & p) & o) & m) eqn:D. exists c, p, o, m.
  assert (Bc : 0 <= c < zlen cm). { clear - D Cx. revert D Cx. induction T as [c' p' o' m'|p' v' gt IHg le IHl]; cbn [decide contexts_in]; [intros D; injection D as -> _ _ _; auto|]. intros D (A & B). destruct (v' <? pv p'); auto. }
  pose proof (znth_some cm c 0 Bc) as Ex. eexists. split; [reflexivity|]. split; [exact Ex|].
  pose proof (writable_props T (stored_writable t T Wf 0 St)) as Pb.
  pose proof (flat_lookup sp np pv fc 0 _ C3 [] eq_refl ltac:(lia)) as K. cbn [app] in K. change 0 with (0 + 0) at 1. rewrite K with (T := map_contexts (in_map cm) T); [|apply (flat_indices sp np ltac:(lia) 0 _ fc C3)|reflexivity].
  - rewrite map_resolve, map_decide, (resolve_decide sp T pv Ag Pb), D. unfold in_map. now rewrite Ex.
  - unfold anys. rewrite Exists_cons, Exists_nil, map_resolve, any_spec. intros [[(p' & v' & H & H')|(? & _ & [])]|[]]. apply map_split in H. specialize (Sp p' v' H). lia.
Qed.
Theorem lut_meaning t T sp cm wrap lut0 : well_formed t -> stored t 0 T -> nodes_of T = zlen t -> zlen t <= 2 ^ 23 -> each_leaf_needed T -> zlen cm = zlen (filter is_leaf t) ->
  exists fl np use_wp wp_only grad fc r, filter_tree t sp = Some (fl, np, use_wp, wp_only, grad) /\ cluster_leaves cm fl = Some fc /\
    forall q predictor, (wp_only = true /\ q = 15 /\ predictor = 6) \/ (grad = true /\ q = 9 /\ predictor = 5) -> tree_to_lut wrap fc lut0 = Some r /\
      forall lut, r = Some lut -> forall pv, agrees sp pv -> -8192 <= pv q \/ ~ has_split (resolve sp T) q (-8193) ->
        exists c x, decide T pv = (c, predictor, 0, 1) /\ znth cm c = Some x /\ lut_at lut (pv q) = Some (wrap x).
Proof.
  intros Wf St Hn Hz Nd Hc. destruct (filter_spec t T sp Wf St Hn Hz) as (fl & np & uw & wo & g & E & F & Hl & Hp & Sp & N1 & N2 & N3 & _ & _ & Wo & Go).
  destruct (clustered_lookup t T sp cm Wf St Hn Hz Hc) as (fl' & np' & uw' & wo' & g' & fc & E' & C1 & C2 & C3 & _). rewrite E in E'. injection E' as <- <- <- <- <-.
  pose proof (stored_contexts t T Wf 0 St) as Cx. rewrite <- Hc in Cx. pose proof (writable_props T (stored_writable t T Wf 0 St)) as Pb.
  assert (V : vcheck 1 T start = true). { destruct (validate_meaning t T St ltac:(lia)) as (b & V1 & V2). rewrite (validate_spec t T St ltac:(lia)) in V1. apply Some_eq in V1. rewrite V1. apply V2, Nd. }
  assert (Z0 : exists r, tree_to_lut wrap fc lut0 = Some r \/ ~ (wo = true \/ g = true)).
  { destruct (tree_to_lut wrap fc lut0) as [r|] eqn:Er; [exists r; auto|]. exists None. right. intros [W|W]; [apply Wo in W|apply Go in W]; destruct W as (W1 & _);
      [destruct (lut_flat sp wrap 15 (map_contexts (in_map cm) T) fc lut0 ltac:(lia) C2) as (r & A & _)|destruct (lut_flat sp wrap 9 (map_contexts (in_map cm) T) fc lut0 ltac:(lia) C2) as (r & A & _)]; try congruence;
      try (rewrite C3; lia); try (rewrite C3, map_resolve, (map_pops _ (Z.to_nat (nodes_of (resolve sp T)))) by (pose proof (cost_nodes (resolve sp T)); lia); exact Hp); try (apply map_props; exact Pb); try (rewrite map_vcheck; exact V);
      (intros p v H; rewrite map_resolve in H; apply map_split in H; eauto). }
  destruct Z0 as (r & Z0). exists fl, np, uw, wo, g, fc, r. split; [exact E|]. split; [exact C1|]. intros q pr Hq.
  assert (Er : tree_to_lut wrap fc lut0 = Some r) by (destruct Z0 as [Z0|Z0]; [exact Z0|exfalso; apply Z0; tauto]). clear Z0. split; [exact Er|]. intros lut -> pv Ag Hx.
  assert (Q : 2 <= q /\ (forall p v, has_split (resolve sp T) p v -> p = q) /\ (forall x, has_leaf (resolve sp T) x -> x = pr)).
  { destruct Hq as [(W & -> & ->)|(W & -> & ->)]; [apply Wo in W|apply Go in W]; destruct W; split; auto; lia. }
  destruct Q as (Q1 & Q2 & Q3).
  destruct (lut_flat sp wrap q (map_contexts (in_map cm) T) fc lut0 Q1 C2) as (r & A & B).
  { rewrite C3; lia. } { rewrite C3, map_resolve, (map_pops _ (Z.to_nat (nodes_of (resolve sp T)))) by (pose proof (cost_nodes (resolve sp T)); lia); exact Hp. } { apply map_props; exact Pb. } { rewrite map_vcheck; exact V. }
  { intros p v H; rewrite map_resolve in H; apply map_split in H; eauto. }
  rewrite Er in A. apply Some_eq in A. subst r. destruct (B lut eq_refl pv Ag) as (c & p & D & Hlf & La). { rewrite map_resolve, map_split. exact Hx. }
  rewrite map_resolve in Hlf. apply map_leaf in Hlf. rewrite map_decide in D. destruct (decide T pv) as (((c0 & p0) & o) & m) eqn:D0. injection D as <- <- -> ->. exists c0.
  assert (Bc : 0 <= c0 < zlen cm). { clear - D0 Cx. revert D0 Cx. induction T as [c' p' o' m'|p' v' gt IHg le IHl]; cbn [decide contexts_in]; [intros D; injection D as -> _ _ _; auto|]. intros D (A & B). destruct (v' <? pv p'); auto. }
  pose proof (znth_some cm c0 0 Bc) as Ex. eexists. split; [rewrite (Q3 _ Hlf); reflexivity|]. split; [exact Ex|]. rewrite La. unfold in_map. now rewrite Ex.
Qed.
