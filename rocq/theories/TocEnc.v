(* The orders in which the encoder stores the sections of a frame. *)
From Verif Require Import Base HuffRle TocModel LehmerSpec ListAux AliasProofs LzProofs MtfSpec TocSpec PermProofs TocLayout.
Require Import Permutation.
Ltac Zify.zify_post_hook ::= idtac.

(* ---- ranges ---- *)
Lemma in_range a b v : In v (range a b) <-> a <= v < b.
Proof.
  unfold range. rewrite in_map_iff. split.
  - intros (k & <- & H). apply in_seq in H. lia.
  - intros H. exists (Z.to_nat (v - a)). split; [lia|]. apply in_seq. lia.
Qed.
Lemma nodup_range a b : NoDup (range a b).
Proof. apply FinFun.Injective_map_NoDup; [intros x y H; lia|apply seq_NoDup]. Qed.
Lemma range_shift a b : range a b = map (fun x => a + x) (range 0 (b - a)).
Proof. unfold range. rewrite map_map. replace (b - a - 0) with (b - a) by lia. apply map_ext. intros. lia. Qed.
Lemma range_app a b c : a <= b <= c -> range a c = range a b ++ range b c.
Proof.
  intros H. unfold range. replace (Z.to_nat (c - a)) with (Z.to_nat (b - a) + Z.to_nat (c - b))%nat by lia. rewrite seq_app, map_app. f_equal.
  rewrite <- (Nat.add_0_r (0 + Z.to_nat (b - a))). cbn [Nat.add]. assert (G : forall n s, map (fun k => a + Z.of_nat k) (seq (Z.to_nat (b - a) + s) n) = map (fun k => b + Z.of_nat k) (seq s n)).
  { induction n as [|n IH]; intros s; [reflexivity|]. cbn [seq map]. f_equal; [lia|]. rewrite <- IH. do 2 f_equal. lia. }
  apply G.
Qed.
Lemma range_empty a b : b <= a -> range a b = [].
Proof. intros H. unfold range. replace (Z.to_nat (b - a)) with 0%nat by lia. reflexivity. Qed.

Lemma flat_map_app {A B} (f : A -> list B) l1 l2 : flat_map f (l1 ++ l2) = flat_map f l1 ++ flat_map f l2.
Proof. induction l1 as [|x l1 IH]; [reflexivity|]. cbn [app flat_map]. now rewrite IH, app_assoc. Qed.
Lemma flat_map_ext_in {A B} (f g : A -> list B) l : (forall x, In x l -> f x = g x) -> flat_map f l = flat_map g l.
Proof. induction l as [|x l IH]; intros H; [reflexivity|]. cbn [flat_map]. rewrite (H x) by now left. rewrite IH; [reflexivity|]. intros. apply H. now right. Qed.
Lemma flat_map_map {A B C} (f : B -> list C) (g : A -> B) l : flat_map f (map g l) = flat_map (fun x => f (g x)) l.
Proof. induction l as [|x l IH]; [reflexivity|]. cbn [map flat_map]. now rewrite IH. Qed.
Lemma map_as_flat {A B} (f : A -> B) l : map f l = flat_map (fun x => [f x]) l.
Proof. induction l as [|x l IH]; [reflexivity|]. cbn [map flat_map app]. now rewrite IH. Qed.

(* a range of products, as two nested ones *)
Lemma range_product {B} (f : Z -> Z -> list B) b : 0 < b -> forall n : nat,
  flat_map (fun k => f (k / b) (k mod b)) (range 0 (Z.of_nat n * b)) = flat_map (fun y => flat_map (fun x => f y x) (range 0 b)) (range 0 (Z.of_nat n)).
Proof.
  intros Hb. induction n as [|n IH]; [reflexivity|].
  rewrite (range_app 0 (Z.of_nat n * b) (Z.of_nat (S n) * b)) by lia. rewrite (range_app 0 (Z.of_nat n) (Z.of_nat (S n))) by lia. rewrite !flat_map_app, IH. f_equal.
  rewrite (range_shift (Z.of_nat n) _). replace (Z.of_nat (S n) - Z.of_nat n) with 1 by lia. cbn [range flat_map map Z.to_nat]. change (range 0 1) with [0]. cbn [map flat_map]. rewrite app_nil_r.
  rewrite (range_shift (Z.of_nat n * b) _). replace (Z.of_nat (S n) * b - Z.of_nat n * b) with b by lia. rewrite flat_map_map. apply flat_map_ext_in. intros x Hx. apply in_range in Hx.
  rewrite Z.add_comm, Z.div_add, Z.mod_add by lia. rewrite Z.div_small, Z.mod_small by lia. f_equal. lia.
Qed.
Lemma range_prod {B} (f : Z -> Z -> list B) a b : 0 <= a -> 0 < b ->
  flat_map (fun k => f (k / b) (k mod b)) (range 0 (a * b)) = flat_map (fun y => flat_map (fun x => f y x) (range 0 b)) (range 0 a).
Proof. intros Ha Hb. rewrite <- (Z2Nat.id a Ha). now apply range_product. Qed.

(* lists without repetitions, block by block *)
Lemma nodup_flat {A B} (f : A -> list B) (key : B -> A) l : NoDup l -> (forall x, In x l -> NoDup (f x)) -> (forall x y, In x l -> In y (f x) -> key y = x) -> NoDup (flat_map f l).
Proof.
  induction l as [|x l IH]; intros N F K; [constructor|]. inversion N as [|a b N1 N2]; subst. cbn [flat_map].
  assert (D : forall y, In y (f x) -> ~ In y (flat_map f l)).
  { intros y Hy Hc. apply in_flat_map in Hc as (x' & Hx' & Hy'). rewrite <- (K x y (or_introl eq_refl) Hy) in N1. rewrite (K x' y (or_intror Hx') Hy') in N1. contradiction. }
  assert (R : NoDup (flat_map f l)) by (apply IH; [exact N2|intros; apply F; now right|intros x' y Hx' Hy; apply K; [now right|exact Hy]]).
  specialize (F x (or_introl eq_refl)). clear -F D R. induction F as [|y r Hy F IH]; cbn [app]; [exact R|]. constructor.
  - rewrite in_app_iff. intros [C|C]; [contradiction|]. exact (D y (or_introl eq_refl) C).
  - apply IH. intros z Hz. apply D. now right.
Qed.

(* a list without repetitions of exactly the numbers below n *)
Lemma listing_length n l : 0 <= n -> NoDup l -> (forall v, In v l <-> 0 <= v < n) -> zlen l = n.
Proof.
  intros Hn N I. assert (P : Permutation l (range 0 n)). { apply NoDup_Permutation; [exact N|apply nodup_range|]. intros x. rewrite I, in_range. reflexivity. }
  apply Permutation_length in P. unfold range in P. rewrite map_length, seq_length in P. unfold zlen. lia.
Qed.

(* ---- the numbering of sections ---- *)
Theorem section_numbering ng ndc np : 0 < ng -> 0 <= ndc -> 0 <= np ->
  (forall s, is_section ng ndc np s -> 0 <= id_of_section ng ndc s < 2 + ndc + np * ng /\ section_of_id ng ndc (id_of_section ng ndc s) = s) /\
  (forall id, 0 <= id < 2 + ndc + np * ng -> is_section ng ndc np (section_of_id ng ndc id) /\ id_of_section ng ndc (section_of_id ng ndc id) = id).
Proof.
  intros H1 H2 H3. assert (Hm : 0 <= np * ng) by nia. split.
  - intros [|g| |p g] H; cbn [is_section id_of_section] in *; unfold section_of_id; cbv zeta.
    + split; [lia|reflexivity].
    + split; [lia|]. replace (1 + g =? 0) with false by lia. replace (1 + g <? ndc + 1) with true by lia. f_equal. lia.
    + split; [lia|]. replace (1 + ndc =? 0) with false by lia. replace (1 + ndc <? ndc + 1) with false by lia. replace (1 + ndc =? ndc + 1) with true by lia. reflexivity.
    + assert (p * ng + g < np * ng) by nia. assert (0 <= p * ng) by nia. split; [lia|]. replace (2 + ndc + p * ng + g =? 0) with false by lia. replace (2 + ndc + p * ng + g <? ndc + 1) with false by lia.
      replace (2 + ndc + p * ng + g =? ndc + 1) with false by lia. replace (2 + ndc + p * ng + g - (ndc + 1) - 1) with (g + p * ng) by lia.
      rewrite Z.div_add, Z.mod_add by lia. rewrite Z.div_small, Z.mod_small by lia. reflexivity.
  - intros id H. unfold section_of_id. cbv zeta. destruct (Z.eqb_spec id 0) as [->|]; [cbn; auto|]. destruct (Z.ltb_spec id (ndc + 1)); [cbn [is_section id_of_section]; lia|].
    destruct (Z.eqb_spec id (ndc + 1)); [cbn [is_section id_of_section]; split; [exact I|lia]|]. cbn [is_section id_of_section]. set (k := id - (ndc + 1) - 1). assert (Hk : 0 <= k < np * ng) by lia.
    pose proof (Z.div_mod k ng ltac:(lia)). pose proof (Z.mod_pos_bound k ng ltac:(lia)). assert (0 <= k / ng) by (apply Z.div_pos; lia). assert (k / ng < np) by (apply Z.div_lt_upper_bound; nia).
    split; [auto|]. replace (2 + ndc + k / ng * ng + k mod ng) with (2 + ndc + k) by lia. lia.
Qed.
Lemma ac_index_id p g ng ndc : 0 <= p -> 0 <= g -> 0 <= ng -> 0 <= ndc -> 2 + ndc + p * ng + g < 2 ^ 64 -> ac_group_index p g ng ndc = id_of_section ng ndc (AcGroup p g).
Proof.
  intros. assert (0 <= p * ng) by nia. unfold ac_group_index, id_of_section, w64. rewrite (Z.mod_small (2 + ndc)), (Z.mod_small (p * ng)) by lia. rewrite (Z.mod_small (2 + ndc + p * ng)) by lia. apply Z.mod_small. lia.
Qed.
Theorem entry_count ng ndc np : 0 <= ng -> 0 <= ndc -> 0 <= np -> 2 + ndc + np * ng < 2 ^ 64 -> (ng =? 1) && (np =? 1) = false -> num_toc_entries ng ndc np = 2 + ndc + np * ng.
Proof.
  intros H1 H2 H3 H E. assert (0 <= np * ng) by nia. unfold num_toc_entries. rewrite E. rewrite ac_index_id by lia. cbn [id_of_section]. unfold w64. rewrite (Z.mod_small (ng * np)) by lia. rewrite Z.mod_small by lia. lia.
Qed.

(* ---- the order of sections with streaming ---- *)
Lemma cell_range a b x y : 0 < a -> 0 < b -> 0 <= x < a -> 0 <= y < b -> 0 <= y * a + x < a * b.
Proof. intros. nia. Qed.
Lemma cell_div a x y : 0 <= x < a -> (y * a + x) / a = y /\ (y * a + x) mod a = x.
Proof. intros H. rewrite Z.add_comm, Z.div_add, Z.mod_add, Z.div_small, Z.mod_small by lia. lia. Qed.

Section Streaming.
Variables gx gy dcx dcy np : Z.
Hypotheses (Hgx : 0 < gx) (Hgy : 0 < gy) (Hdx : 0 < dcx) (Hdy : 0 < dcy) (Hnp : 0 <= np)
  (Bx : (dcx - 1) * 8 < gx <= dcx * 8) (By : (dcy - 1) * 8 < gy <= dcy * 8) (Ht : 2 + dcx * dcy + np * (gx * gy) < 2 ^ 64).

Let ng := gx * gy.
Let ndc := dcx * dcy.
Lemma ng_pos : 0 < ng. Proof. unfold ng. nia. Qed.
Lemma ndc_pos : 0 < ndc. Proof. unfold ndc. nia. Qed.

Definition ac_id p y x := id_of_section ng ndc (AcGroup p (y * gx + x)).
Lemma ac_id_eq p y x : 0 <= p < np -> 0 <= y < gy -> 0 <= x < gx -> ac_group_index p (y * gx + x) ng ndc = ac_id p y x.
Proof.
  intros. pose proof (cell_range gx gy x y Hgx Hgy ltac:(lia) ltac:(lia)). apply ac_index_id; [lia|lia|pose proof ng_pos; lia|pose proof ndc_pos; lia|]. fold ng in H2. fold ng ndc in Ht. nia.
Qed.
Lemma ac_id_back p y x : 0 <= p < np -> 0 <= y < gy -> 0 <= x < gx -> section_of_id ng ndc (ac_id p y x) = AcGroup p (y * gx + x).
Proof.
  intros. pose proof (cell_range gx gy x y Hgx Hgy ltac:(lia) ltac:(lia)). pose proof ng_pos. pose proof ndc_pos.
  apply (section_numbering ng ndc np ltac:(lia) ltac:(lia) Hnp). cbn. fold ng in H2. lia.
Qed.
Lemma dc_id_back g : 0 <= g < ndc -> section_of_id ng ndc (1 + g) = DcGroup g.
Proof. intros. pose proof ng_pos. change (1 + g) with (id_of_section ng ndc (DcGroup g)). apply (section_numbering ng ndc np ltac:(lia) ltac:(lia) Hnp). exact H. Qed.

(* where a section is *)
Definition cell_of (v : Z) : Z * Z :=
  match section_of_id ng ndc v with
  | DcGroup g => (g / dcx, g mod dcx)
  | AcGroup p g => (g / gx / 8, g mod gx / 8)
  | _ => (0, 0)
  end.

Definition block (dy dx : Z) : list Z :=
  1 + (dy * dcx + dx) :: flat_map (fun pass => flat_map (fun ac_y => map (fun ac_x => ac_group_index pass (ac_y * gx + ac_x) ng ndc)
    (range (dx * 8) (Z.min gx (dx * 8 + 8)))) (range (dy * 8) (Z.min gy (dy * 8 + 8)))) (range 0 np).

Lemma in_block dy dx v : 0 <= dy < dcy -> 0 <= dx < dcx ->
  (In v (block dy dx) <-> v = 1 + (dy * dcx + dx) \/ exists p y x, 0 <= p < np /\ dy * 8 <= y < Z.min gy (dy * 8 + 8) /\ dx * 8 <= x < Z.min gx (dx * 8 + 8) /\ v = ac_id p y x).
Proof.
  intros Hy Hx. unfold block. cbn [In]. rewrite in_flat_map. split.
  - intros [<-|(p & Hp & H)]; [now left|]. right. apply in_range in Hp. apply in_flat_map in H as (y & Hyr & H). apply in_range in Hyr. apply in_map_iff in H as (x & <- & Hxr). apply in_range in Hxr.
    exists p, y, x. rewrite ac_id_eq by lia. auto.
  - intros [->|(p & y & x & Hp & Hyr & Hxr & ->)]; [now left|]. right. exists p. split; [now apply in_range|]. apply in_flat_map. exists y. split; [now apply in_range|]. apply in_map_iff. exists x. split; [apply ac_id_eq; lia|now apply in_range].
Qed.
Lemma block_cell dy dx v : 0 <= dy < dcy -> 0 <= dx < dcx -> In v (block dy dx) -> cell_of v = (dy, dx).
Proof.
  intros Hy Hx H. apply in_block in H; [|assumption|assumption]. unfold cell_of. destruct H as [->|(p & y & x & Hp & Hyr & Hxr & ->)].
  - rewrite dc_id_back by (apply cell_range; assumption). destruct (cell_div dcx dx dy Hx) as (-> & ->). reflexivity.
  - rewrite ac_id_back by lia. destruct (cell_div gx x y ltac:(lia)) as (-> & ->). f_equal; [replace y with (y - dy * 8 + dy * 8) by lia|replace x with (x - dx * 8 + dx * 8) by lia]; rewrite Z.div_add, Z.div_small by lia; lia.
Qed.
Lemma block_nodup dy dx : 0 <= dy < dcy -> 0 <= dx < dcx -> NoDup (block dy dx).
Proof.
  intros Hy Hx. unfold block. constructor.
  - intros H. apply in_flat_map in H as (p & Hp & H). apply in_range in Hp. apply in_flat_map in H as (y & Hyr & H). apply in_range in Hyr. apply in_map_iff in H as (x & E & Hxr). apply in_range in Hxr.
    rewrite ac_id_eq in E by lia. apply (f_equal (section_of_id ng ndc)) in E. rewrite ac_id_back, dc_id_back in E by (first [lia|apply cell_range; assumption]). discriminate.
  - apply nodup_flat with (key := fun v => match section_of_id ng ndc v with AcGroup p _ => p | _ => 0 end); [apply nodup_range| |].
    + intros p Hp. apply in_range in Hp. apply nodup_flat with (key := fun v => match section_of_id ng ndc v with AcGroup _ g => g / gx | _ => 0 end); [apply nodup_range| |].
      * intros y Hyr. apply in_range in Hyr.
        assert (G : forall l, (forall x, In x l -> 0 <= x < gx) -> NoDup l -> NoDup (map (fun ac_x => ac_group_index p (y * gx + ac_x) ng ndc) l)).
        { induction l as [|x l IH]; intros R N; [constructor|]. inversion N as [|a b N1 N2]; subst. cbn [map]. constructor; [|apply IH; [intros; apply R; now right|exact N2]].
          intros H. apply in_map_iff in H as (x' & E & Hx'). pose proof (R x (or_introl eq_refl)). pose proof (R x' (or_intror Hx')). rewrite !ac_id_eq in E by lia.
          apply (f_equal (section_of_id ng ndc)) in E. rewrite !ac_id_back in E by lia. injection E as E. assert (x' = x) by lia. subst. contradiction. }
        apply G; [|apply nodup_range]. intros x H. apply in_range in H. lia.
      * intros y v Hyr H. apply in_range in Hyr. apply in_map_iff in H as (x & <- & Hxr). apply in_range in Hxr. rewrite ac_id_eq, ac_id_back by lia. apply cell_div. lia.
    + intros p v Hp H. apply in_range in Hp. apply in_flat_map in H as (y & Hyr & H). apply in_range in Hyr. apply in_map_iff in H as (x & <- & Hxr). apply in_range in Hxr. rewrite ac_id_eq, ac_id_back by lia. reflexivity.
Qed.

Let order := streaming_order gx gy dcx dcy np.
Lemma order_blocks : order = 0 :: flat_map (fun dy => flat_map (fun dx => block dy dx) (range 0 dcx)) (range 0 dcy) ++ [1 + ndc].
Proof. reflexivity. Qed.
Lemma in_order v : In v order <-> 0 <= v < 2 + ndc + np * ng.
Proof.
  pose proof ng_pos as Pn. pose proof ndc_pos as Pd. rewrite order_blocks. cbn [In]. rewrite in_app_iff, in_flat_map. cbn [In]. split.
  - assert (Hm : 0 <= np * ng) by nia. intros [<-|[(dy & Hdyr & H)|[<-|[]]]]; [lia| |lia]. apply in_range in Hdyr. apply in_flat_map in H as (dx & Hdxr & H). apply in_range in Hdxr. apply in_block in H; [|assumption|assumption].
    destruct H as [->|(p & y & x & Hp & Hyr & Hxr & ->)].
    + pose proof (cell_range dcx dcy dx dy Hdx Hdy Hdxr Hdyr). fold ndc in H. lia.
    + apply (section_numbering ng ndc np); [lia|lia|lia|]. cbn. split; [lia|]. apply cell_range; lia.
  - intros H. destruct (proj2 (section_numbering ng ndc np ltac:(lia) ltac:(lia) Hnp) v H) as (V & E). destruct (section_of_id ng ndc v) as [|g| |p g]; cbn [is_section id_of_section] in V, E.
    + left. exact E.
    + right. left. pose proof (Z.mod_pos_bound g dcx ltac:(lia)). pose proof (Z.div_mod g dcx ltac:(lia)). assert (0 <= g / dcx) by (apply Z.div_pos; lia). assert (g / dcx < dcy) by (apply Z.div_lt_upper_bound; unfold ndc in V; lia).
      exists (g / dcx). split; [apply in_range; lia|]. apply in_flat_map. exists (g mod dcx). split; [apply in_range; lia|]. apply in_block; [lia|lia|]. left. lia.
    + right. right. left. exact E.
    + right. left. pose proof (Z.mod_pos_bound g gx ltac:(lia)). pose proof (Z.div_mod g gx ltac:(lia)). assert (0 <= g / gx) by (apply Z.div_pos; lia). assert (g / gx < gy) by (apply Z.div_lt_upper_bound; unfold ng in V; lia).
      set (y := g / gx) in *. set (x := g mod gx) in *.
      pose proof (Z.mod_pos_bound y 8 ltac:(lia)). pose proof (Z.div_mod y 8 ltac:(lia)). pose proof (Z.mod_pos_bound x 8 ltac:(lia)). pose proof (Z.div_mod x 8 ltac:(lia)).
      assert (0 <= y / 8) by (apply Z.div_pos; lia). assert (0 <= x / 8) by (apply Z.div_pos; lia).
      exists (y / 8). split; [apply in_range; lia|]. apply in_flat_map. exists (x / 8). split; [apply in_range; lia|]. apply in_block; [lia|lia|]. right. exists p, y, x.
      split; [lia|]. split; [lia|]. split; [lia|]. unfold ac_id. cbn [id_of_section]. rewrite <- E. lia.
Qed.
Lemma order_nodup : NoDup order.
Proof.
  pose proof ng_pos as Pn. pose proof ndc_pos as Pd. rewrite order_blocks.
  assert (N : NoDup (flat_map (fun dy => flat_map (fun dx => block dy dx) (range 0 dcx)) (range 0 dcy))).
  { apply nodup_flat with (key := fun v => fst (cell_of v)); [apply nodup_range| |].
    - intros dy Hy. apply in_range in Hy. apply nodup_flat with (key := fun v => snd (cell_of v)); [apply nodup_range| |].
      + intros dx Hx. apply in_range in Hx. now apply block_nodup.
      + intros dx v Hx H. apply in_range in Hx. rewrite (block_cell dy dx v) by assumption. reflexivity.
    - intros dy v Hy H. apply in_range in Hy. apply in_flat_map in H as (dx & Hx & H). apply in_range in Hx. rewrite (block_cell dy dx v) by assumption. reflexivity. }
  assert (M : forall v, In v (flat_map (fun dy => flat_map (fun dx => block dy dx) (range 0 dcx)) (range 0 dcy)) -> section_of_id ng ndc v <> DcGlobal /\ section_of_id ng ndc v <> AcGlobal).
  { intros v H. apply in_flat_map in H as (dy & Hy & H). apply in_range in Hy. apply in_flat_map in H as (dx & Hx & H). apply in_range in Hx. apply in_block in H; [|assumption|assumption].
    destruct H as [->|(p & y & x & Hp & Hyr & Hxr & ->)]; [rewrite dc_id_back by (apply cell_range; assumption)|rewrite ac_id_back by lia]; split; discriminate. }
  constructor.
  - rewrite in_app_iff. intros [C|[C|[]]]; [|lia]. apply (proj1 (M 0 C)). reflexivity.
  - apply Permutation_NoDup with (l := (1 + ndc) :: flat_map (fun dy => flat_map (fun dx => block dy dx) (range 0 dcx)) (range 0 dcy)); [apply Permutation_cons_append|]. constructor; [|exact N].
    intros C. apply (proj2 (M _ C)). change (1 + ndc) with (id_of_section ng ndc AcGlobal). apply (section_numbering ng ndc np ltac:(lia) ltac:(lia) Hnp). exact I.
Qed.
Lemma order_permutation : is_permutation (2 + ndc + np * ng) order.
Proof.
  pose proof ng_pos as Pn. pose proof ndc_pos as Pd. split; [|split; [apply order_nodup|apply in_order]]. apply listing_length; [nia|apply order_nodup|apply in_order].
Qed.
End Streaming.

(* ---- sizes in groups ---- *)
Lemma ceil_spec a b : 0 < b -> let q := (a + b - 1) / b in (q - 1) * b < a <= q * b.
Proof. intros H q. pose proof (Z.mod_pos_bound (a + b - 1) b H). pose proof (Z.div_mod (a + b - 1) b ltac:(lia)). fold q in H1. nia. Qed.
Lemma ceil_unique a b q : 0 < b -> (q - 1) * b < a <= q * b -> (a + b - 1) / b = q.
Proof. intros H R. symmetry. apply Z.div_unique with (r := a + b - 1 - q * b); lia. Qed.
Lemma ceil_pos a b : 0 < a -> 0 < b -> 0 < (a + b - 1) / b.
Proof. intros Ha Hb. pose proof (ceil_spec a b Hb) as H. cbv zeta in H. nia. Qed.
Lemma ceil_eight a b : 0 < a -> 0 < b -> let g := (a + b - 1) / b in let d := (a + b * 8 - 1) / (b * 8) in (d - 1) * 8 < g <= d * 8.
Proof.
  intros Ha Hb g d. pose proof (ceil_spec a b Hb) as H1. cbv zeta in H1. fold g in H1. pose proof (ceil_spec a (b * 8) ltac:(lia)) as H2. cbv zeta in H2. fold d in H2. clearbody g d. nia.
Qed.
Lemma patch_ceil a b k : 0 < a -> 0 < b -> let g := (a + b - 1) / b in 0 <= k -> k * 8 < g -> (Z.min (b * 8) (a - k * (b * 8)) + b - 1) / b = Z.min g (k * 8 + 8) - k * 8.
Proof.
  intros Ha Hb g Hk Hg. pose proof (ceil_spec a b Hb) as H. cbv zeta in H. fold g in H. clearbody g. apply ceil_unique; [exact Hb|].
  destruct (Z_le_gt_dec g (k * 8 + 8)) as [L|L].
  - rewrite (Z.min_l g) by lia. destruct (Z.min_spec (b * 8) (a - k * (b * 8))) as [(? & ->)|(? & ->)]; nia.
  - rewrite (Z.min_r g) by lia. rewrite Z.min_l by nia. nia.
Qed.

Section Frame.
Variables xsize ysize gs np : Z.
Hypotheses (Hx : 0 < xsize) (Hy : 0 < ysize) (Hg : 0 < gs) (Hnp : 0 <= np).
Let gx := (xsize + gs - 1) / gs.
Let gy := (ysize + gs - 1) / gs.
Let dcx := (xsize + gs * 8 - 1) / (gs * 8).
Let dcy := (ysize + gs * 8 - 1) / (gs * 8).
Hypothesis Ht : 2 + dcx * dcy + np * (gx * gy) < 2 ^ 64.

Lemma gx_pos : 0 < gx. Proof. now apply ceil_pos. Qed.
Lemma gy_pos : 0 < gy. Proof. now apply ceil_pos. Qed.
Lemma dcx_pos : 0 < dcx. Proof. apply ceil_pos; lia. Qed.
Lemma dcy_pos : 0 < dcy. Proof. apply ceil_pos; lia. Qed.

Theorem frame_order : is_permutation (2 + dcx * dcy + np * (gx * gy)) (streaming_order gx gy dcx dcy np).
Proof.
  pose proof gx_pos. pose proof gy_pos. pose proof dcx_pos. pose proof dcy_pos. pose proof (ceil_eight xsize gs Hx Hg) as E1. pose proof (ceil_eight ysize gs Hy Hg) as E2. cbv zeta in E1, E2. fold gx dcx in E1. fold gy dcy in E2.
  apply order_permutation; assumption.
Qed.

Theorem streaming_permutation_is : exists perm, streaming_permutation xsize ysize gs np = Some perm /\ is_permutation (2 + dcx * dcy + np * (gx * gy)) perm /\
  forall k id, znth (streaming_order gx gy dcx dcy np) k = Some id -> znth perm id = Some k.
Proof.
  pose proof gx_pos. pose proof gy_pos. pose proof dcx_pos. pose proof dcy_pos. pose proof frame_order as P. unfold streaming_permutation. cbv zeta. fold gx gy dcx dcy.
  set (n := 2 + dcx * dcy + np * (gx * gy)) in *. assert (Hn : 0 <= n) by (unfold n; nia). set (order := streaming_order gx gy dcx dcy np) in *.
  destruct (fill_spec n order (fun _ => 0) 0) as (ids & -> & F & _). { apply P. } { apply Forall_forall. intros v Hv. now apply P. }
  replace (zlen order =? n) with true by (destruct P as (-> & _); lia). eexists. split; [reflexivity|]. split.
  - rewrite <- (Z2Nat.id n Hn) at 1. apply inverse_permutation with (p := order); [now rewrite Z2Nat.id|]. intros k j H3. apply F in H3. lia.
  - intros k id H3. pose proof (F _ _ H3) as Fk. rewrite Z.add_0_l in Fk. rewrite <- Fk. apply znth_map_iota. rewrite Z2Nat.id by lia. apply P. eapply znth_member; exact H3.
Qed.

(* the order in which sections are produced is the one announced *)
Theorem emission_is_order : emission_order xsize ysize gs np = streaming_order gx gy dcx dcy np.
Proof.
  pose proof gx_pos as Pgx. pose proof gy_pos as Pgy. pose proof dcx_pos as Pdx. pose proof dcy_pos as Pdy. pose proof (ceil_eight xsize gs Hx Hg) as E1. pose proof (ceil_eight ysize gs Hy Hg) as E2. cbv zeta in E1, E2. fold gx dcx in E1. fold gy dcy in E2.
  unfold emission_order, streaming_order. cbv zeta. fold gx gy dcx dcy. f_equal. f_equal.
  rewrite <- (range_prod (fun dc_y dc_x => 1 + (dc_y * dcx + dc_x) :: flat_map (fun pass => flat_map (fun ac_y => map (fun ac_x => ac_group_index pass (ac_y * gx + ac_x) (gx * gy) (dcx * dcy))
    (range (dc_x * 8) (Z.min gx (dc_x * 8 + 8)))) (range (dc_y * 8) (Z.min gy (dc_y * 8 + 8)))) (range 0 np)) dcy dcx) by lia.
  rewrite (Z.mul_comm dcy dcx). apply flat_map_ext_in. intros d Hd. apply in_range in Hd.
  pose proof (Z.mod_pos_bound d dcx Pdx) as M1. pose proof (Z.div_mod d dcx ltac:(lia)) as M2. assert (D0 : 0 <= d / dcx) by (apply Z.div_pos; lia). assert (D1 : d / dcx < dcy) by (apply Z.div_lt_upper_bound; lia).
  unfold patch_groups. cbv zeta. unfold gx in E1. rewrite (patch_ceil xsize gs (d mod dcx)), (patch_ceil ysize gs (d / dcx)); fold gx; fold gy; fold gx in E1; try lia. set (dy := d / dcx) in *. set (dx := d mod dcx) in *.
  f_equal; [lia|]. apply flat_map_ext_in. intros pass Hp.
  set (w := Z.min gx (dx * 8 + 8) - dx * 8). set (h := Z.min gy (dy * 8 + 8) - dy * 8). assert (Hw : 0 < w) by (unfold w; lia). assert (Hh : 0 < h) by (unfold h; lia).
  rewrite map_as_flat. unfold absolute_ac_group. cbv zeta. fold dx dy.
  rewrite (Z.mul_comm w h). rewrite (range_prod (fun y x => [ac_group_index pass (dx * 8 + x + (dy * 8 + y) * gx) (gx * gy) (dcx * dcy)]) h w) by lia.
  rewrite (range_shift (dy * 8)). fold h. rewrite flat_map_map. apply flat_map_ext_in. intros y _. rewrite (range_shift (dx * 8)). fold w. rewrite map_map, map_as_flat. apply flat_map_ext_in. intros x _. do 2 f_equal. lia.
Qed.
End Frame.

Lemma buffered_is_emission xsize ysize gs : 0 < xsize -> 0 < ysize -> 0 < gs ->
  let gx := (xsize + gs - 1) / gs in let gy := (ysize + gs - 1) / gs in let dcx := (xsize + gs * 8 - 1) / (gs * 8) in let dcy := (ysize + gs * 8 - 1) / (gs * 8) in
  2 + dcx * dcy + 1 * (gx * gy) < 2 ^ 64 -> buffered_places xsize ysize gs = emission_order xsize ysize gs 1.
Proof.
  intros Hx Hy Hg gx gy dcx dcy Ht.
  assert (Pgx : 0 < gx) by now apply ceil_pos. assert (Pgy : 0 < gy) by now apply ceil_pos. assert (Pdx : 0 < dcx) by (apply ceil_pos; lia). assert (Pdy : 0 < dcy) by (apply ceil_pos; lia).
  pose proof (ceil_eight xsize gs Hx Hg) as E1. pose proof (ceil_eight ysize gs Hy Hg) as E2. cbv zeta in E1, E2. fold gx dcx in E1. fold gy dcy in E2.
  unfold buffered_places, emission_order. cbv zeta. fold gx gy dcx dcy. f_equal. f_equal. apply flat_map_ext_in. intros d Hd. apply in_range in Hd.
  pose proof (Z.mod_pos_bound d dcx Pdx) as M1. pose proof (Z.div_mod d dcx ltac:(lia)) as M2. assert (D0 : 0 <= d / dcx) by (apply Z.div_pos; lia). assert (D1 : d / dcx < dcy) by (apply Z.div_lt_upper_bound; lia).
  unfold patch_groups. cbv zeta. rewrite (patch_ceil xsize gs (d mod dcx)), (patch_ceil ysize gs (d / dcx)); fold gx; fold gy; try lia.
  f_equal. change (range 0 1) with [0]. cbn [flat_map]. rewrite app_nil_r. apply map_ext_in. intros j Hj. apply in_range in Hj. unfold absolute_ac_group. cbv zeta.
  set (dy := d / dcx) in *. set (dx := d mod dcx) in *. set (w := Z.min gx (dx * 8 + 8) - dx * 8) in *. set (h := Z.min gy (dy * 8 + 8) - dy * 8) in *. assert (Hw : 0 < w) by (unfold w; lia). assert (Hh : 0 < h) by (unfold h; lia).
  pose proof (Z.mod_pos_bound j w Hw) as J1. pose proof (Z.div_mod j w ltac:(lia)) as J2. assert (J0 : 0 <= j / w) by (apply Z.div_pos; lia). assert (J3 : j / w < h) by (apply Z.div_lt_upper_bound; lia).
  pose proof (cell_range gx gy (dx * 8 + j mod w) (dy * 8 + j / w) Pgx Pgy ltac:(lia) ltac:(lia)) as C.
  set (g := (dy * 8 + j / w) * gx) in *. set (a := dx * 8 + j mod w) in *. assert (G0 : 0 <= a + g) by (clear -C; lia). assert (N0 : 0 <= gx * gy) by (clear -Pgx Pgy; nia). assert (D2 : 0 <= dcx * dcy) by (clear -Pdx Pdy; nia).
  rewrite ac_index_id; [cbn [id_of_section]; clear; lia|clear; lia|exact G0|exact N0|exact D2|]. clearbody g a. clear -C Ht. clearbody gx gy dcx dcy. lia.
Qed.

(* ---- centre first ---- *)
Definition listing (a b : Z) (l : list Z) : Prop := NoDup l /\ forall v, In v l <-> a <= v < b.
Lemma nodup_app {A} (l1 l2 : list A) : NoDup l1 -> NoDup l2 -> (forall x, In x l1 -> ~ In x l2) -> NoDup (l1 ++ l2).
Proof.
  intros N1 N2 D. induction N1 as [|x l1 Hx N1 IH]; cbn [app]; [exact N2|]. constructor.
  - rewrite in_app_iff. intros [C|C]; [contradiction|]. exact (D x (or_introl eq_refl) C).
  - apply IH. intros y Hy. apply D. now right.
Qed.
Lemma listing_app a b c l1 l2 : a <= b <= c -> listing a b l1 -> listing b c l2 -> listing a c (l1 ++ l2).
Proof.
  intros H (N1 & I1) (N2 & I2). split.
  - apply nodup_app; [exact N1|exact N2|]. intros x Hx Hc. apply I1 in Hx. apply I2 in Hc. lia.
  - intros v. rewrite in_app_iff, I1, I2. lia.
Qed.
Lemma listing_shift n k p : is_permutation n p -> listing k (k + n) (map (fun v => k + v) p).
Proof.
  intros (L & N & I). split.
  - apply FinFun.Injective_map_NoDup; [intros x y H; lia|exact N].
  - intros v. rewrite in_map_iff. split; [intros (u & <- & Hu); apply I in Hu; lia|]. intros H. exists (v - k). split; [lia|]. apply I. lia.
Qed.
Lemma passes_listing n inv : is_permutation n inv -> forall np start, listing start (start + Z.of_nat np * n) (add_passes np start inv).
Proof.
  intros P. assert (L : zlen inv = n) by apply P. pose proof (zlen_nonneg inv) as Hn. rewrite L in Hn. induction np as [|np IH]; intros start; cbn [add_passes].
  - split; [constructor|]. intros v. cbn [In]. lia.
  - rewrite L. apply listing_app with (b := start + n); [nia|apply listing_shift; exact P|]. replace (start + Z.of_nat (S np) * n) with (start + n + Z.of_nat np * n) by lia. apply IH.
Qed.
Lemma znth_passes inv n : zlen inv = n -> forall np start p k, 0 <= p < Z.of_nat np -> 0 <= k < n ->
  znth (add_passes np start inv) (p * n + k) = option_map (fun v => start + p * n + v) (znth inv k).
Proof.
  intros L. induction np as [|np IH]; intros start p k Hp Hk; [lia|]. cbn [add_passes]. destruct (Z.eq_dec p 0) as [->|].
  - rewrite znth_app_l by (unfold zlen in *; rewrite map_length; lia). unfold znth. replace (0 * n + k) with k by lia. replace (k <? 0) with false by lia. rewrite nth_error_map. destruct (nth_error inv (Z.to_nat k)); [|reflexivity]. cbn [option_map]. f_equal. lia.
  - assert (Lm : zlen (map (fun v => start + v) inv) = n) by (unfold zlen in *; rewrite map_length; exact L).
    rewrite znth_app_r by nia. rewrite Lm, L. replace (p * n + k - n) with ((p - 1) * n + k) by lia. rewrite IH by lia. destruct (znth inv k); [|reflexivity]. cbn [option_map]. f_equal. lia.
Qed.
Lemma inverse_order_is order : is_permutation (zlen order) order -> exists inv, inverse_order order = Some inv /\ is_permutation (zlen order) inv /\ forall k v, znth order k = Some v -> znth inv v = Some k.
Proof.
  intros P. unfold inverse_order. destruct (fill_spec (zlen order) order (fun _ => 0) 0) as (ids & -> & F & _). { apply P. } { apply Forall_forall. intros v Hv. now apply P. }
  eexists. split; [reflexivity|]. split.
  - apply inverse_permutation with (p := order); [exact P|]. intros k j H. apply F in H. lia.
  - intros k v H. pose proof (F _ _ H) as E. rewrite Z.add_0_l in E. rewrite <- E. apply znth_map_iota. apply P. eapply znth_member; exact H.
Qed.

Theorem centerfirst_is ndc np order : is_permutation (zlen order) order -> 0 < zlen order ->
  exists perm, centerfirst_permutation ndc np order = Some perm /\ is_permutation (2 + Z.of_nat ndc + Z.of_nat np * zlen order) perm /\ fixes (2 + Z.of_nat ndc) perm /\
    forall p k g, 0 <= p < Z.of_nat np -> znth order k = Some g ->
      znth perm (id_of_section (zlen order) (Z.of_nat ndc) (AcGroup p g)) = Some (id_of_section (zlen order) (Z.of_nat ndc) (AcGroup p k)).
Proof.
  intros P Hpos. unfold centerfirst_permutation. destruct (inverse_order_is order P) as (inv & -> & Pi & Hi). eexists. split; [reflexivity|].
  pose proof (iota_permutation (ndc + 2)) as (Li & Ni & Ii). pose proof (passes_listing (zlen order) inv Pi np (Z.of_nat ndc + 2)) as Lp. assert (Hm : 0 <= Z.of_nat np * zlen order) by nia.
  assert (LL : listing 0 (2 + Z.of_nat ndc + Z.of_nat np * zlen order) (map Z.of_nat (seq 0 (ndc + 2)) ++ add_passes np (Z.of_nat ndc + 2) inv)).
  { replace (2 + Z.of_nat ndc) with (Z.of_nat ndc + 2) by lia. apply listing_app with (b := Z.of_nat ndc + 2); [lia| |exact Lp]. split; [exact Ni|]. intros v. rewrite Ii. lia. }
  split; [|split].
  - destruct LL as (N & I). split; [apply listing_length; [lia|exact N|exact I]|]. split; [exact N|exact I].
  - intros i Hr. rewrite znth_app_l by lia. apply znth_iota. lia.
  - intros p k g Hp Hk. pose proof (znth_some_inv _ _ _ Hk) as Bk. assert (Bg : 0 <= g < zlen order) by (apply P; eapply znth_member; exact Hk). cbn [id_of_section].
    rewrite znth_app_r by nia. rewrite Li. replace (2 + Z.of_nat ndc + p * zlen order + g - Z.of_nat (ndc + 2)) with (p * zlen order + g) by lia.
    rewrite (znth_passes inv (zlen order) (proj1 Pi)) by assumption. rewrite (Hi _ _ Hk). cbn [option_map]. f_equal. lia.
Qed.

(* ---- sections in numbered boxes ---- *)
Lemma position_znth n go i : go = [] \/ is_permutation n go -> 0 <= i < n -> (match go with [] => Some i | _ => znth go i end) = Some (position_of go i).
Proof. intros [->|H] Hi; [reflexivity|]. unfold position_of. destruct (permutation_in _ _ _ H Hi) as (j & E & _). destruct go; [apply permutation_nil in H; lia|]. now rewrite E. Qed.

Lemma sizes_loop_spec n go sizes : (go = [] \/ is_permutation n go) -> forall perm i out, 0 <= i -> i + zlen perm <= n -> Forall (fun p => 0 <= p < zlen sizes) perm ->
  exists out', codestream_sizes_loop n i perm go sizes out = Some out' /\
    (forall k p, znth perm k = Some p -> znth sizes p = Some (out' (position_of go (i + k)))) /\
    (forall c, (forall k, i <= k < i + zlen perm -> c <> position_of go k) -> out' c = out c).
Proof.
  intros Hg. induction perm as [|p perm IH]; intros i out Hi Hl F; cbn [codestream_sizes_loop].
  - exists out. split; [reflexivity|]. split; [|auto]. intros k q H. apply znth_some_inv in H. change (zlen (@nil Z)) with 0 in H. lia.
  - inversion F as [|a b F1 F2]; subst. rewrite zlen_cons in Hl. pose proof (zlen_nonneg perm). rewrite (position_znth n go i Hg) by lia. rewrite (znth_some sizes p 0 F1). pose proof (position_range n go i Hg ltac:(lia)) as Pr. rewrite (set_ok n out _ _ Pr).
    destruct (IH (i + 1) (fun j => if j =? position_of go i then nth (Z.to_nat p) sizes 0 else out j) ltac:(lia) ltac:(lia) F2) as (out' & E & P1 & P2). exists out'. split; [exact E|]. split.
    + intros k q H0. pose proof (znth_some_inv _ _ _ H0) as B. rewrite zlen_cons in B. unfold znth in H0. destruct (Z.ltb_spec k 0); [discriminate|]. destruct (Z.to_nat k) as [|k'] eqn:Ek; cbn [nth_error] in H0.
      * apply Some_eq in H0. subst q. replace (i + k) with i by lia. rewrite P2. { rewrite Z.eqb_refl. now apply znth_some. }
        intros k2 Hk2 C. apply (position_inj n go i k2 Hg) in C; lia.
      * replace (i + k) with (i + 1 + Z.of_nat k') by lia. apply P1. unfold znth. replace (Z.of_nat k' <? 0) with false by lia. now rewrite Nat2Z.id.
    + intros c Hc. rewrite P2. { destruct (Z.eqb_spec c (position_of go i)) as [->|]; [|reflexivity]. exfalso. apply (Hc i); [rewrite zlen_cons; lia|reflexivity]. }
      intros k Hk. apply Hc. rewrite zlen_cons. lia.
Qed.

(* secs: the sections in the order in which they are produced; permutation: where each section
   comes in that order *)
Theorem boxes_in_order permutation go (secs codes stored : list (list Z)) : is_permutation (zlen secs) permutation -> (go = [] \/ is_permutation (zlen secs) go) ->
  zlen codes = zlen secs -> (forall id k, znth permutation id = Some k -> znth codes id = znth secs k) -> permute_groups go codes = Some stored ->
  codestream_sizes permutation go (map zlen secs) = Some (map zlen stored) /\
  forall k s, znth secs k = Some s -> exists c, section_counter permutation go k = Some (c + 2) /\ znth stored c = Some s.
Proof.
  intros Pp Pg Lc Hc Es. rewrite <- Lc in Pg. destruct (permute_spec go codes Pg) as (st & E' & Ls & Ns). rewrite Es in E'. apply Some_eq in E'. subst st. rewrite Lc in Pg. pose proof Pp as (Lp & Np & Ip). split.
  - unfold codestream_sizes. destruct (sizes_loop_spec (zlen permutation) go (map zlen secs) ltac:(rewrite Lp; exact Pg) permutation 0 (fun _ => 0)) as (out & -> & P1 & _); [lia|lia| |].
    { apply Forall_forall. intros p Hp. apply Ip in Hp. unfold zlen in *. rewrite map_length. lia. }
    f_equal. apply nth_error_ext. intros i. destruct (Nat.lt_ge_cases i (length permutation)) as [L|L].
    2:{ rewrite !(proj2 (nth_error_None _ _)); [reflexivity| |]; rewrite map_length; [unfold zlen in *; lia|rewrite seq_length; exact L]. }
    pose proof (znth_map_iota out (length permutation) (Z.of_nat i) ltac:(lia)) as Z1. unfold znth in Z1. replace (Z.of_nat i <? 0) with false in Z1 by lia. rewrite Nat2Z.id in Z1. rewrite Z1. clear Z1.
    destruct (position_onto _ _ (Z.of_nat i) Pg) as (id & Hid & Eid). { unfold zlen in *. lia. }
    destruct (permutation_in _ _ id Pp Hid) as (k & Ek & Hk). specialize (P1 _ _ Ek). rewrite Z.add_0_l, Eid in P1. specialize (Ns id ltac:(lia)). rewrite (Hc _ _ Ek), Eid in Ns.
    unfold znth in Ns, P1. replace (Z.of_nat i <? 0) with false in Ns by lia. replace (k <? 0) with false in * by lia. rewrite nth_error_map in *. rewrite Nat2Z.id in Ns. rewrite Ns. symmetry. exact P1.
  - intros k s Hk. pose proof (znth_some_inv _ _ _ Hk) as Bk. destruct (permutation_onto _ _ k Pp Bk) as (id & Eid & Hid). exists (position_of go id). unfold section_counter.
    destruct (fill_spec (zlen permutation) permutation (fun _ => 0) 0) as (ids & -> & F & _); [exact Np| |]. { apply Forall_forall. intros v Hv. apply Ip in Hv. lia. }
    rewrite get_ok by lia. rewrite (F _ _ Eid), Z.add_0_l, (position_znth _ go id Pg Hid). split; [reflexivity|]. rewrite (Ns id ltac:(lia)), (Hc _ _ Eid). exact Hk.
Qed.
