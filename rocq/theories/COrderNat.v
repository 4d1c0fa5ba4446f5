(* The natural orders of all transforms, by computation. *)
From Coq Require Import FSets.FMapPositive.
From Verif Require Import Base Arr BitProg LehmerSpec COrderModel COrderSpec ListAux LzProofs AliasProofs AliasProofs CodesSafe TocLayout PermProofs HuffRle.
Ltac Zify.zify_post_hook ::= idtac.

Definition key (k : Z) : positive := Z.to_pos (k + 1).
Lemma key_inj a b : 0 <= a -> 0 <= b -> key a = key b -> a = b.
Proof. unfold key. intros Ha Hb E. apply (f_equal Z.pos) in E. rewrite !Z2Pos.id in E by lia. lia. Qed.

Definition fill_map (l : list (Z * Z)) (m : PositiveMap.t Z) : PositiveMap.t Z := fold_left (fun m p => PositiveMap.add (key (fst p)) (snd p) m) l m.
Definition look (m : PositiveMap.t Z) (k : Z) : Z := match PositiveMap.find (key k) m with Some v => v | None => -1 end.
Definition swapped (l : list (Z * Z)) : list (Z * Z) := map (fun p => (snd p, fst p)) l.

Lemma store_all_map size : forall l t0 t m, Forall (fun p => 0 <= fst p < size) l ->
  (forall k, 0 <= k -> t k = match PositiveMap.find (key k) m with Some v => v | None => t0 k end) ->
  exists f, store_all size t l = Some f /\ forall k, 0 <= k -> f k = match PositiveMap.find (key k) (fill_map l m) with Some v => v | None => t0 k end.
Proof.
  induction l as [|[i v] l IH]; intros t0 t m F H; cbn [store_all].
  - exists t. split; [reflexivity|exact H].
  - inversion F as [|? ? Fi Fl]; subst. cbn [fst] in Fi. rewrite set_ok by exact Fi. cbv beta iota. unfold fill_map. cbn [fold_left fst snd]. fold (fill_map l (PositiveMap.add (key i) v m)).
    apply IH; [exact Fl|]. intros k Hk. destruct (Z.eqb_spec k i) as [->|N].
    + now rewrite PositiveMap.gss.
    + rewrite PositiveMap.gso; [apply H, Hk|]. intros E. apply N. apply key_inj; [lia|lia|exact E].
Qed.

(* ---- the check of one shape ---- *)
Definition rank_of (cx cy pos : Z) : Z :=
  let w := 8 * cx in let x := pos mod w in let y := pos / w in let d := x + y * (cx / cy) in
  d * w + (if Z.even d then x else w - 1 - x).
Definition shape_ok (s : Z * Z) : bool :=
  let '(cx, cy) := s in
  let n := 64 * (cx * cy) in
  let l := cells cx cy in
  let m := fill_map l (PositiveMap.empty Z) in
  let u := fill_map (swapped l) (PositiveMap.empty Z) in
  let rg v := (0 <=? v) && (v <? n) in
  forallb (fun p => rg (fst p) && rg (snd p)) l &&
  forallb (fun k => rg (look m k) && (look u (look m k) =? k) && rg (look u k) && (look m (look u k) =? k)) (zseq 0 (Z.to_nat n)) &&
  forallb (fun k => look m k =? k / cx * (8 * cx) + k mod cx) (zseq 0 (Z.to_nat (cx * cy))) &&
  forallb (fun k => rank_of cx cy (look m k) <? rank_of cx cy (look m (k + 1))) (zseq (cx * cy) (Z.to_nat (63 * (cx * cy) - 1))).

Definition shapes : list (Z * Z) := [(1, 1); (2, 2); (4, 4); (2, 1); (4, 1); (4, 2); (8, 8); (8, 4); (16, 16); (16, 8); (32, 32); (32, 16)].
Lemma shapes_ok : forallb shape_ok shapes = true.
Proof. vm_cast_no_check (eq_refl true). Qed.

Definition pair_eqb (a b : Z * Z) : bool := (fst a =? fst b) && (snd a =? snd b).
Lemma transform_shape o : is_transform o -> In (columns o, rows o) shapes.
Proof.
  intros H. assert (G : forallb (fun o => existsb (pair_eqb (columns o, rows o)) shapes) (zseq 0 27) = true) by (vm_compute; reflexivity).
  pose proof (forallb_range _ _ _ G o ltac:(unfold is_transform in H; lia)) as E. apply existsb_exists in E. destruct E as ([a b] & I & E).
  unfold pair_eqb in E. cbn [fst snd] in E. replace (columns o, rows o) with (a, b); [exact I|]. f_equal; lia.
Qed.
Lemma llf_shape o : is_transform o -> llf o = columns o * rows o.
Proof. intros _. unfold llf, columns, rows. destruct (Z.max_spec (covx o) (covy o)) as [[? ->]|[? ->]]; destruct (Z.min_spec (covx o) (covy o)) as [[? ->]|[? ->]]; nia. Qed.
Lemma shape_range o : is_transform o -> 1 <= rows o <= 32 /\ rows o <= columns o <= 32 /\ 1 <= llf o <= 1024 /\ 64 <= area o <= 65536 /\ area o = 64 * llf o.
Proof.
  intros H. assert (G : forallb (fun o => (1 <=? rows o) && (rows o <=? 32) && (rows o <=? columns o) && (columns o <=? 32) && (1 <=? llf o) && (llf o <=? 1024)) (zseq 0 27) = true) by (vm_compute; reflexivity).
  pose proof (forallb_range _ _ _ G o ltac:(unfold is_transform in H; lia)) as E. unfold area. lia.
Qed.

(* the natural order, and its inverse *)
Definition nat_at (o k : Z) : Z := look (fill_map (cells (columns o) (rows o)) (PositiveMap.empty Z)) k.
Definition lut_at (o k : Z) : Z := look (fill_map (swapped (cells (columns o) (rows o))) (PositiveMap.empty Z)) k.

Lemma shape_facts o : is_transform o ->
  Forall (fun p => 0 <= fst p < area o /\ 0 <= snd p < area o) (cells (columns o) (rows o)) /\
  (forall k, 0 <= k < area o -> 0 <= nat_at o k < area o /\ lut_at o (nat_at o k) = k /\ 0 <= lut_at o k < area o /\ nat_at o (lut_at o k) = k) /\
  (forall k, 0 <= k < llf o -> nat_at o k = low_position o k) /\
  (forall k, llf o <= k -> k + 1 < area o -> zigzag_rank o (nat_at o k) < zigzag_rank o (nat_at o (k + 1))).
Proof.
  intros Ho. pose proof (transform_shape o Ho) as I. pose proof shapes_ok as G. rewrite forallb_forall in G. specialize (G _ I).
  unfold shape_ok in G. rewrite !andb_true_iff in G. destruct G as (((G1 & G2) & G3) & G4). pose proof (llf_shape o Ho) as EL. pose proof (shape_range o Ho) as SR.
  split; [|split; [|split]].
  - apply Forall_forall. intros p Hp. rewrite forallb_forall in G1. specialize (G1 p Hp). cbv beta in G1. unfold area. rewrite EL. lia.
  - intros k Hk. assert (K : 0 <= k < 0 + Z.of_nat (Z.to_nat (64 * (columns o * rows o)))) by (unfold area in Hk; rewrite EL in Hk; lia).
    pose proof (forallb_range _ _ _ G2 k K) as E. unfold nat_at, lut_at, area. rewrite EL. lia.
  - intros k Hk. assert (K : 0 <= k < 0 + Z.of_nat (Z.to_nat (columns o * rows o))) by lia.
    pose proof (forallb_range _ _ _ G3 k K) as E. cbv beta in E. apply Z.eqb_eq in E. exact E.
  - intros k Hk Hk2. assert (K : columns o * rows o <= k < columns o * rows o + Z.of_nat (Z.to_nat (63 * (columns o * rows o) - 1))) by (unfold area in *; lia).
    pose proof (forallb_range _ _ _ G4 k K) as E. cbv beta in E. apply Z.ltb_lt in E. exact E.
Qed.

Lemma natural_order_spec o t : is_transform o -> exists f, natural_order o t = Some f /\ forall k, 0 <= k < area o -> f k = nat_at o k.
Proof.
  intros Ho. destruct (shape_facts o Ho) as (F & G & _). unfold natural_order.
  destruct (store_all_map (area o) (cells (columns o) (rows o)) t t (PositiveMap.empty Z)) as (f & E & H).
  { eapply Forall_impl; [|exact F]. intros p (A & _). exact A. } { intros k _. now rewrite PositiveMap.gempty. }
  exists f. split; [exact E|]. intros k Hk. rewrite H by lia. destruct (G k Hk) as (R & _). unfold nat_at, look in *.
  destruct (PositiveMap.find (key k) _); [reflexivity|lia].
Qed.
Lemma natural_lut_spec o t : is_transform o -> exists f, natural_lut o t = Some f /\ forall k, 0 <= k < area o -> f k = lut_at o k.
Proof.
  intros Ho. destruct (shape_facts o Ho) as (F & G & _). unfold natural_lut. fold (swapped (cells (columns o) (rows o))).
  destruct (store_all_map (area o) (swapped (cells (columns o) (rows o))) t t (PositiveMap.empty Z)) as (f & E & H).
  { apply Forall_forall. intros p Hp. apply in_map_iff in Hp. destruct Hp as (q & <- & Hq). rewrite Forall_forall in F. specialize (F q Hq). cbn [fst]. tauto. }
  { intros k _. now rewrite PositiveMap.gempty. }
  exists f. split; [exact E|]. intros k Hk. rewrite H by lia. destruct (G k Hk) as (_ & _ & R & _). unfold lut_at, look in *.
  destruct (PositiveMap.find (key k) _); [reflexivity|lia].
Qed.

(* ---- lists ---- *)
Lemma zlen_zseq z n : zlen (zseq z n) = Z.of_nat n.
Proof. revert z. induction n as [|n IH]; intros z; [reflexivity|]. cbn [zseq]. rewrite zlen_cons, IH. lia. Qed.
Lemma znth_zseq n : forall z i, 0 <= i < Z.of_nat n -> znth (zseq z n) i = Some (z + i).
Proof.
  induction n as [|n IH]; intros z i Hi; [lia|]. cbn [zseq]. destruct (Z.eq_dec i 0) as [->|]; [cbn; f_equal; lia|].
  rewrite znth_cons by lia. rewrite IH by lia. f_equal. lia.
Qed.
Lemma znth_map_zseq {A} (f : Z -> A) z n i : 0 <= i < Z.of_nat n -> znth (map f (zseq z n)) i = Some (f (z + i)).
Proof. intros Hi. pose proof (znth_zseq n z i Hi) as E. unfold znth in *. destruct (i <? 0); [discriminate|]. now rewrite nth_error_map, E. Qed.
Lemma zlen_map {A B} (f : A -> B) l : zlen (map f l) = zlen l.
Proof. unfold zlen. now rewrite map_length. Qed.
Lemma zseq_inv n : forall z x, In x (zseq z n) -> z <= x < z + Z.of_nat n.
Proof. induction n as [|n IH]; intros z x H; cbn [zseq] in H; [destruct H|]. destruct H as [<-|H]; [lia|]. apply IH in H. lia. Qed.
Lemma nodup_zseq n : forall z, NoDup (zseq z n).
Proof. induction n as [|n IH]; intros z; cbn [zseq]; constructor; [|apply IH]. intros H. apply zseq_inv in H. lia. Qed.
Lemma map_ext_zseq {A} (f g : Z -> A) z n : (forall k, z <= k < z + Z.of_nat n -> f k = g k) -> map f (zseq z n) = map g (zseq z n).
Proof. intros H. apply map_ext_in. intros k Hk. apply H. now apply zseq_inv. Qed.

(* a bijection gives a permutation *)
Lemma bijection_permutation n (f g : Z -> Z) : 0 <= n -> (forall k, 0 <= k < n -> 0 <= f k < n /\ g (f k) = k /\ 0 <= g k < n /\ f (g k) = k) ->
  is_permutation n (map f (zseq 0 (Z.to_nat n))).
Proof.
  intros Hn H. split; [|split].
  - rewrite zlen_map, zlen_zseq. lia.
  - assert (G : forall l, (forall x, In x l -> 0 <= x < n) -> NoDup l -> NoDup (map f l)).
    { induction l as [|x l IH]; intros Hx Nd; cbn [map]; constructor.
      - intros I. apply in_map_iff in I. destruct I as (y & E & Iy). inversion Nd as [|? ? N _]; subst. apply N.
        destruct (H x (Hx x (or_introl eq_refl))) as (_ & E1 & _). destruct (H y (Hx y (or_intror Iy))) as (_ & E2 & _). now rewrite <- E1, <- E, E2.
      - inversion Nd; subst. apply IH; [|assumption]. intros y Hy. apply Hx. now right. }
    apply G; [|apply nodup_zseq]. intros x Hx. apply zseq_inv in Hx. lia.
  - intros v. rewrite in_map_iff. split.
    + intros (x & <- & Hx). apply zseq_inv in Hx. apply H. lia.
    + intros Hv. exists (g v). destruct (H v Hv) as (_ & _ & R & E). split; [exact E|]. apply in_zseq. lia.
Qed.

Definition natural_list (o : Z) : list Z := map (nat_at o) (zseq 0 (Z.to_nat (area o))).
Lemma natural_list_ok o : is_transform o -> is_natural o (natural_list o).
Proof.
  intros Ho. destruct (shape_facts o Ho) as (_ & G & L & R). pose proof (shape_range o Ho) as SR. split; [split|].
  - apply bijection_permutation with (g := lut_at o); [lia|exact G].
  - intros k Hk. unfold natural_list. rewrite znth_map_zseq by lia. f_equal. apply L. lia.
  - assert (Inc : forall d k, llf o <= k -> k + 1 + Z.of_nat d < area o -> zigzag_rank o (nat_at o k) < zigzag_rank o (nat_at o (k + 1 + Z.of_nat d))).
    { induction d as [|d IH]; intros k Hk Hd.
      - replace (k + 1 + Z.of_nat 0) with (k + 1) by lia. apply R; lia.
      - specialize (IH k Hk ltac:(lia)). pose proof (R (k + 1 + Z.of_nat d) ltac:(lia) ltac:(lia)) as E.
        replace (k + 1 + Z.of_nat (S d)) with (k + 1 + Z.of_nat d + 1) by lia. lia. }
    intros i j a b Hij Ha Hb. pose proof (znth_bound _ _ _ Hb) as B. unfold natural_list in *. rewrite zlen_map, zlen_zseq in B.
    rewrite znth_map_zseq in Ha, Hb by lia. apply Some_eq in Ha, Hb. subst a b. cbn [Z.add].
    specialize (Inc (Z.to_nat (j - i - 1)) i ltac:(lia) ltac:(lia)). replace (i + 1 + Z.of_nat (Z.to_nat (j - i - 1))) with j in Inc by lia. exact Inc.
Qed.

(* transforms that share their orders are alike *)
Lemma bucket_shape o o' : is_transform o -> is_transform o' -> bucket o = bucket o' -> columns o = columns o' /\ rows o = rows o' /\ llf o = llf o' /\ area o = area o'.
Proof.
  intros H H' E. assert (G : forallb (fun o => forallb (fun o' => negb (bucket o =? bucket o') || (columns o =? columns o') && (rows o =? rows o')) (zseq 0 27)) (zseq 0 27) = true) by (vm_compute; reflexivity).
  pose proof (forallb_range _ _ _ G o ltac:(unfold is_transform in H; lia)) as G1. cbv beta in G1.
  pose proof (forallb_range _ _ _ G1 o' ltac:(unfold is_transform in H'; lia)) as G2. cbv beta in G2.
  assert (C : columns o = columns o') by lia. assert (R : rows o = rows o') by lia. pose proof (llf_shape o H). pose proof (llf_shape o' H').
  assert (L : llf o = llf o') by congruence. unfold area. lia.
Qed.
Lemma natural_list_bucket o o' : is_transform o -> is_transform o' -> bucket o = bucket o' -> natural_list o = natural_list o'.
Proof. intros H H' E. destruct (bucket_shape o o' H H' E) as (C & R & _ & A). unfold natural_list, nat_at. now rewrite C, R, A. Qed.

(* ---- the places of the orders in the buffer ---- *)
Definition off_step_ok (o : Z) : bool :=
  forallb (fun c => (order_offset (bucket o) (c + 1) =? order_offset (bucket o) c + area o) && (0 <=? order_offset (bucket o) c) && (order_offset (bucket o) (c + 1) <=? max_orders)) (zseq 0 3).
Lemma region_place o c : is_transform o -> 0 <= c < 3 ->
  order_offset (bucket o) (c + 1) = order_offset (bucket o) c + area o /\ 0 <= order_offset (bucket o) c /\ order_offset (bucket o) c + area o <= max_orders.
Proof.
  intros H Hc. assert (G : forallb off_step_ok (zseq 0 27) = true) by (vm_compute; reflexivity).
  pose proof (forallb_range _ _ _ G o ltac:(unfold is_transform in H; lia)) as G1. unfold off_step_ok in G1.
  pose proof (forallb_range _ _ _ G1 c ltac:(lia)) as G2. cbv beta in G2. lia.
Qed.
Definition disjoint_ok (o c o' c' : Z) : bool :=
  ((bucket o =? bucket o') && (c =? c')) || (order_offset (bucket o) c + area o <=? order_offset (bucket o') c') || (order_offset (bucket o') c' + area o' <=? order_offset (bucket o) c).
Lemma regions_disjoint o c o' c' : is_transform o -> is_transform o' -> 0 <= c < 3 -> 0 <= c' < 3 -> bucket o <> bucket o' \/ c <> c' ->
  order_offset (bucket o) c + area o <= order_offset (bucket o') c' \/ order_offset (bucket o') c' + area o' <= order_offset (bucket o) c.
Proof.
  intros H H' Hc Hc' N. assert (G : forallb (fun o => forallb (fun c => forallb (fun o' => forallb (disjoint_ok o c o') (zseq 0 3)) (zseq 0 27)) (zseq 0 3)) (zseq 0 27) = true) by (vm_compute; reflexivity).
  pose proof (forallb_range _ _ _ G o ltac:(unfold is_transform in H; lia)) as G1. cbv beta in G1.
  pose proof (forallb_range _ _ _ G1 c ltac:(lia)) as G2. cbv beta in G2.
  pose proof (forallb_range _ _ _ G2 o' ltac:(unfold is_transform in H'; lia)) as G3. cbv beta in G3.
  pose proof (forallb_range _ _ _ G3 c' ltac:(lia)) as G4. unfold disjoint_ok in G4. lia.
Qed.
Lemma bucket_range o : is_transform o -> 0 <= bucket o < 13.
Proof.
  intros H. assert (G : forallb (fun o => (0 <=? bucket o) && (bucket o <? 13)) (zseq 0 27) = true) by (vm_compute; reflexivity).
  pose proof (forallb_range _ _ _ G o ltac:(unfold is_transform in H; lia)) as G1. cbv beta in G1. lia.
Qed.
