(* Orders of coefficients: the decoder. *)
From Verif Require Import Base HuffRle HuffSafe BitReaderModel BitProg BitProgProofs FieldsProofs HybridUintModel HybridUintProofs PermModel LehmerSpec LehmerProofs
  ListAux LzProofs AliasSpec AliasProofs AnsSpec AnsProofs AnsTop MtfSpec CodesSpec CodesSafe CodesRound CodesTop TocSpec PermProofs TocLayout COrderModel COrderSpec COrderNat.
Ltac Zify.zify_post_hook ::= idtac.

(* ---- programs over tokens ---- *)
Fixpoint tall {A} (p : tprog A) (Q : A -> Prop) : Prop :=
  match p with TRet a => Q a | TRead ctx k => forall v, 0 <= v -> tall (k v) Q end.
Lemma tall_weaken {A} (p : tprog A) (P Q : A -> Prop) : tall p P -> (forall a, P a -> Q a) -> tall p Q.
Proof. intros H W. induction p as [a|ctx k IH]; cbn [tall] in *; [auto|]. intros v Hv. apply IH, H, Hv. Qed.
Lemma tall_bind {A B} (p : tprog A) (f : A -> tprog B) P Q : tall p P -> (forall a, P a -> tall (f a) Q) -> tall (tbind p f) Q.
Proof. intros H W. induction p as [a|ctx k IH]; cbn [tall tbind] in *; [auto|]. intros v Hv. apply IH, H, Hv. Qed.
Lemma tall_of_runs {A} m (p : tprog A) (Q : A -> Prop) : contexts_below m p ->
  (forall vs a, Forall (fun v => 0 <= v) vs -> run_toks m p (unplaced vs) = Some (a, []) -> Q a) -> tall p Q.
Proof.
  induction 1 as [a|ctx k Hc _ IH]; intros H; cbn [tall].
  - apply (H []); [constructor|reflexivity].
  - intros v Hv. apply IH. intros vs a F R. apply (H (v :: vs)); [now constructor|]. cbn [unplaced map run_toks]. replace ((0 <=? ctx) && (ctx <? m) && true) with true by lia. exact R.
Qed.
Lemma tall_run {A} m (p : tprog A) (Q : A -> Prop) : tall p Q -> forall vs a l, Forall (fun v => 0 <= v) vs -> run_toks m p (unplaced vs) = Some (a, l) -> Q a.
Proof.
  induction p as [a|ctx k IH]; intros H vs b l F R; cbn [tall run_toks] in *.
  - injection R as <- _. exact H.
  - destruct vs as [|v vs]; [discriminate|]. cbn [unplaced map] in R. destruct (_ && _ && true); [|discriminate]. inversion F; subst. eapply IH; [apply H|..]; eauto.
Qed.
Lemma run_toks_app {A} m (p : tprog A) l' : forall l a r, run_toks m p l = Some (a, r) -> run_toks m p (l ++ l') = Some (a, r ++ l').
Proof.
  induction p as [a|ctx k IH]; intros l b r H; cbn [run_toks] in *.
  - injection H as <- <-. reflexivity.
  - destruct l as [|[c v] l]; [discriminate|]. cbn [app]. destruct (_ && _ && _); [|discriminate]. apply IH, H.
Qed.

(* ---- arrays ---- *)
Lemma gets_ok size t l : Forall (fun i => 0 <= i < size) l -> gets size t l = Some (map t l).
Proof. induction 1 as [|i l Hi _ IH]; cbn [gets map]; [reflexivity|]. now rewrite get_ok, IH by exact Hi. Qed.
Lemma store_ok size : forall l t off, 0 <= off -> off + zlen l <= size ->
  exists b, store size t off l = Some b /\ (forall i v, znth l i = Some v -> b (off + i) = v) /\ (forall j, j < off \/ off + zlen l <= j -> b j = t j).
Proof.
  induction l as [|v l IH]; intros t off Ho Hs; cbn [store].
  - exists t. split; [reflexivity|]. split; [|auto]. intros i v H. apply znth_bound in H. change (zlen (@nil Z)) with 0 in H. lia.
  - rewrite zlen_cons in Hs. pose proof (zlen_nonneg l). rewrite set_ok by lia. cbv beta iota.
    destruct (IH (fun j => if j =? off then v else t j) (off + 1) ltac:(lia) ltac:(lia)) as (b & E & Hi & Hj). exists b. split; [exact E|]. split.
    + intros i u Hu. destruct (Z.eq_dec i 0) as [->|].
      * change (znth (v :: l) 0) with (Some v) in Hu. apply Some_eq in Hu. rewrite Hj by lia. now replace (off + 0 =? off) with true by lia.
      * pose proof (znth_bound _ _ _ Hu). rewrite znth_cons in Hu by lia. apply Hi in Hu. rewrite <- Hu. f_equal. lia.
    + intros j Hjj. rewrite zlen_cons in Hjj. rewrite Hj by lia. now replace (j =? off) with false by lia.
Qed.
Lemma znth_ext {A} (l l' : list A) : zlen l = zlen l' -> (forall i, 0 <= i < zlen l -> znth l i = znth l' i) -> l = l'.
Proof.
  intros E H. apply nth_error_ext. intros i. destruct (Nat.lt_ge_cases i (length l)) as [C|C].
  - rewrite <- !znth_nat. apply H. unfold zlen. lia.
  - rewrite !(proj2 (nth_error_None _ _)); [reflexivity|unfold zlen in E; lia|lia].
Qed.

(* ---- the buffer of orders ---- *)
(* only the order of channel c for transform o is changed *)
Definition keeps (o c : Z) (t b : Z -> Z) : Prop := forall j, j < order_offset (bucket o) c \/ order_offset (bucket o) c + area o <= j -> b j = t j.
Lemma order_in_len buf o c : is_transform o -> zlen (order_in buf o c) = area o.
Proof. intros H. pose proof (shape_range o H). unfold order_in. rewrite zlen_map, zlen_zseq. lia. Qed.
Lemma znth_order_in buf o c i : is_transform o -> 0 <= i < area o -> znth (order_in buf o c) i = Some (buf (order_offset (bucket o) c + i)).
Proof. intros H Hi. unfold order_in. apply znth_map_zseq. lia. Qed.
Lemma store_order size t o c l : is_transform o -> 0 <= c < 3 -> order_offset (bucket o) c + area o <= size -> zlen l = area o ->
  exists b, store size t (order_offset (bucket o) c) l = Some b /\ order_in b o c = l /\ keeps o c t b.
Proof.
  intros Ho Hc Hs Hl. pose proof (region_place o c Ho Hc) as (_ & Hp & _). destruct (store_ok size l t (order_offset (bucket o) c) ltac:(lia) ltac:(lia)) as (b & E & Hi & Hj).
  exists b. split; [exact E|]. split; [|unfold keeps; rewrite <- Hl; exact Hj]. apply znth_ext; rewrite order_in_len by exact Ho; [lia|]. intros i Hr.
  rewrite znth_order_in by assumption. rewrite (znth_some l i 0) by lia. f_equal. apply Hi. apply znth_some. lia.
Qed.
Lemma order_in_bucket buf o o' c : is_transform o -> is_transform o' -> bucket o = bucket o' -> order_in buf o c = order_in buf o' c.
Proof. intros H H' E. destruct (bucket_shape o o' H H' E) as (_ & _ & _ & A). unfold order_in. now rewrite E, A. Qed.
Lemma keeps_other o c o' c' t b : is_transform o -> is_transform o' -> 0 <= c < 3 -> 0 <= c' < 3 -> bucket o <> bucket o' \/ c <> c' -> keeps o c t b -> order_in b o' c' = order_in t o' c'.
Proof.
  intros Ho Ho' Hc Hc' N K. apply map_ext_zseq. intros k Hk. pose proof (shape_range o' Ho'). apply K. destruct (regions_disjoint o c o' c' Ho Ho' Hc Hc' N); lia.
Qed.
Lemma valid_order_bucket o o' l : is_transform o -> is_transform o' -> bucket o = bucket o' -> valid_order o l -> valid_order o' l.
Proof.
  intros H H' E (P & L). destruct (bucket_shape o o' H H' E) as (C & R & Ll & A). unfold valid_order, low_position in *. rewrite <- A, <- Ll, <- C. auto.
Qed.
Definition changes (o : Z) (t b : Z -> Z) : Prop := forall o' c, is_transform o' -> 0 <= c < 3 -> bucket o <> bucket o' -> order_in b o' c = order_in t o' c.
Lemma store_three size t o l0 l1 l2 : is_transform o -> order_offset (bucket o) 3 <= size -> zlen l0 = area o -> zlen l1 = area o -> zlen l2 = area o ->
  exists b0 b1 b, store size t (order_offset (bucket o) 0) l0 = Some b0 /\ store size b0 (order_offset (bucket o) 1) l1 = Some b1 /\ store size b1 (order_offset (bucket o) 2) l2 = Some b /\
    order_in b o 0 = l0 /\ order_in b o 1 = l1 /\ order_in b o 2 = l2 /\ changes o t b.
Proof.
  intros Ho Hs E0 E1 E2. pose proof (region_place o 0 Ho ltac:(lia)) as (P0 & P0' & _). pose proof (region_place o 1 Ho ltac:(lia)) as (P1 & _). pose proof (region_place o 2 Ho ltac:(lia)) as (P2 & _).
  cbn [Z.add Pos.add Pos.succ] in *. pose proof (shape_range o Ho).
  change (0 + 1) with 1 in *. change (1 + 1) with 2 in *. change (2 + 1) with 3 in *.
  destruct (store_order size t o 0 l0 Ho ltac:(lia) ltac:(lia) E0) as (b0 & S0 & O0 & K0).
  destruct (store_order size b0 o 1 l1 Ho ltac:(lia) ltac:(lia) E1) as (b1 & S1 & O1 & K1).
  destruct (store_order size b1 o 2 l2 Ho ltac:(lia) ltac:(lia) E2) as (b & S2 & O2 & K2).
  exists b0, b1, b. split; [exact S0|]. split; [exact S1|]. split; [exact S2|].
  split. { rewrite (keeps_other o 2 o 0 b1 b) by (auto; lia). rewrite (keeps_other o 1 o 0 b0 b1) by (auto; lia). exact O0. }
  split. { rewrite (keeps_other o 2 o 1 b1 b) by (auto; lia). exact O1. }
  split; [exact O2|]. intros o' c Ho' Hc N. rewrite (keeps_other o 2 o' c b1 b) by (auto; lia). rewrite (keeps_other o 1 o' c b0 b1) by (auto; lia). apply (keeps_other o 0 o' c t b0); auto; lia.
Qed.

(* ---- masks ---- *)
Lemma has_set m b b' : 0 <= b -> 0 <= b' -> has (Z.lor m (Z.shiftl 1 b)) b' = has m b' || (b =? b').
Proof.
  intros Hb Hb'. unfold has. rewrite Z.lor_spec. f_equal. rewrite Z.shiftl_1_l. apply eq_true_iff_eq. rewrite Z.eqb_eq. split; intros H.
  - destruct (Z.eq_dec b b') as [|N]; [assumption|]. rewrite Z.pow2_bits_false in H by exact N. discriminate.
  - subst. now apply Z.pow2_bits_true.
Qed.
Lemma acs_mask_fold u : forall os m ord, Forall is_transform os -> 0 <= ord ->
  has (fold_left (fun m o => if has u o then Z.lor m (Z.shiftl 1 (bucket o)) else m) os m) ord = has m ord || existsb (fun o => has u o && (bucket o =? ord)) os.
Proof.
  induction os as [|o os IH]; intros m ord F Ho; cbn [fold_left existsb]; [now rewrite orb_false_r|]. inversion F as [|? ? Fo Fs]; subst. rewrite IH by auto.
  destruct (has u o); cbn [andb]; [|reflexivity]. pose proof (bucket_range o Fo). rewrite has_set by lia. now rewrite orb_assoc.
Qed.
Lemma strategies_all : Forall is_transform strategies.
Proof. apply Forall_forall. intros o H. apply zseq_inv in H. unfold is_transform. lia. Qed.
Lemma in_strategies o : is_transform o -> In o strategies.
Proof. intros H. unfold is_transform in H. apply in_zseq. lia. Qed.
Lemma acs_mask_spec u o : is_transform o -> has (acs_mask u) (bucket o) = true <-> in_use u o.
Proof.
  intros Ho. unfold acs_mask. pose proof (bucket_range o Ho). rewrite acs_mask_fold by (try apply strategies_all; lia). unfold has at 1. rewrite Z.bits_0. cbn [orb]. rewrite existsb_exists. split.
  - intros (o' & I & E). exists o'. apply andb_true_iff in E. destruct E as (E1 & E2). split; [eapply Forall_forall; [apply strategies_all|exact I]|]. split; [lia|exact E1].
  - intros (o' & Ho' & E & B). exists o'. split; [now apply in_strategies|]. unfold has. rewrite B, E. now rewrite Z.eqb_refl.
Qed.
Lemma orders_size_fold u : forall os m, fold_left (fun acc o => if has u o then Z.max (nth (Z.to_nat (3 * (bucket o + 1))) order_offsets 0 * 64) acc else acc) os m >= m /\
  forall o, In o os -> has u o = true -> fold_left (fun acc o => if has u o then Z.max (nth (Z.to_nat (3 * (bucket o + 1))) order_offsets 0 * 64) acc else acc) os m >= order_offset (bucket o) 3.
Proof.
  induction os as [|o os IH]; intros m; cbn [fold_left]; [split; [lia|intros ? []]|].
  match goal with |- context [fold_left ?f os ?m'] => destruct (IH m') as (A & B) end. split.
  - destruct (has u o); lia.
  - intros o' [->|I] Hu; [|now apply B]. rewrite Hu in A |- *. unfold order_offset. replace (3 * bucket o' + 3) with (3 * (bucket o' + 1)) by lia. lia.
Qed.
Lemma orders_size_enough u o : is_transform o -> in_use u o -> order_offset (bucket o) 3 <= orders_size u.
Proof.
  intros Ho (o' & Ho' & E & B). rewrite <- E. unfold orders_size. destruct (orders_size_fold u strategies 0) as (_ & H). specialize (H o' (in_strategies o' Ho') B). lia.
Qed.

(* ---- one order ---- *)
Lemma map_permutation n f g l : (forall k, 0 <= k < n -> 0 <= f k < n /\ g (f k) = k /\ 0 <= g k < n /\ f (g k) = k) -> is_permutation n l -> is_permutation n (map f l).
Proof.
  intros H (L & N & I). split; [now rewrite zlen_map|]. split.
  - assert (R : forall x, In x l -> 0 <= x < n) by (intros x Hx; now apply I). clear I L. induction N as [|x l Hn _ IH]; cbn [map]; constructor; [|apply IH; intros y Hy; apply R; now right].
    intros Hi. apply in_map_iff in Hi. destruct Hi as (y & E & Hy). apply Hn. destruct (H x (R x (or_introl eq_refl))) as (_ & Ex & _). destruct (H y (R y (or_intror Hy))) as (_ & Ey & _).
    rewrite <- Ex, <- E, Ey. exact Hy.
  - intros v. rewrite in_map_iff. split.
    + intros (x & <- & Hx). apply H. now apply I.
    + intros Hv. destruct (H v Hv) as (_ & _ & R & E). exists (g v). split; [exact E|]. now apply I.
Qed.
Lemma znth_map {A B} (f : A -> B) l i : znth (map f l) i = option_map f (znth l i).
Proof. unfold znth. destruct (i <? 0); [reflexivity|]. apply nth_error_map. Qed.

Lemma natural_of_permutation o natural p : is_transform o -> (forall k, 0 <= k < area o -> natural k = nat_at o k) -> is_permutation (area o) p -> fixes (llf o) p ->
  gets (area o) natural p = Some (map (nat_at o) p) /\ valid_order o (map (nat_at o) p).
Proof.
  intros Ho Hn Hp Hf. destruct (shape_facts o Ho) as (_ & G & L & _). assert (R : Forall (fun i => 0 <= i < area o) p). { apply Forall_forall. intros x Hx. now apply Hp. }
  split; [rewrite gets_ok by exact R; f_equal; apply map_ext_in; intros x Hx; apply Hn; now apply Hp|]. split.
  - apply map_permutation with (g := lut_at o); assumption.
  - intros k Hk. rewrite znth_map, (Hf k Hk). cbn [option_map]. now rewrite L.
Qed.
Lemma permutation_of_order o lut l : is_transform o -> (forall k, 0 <= k < area o -> lut k = lut_at o k) -> valid_order o l ->
  gets (area o) lut l = Some (map (lut_at o) l) /\ is_permutation (area o) (map (lut_at o) l) /\ fixes (llf o) (map (lut_at o) l) /\ map (nat_at o) (map (lut_at o) l) = l.
Proof.
  intros Ho Hn (Hp & Hl). destruct (shape_facts o Ho) as (_ & G & L & _). assert (R : Forall (fun i => 0 <= i < area o) l). { apply Forall_forall. intros x Hx. now apply Hp. }
  pose proof (shape_range o Ho). split; [|split; [|split]].
  - rewrite gets_ok by exact R. f_equal. apply map_ext_in. intros x Hx. apply Hn. now apply Hp.
  - apply map_permutation with (g := nat_at o); [|assumption]. intros k Hk. destruct (G k Hk) as (A & B & C & D). auto.
  - intros k Hk. rewrite znth_map, (Hl k Hk). cbn [option_map]. rewrite <- L by exact Hk. f_equal. apply G. lia.
  - rewrite map_map. rewrite <- (map_id l) at 2. apply map_ext_in. intros x Hx. apply G. now apply Hp.
Qed.

(* what is read, whatever the values *)
Lemma read_permutation_all skip size : 0 < size <= 2 ^ 30 -> 0 <= skip <= size ->
  tall (read_permutation skip size) (fun r => forall c, r = Some c -> exists p, finish_permutation size c = Some p /\ is_permutation size p /\ fixes skip p).
Proof.
  intros Hz Hs. apply (tall_of_runs 8); [apply permutation_contexts|]. intros vs a F R c ->.
  destruct (permutation_read 8 skip size vs c Hs ltac:(lia) F R) as (V & Z0).
  destruct (lehmer_surjective size c Hz V) as (p & Ed & Hp & Ec). exists p. unfold finish_permutation.
  replace (2 * size <? 2 ^ ceil_log2 size) with false. 2:{ symmetry. apply Z.ltb_ge. apply temp_enough. lia. }
  split; [exact Ed|]. split; [exact Hp|]. apply (fixes_zeros size p c skip ltac:(lia) Hp Ec); [lia|exact Z0].
Qed.

Definition natural_is (o : Z) (natural : Z -> Z) : Prop := forall k, 0 <= k < area o -> natural k = nat_at o k.

Lemma decode_order_all o c used natural bsize buf : is_transform o -> 0 <= c < 3 -> natural_is o natural -> (used = true -> order_offset (bucket o) c + area o <= bsize) ->
  tall (decode_order o used natural bsize (order_offset (bucket o) c) buf) (fun r => exists r', r = Some r' /\ forall b, r' = Some b ->
    keeps o c buf b /\ (used = true -> valid_order o (order_in b o c))).
Proof.
  intros Ho Hc Hn Hs. pose proof (shape_range o Ho) as SR. unfold decode_order. eapply tall_bind; [apply read_permutation_all; lia|].
  intros [lehmer|] H; [|exists None; split; [reflexivity|discriminate]]. destruct used.
  - cbn [tall]. destruct (H lehmer eq_refl) as (p & -> & Hp & Hf). destruct (natural_of_permutation o natural p Ho Hn Hp Hf) as (-> & V).
    destruct (store_order bsize buf o c (map (nat_at o) p) Ho Hc (Hs eq_refl)) as (b & -> & E & K). { rewrite zlen_map. apply Hp. }
    exists (Some b). split; [reflexivity|]. intros b' Eb. apply Some_eq in Eb. subst b'. split; [exact K|]. intros _. now rewrite E.
  - cbn [tall]. exists (Some buf). split; [reflexivity|]. intros b Eb. apply Some_eq in Eb. subst b. split; [intros j _; reflexivity|discriminate].
Qed.
Lemma tall_seq {A B} (p : tprog (option (option A))) (f : A -> tprog (option (option B))) (P : A -> Prop) (Q : B -> Prop) :
  tall p (fun r => exists r', r = Some r' /\ forall a, r' = Some a -> P a) -> (forall a, P a -> tall (f a) (fun r => exists r', r = Some r' /\ forall b, r' = Some b -> Q b)) ->
  tall (tseq p f) (fun r => exists r', r = Some r' /\ forall b, r' = Some b -> Q b).
Proof.
  intros H W. unfold tseq. eapply tall_bind; [exact H|]. intros r (r' & -> & Hr). destruct r' as [a|]; [apply W, Hr; reflexivity|]. exists None. split; [reflexivity|discriminate].
Qed.

(* ---- the loop, any values ---- *)
Definition loop_post (os : list Z) (used_orders mask computed : Z) (buf b : Z -> Z) : Prop :=
  (forall o c, is_transform o -> 0 <= c < 3 -> has computed (bucket o) = true -> order_in b o c = order_in buf o c) /\
  (forall o c, In o os -> 0 <= c < 3 -> has computed (bucket o) = false -> has mask (bucket o) = true ->
    valid_order o (order_in b o c) /\ (has used_orders (bucket o) = false -> order_in b o c = natural_list o)).

(* one step: the orders of a transform are set, then the rest of the loop follows *)
Lemma loop_post_step o os used_orders mask computed buf b1 b : is_transform o -> Forall is_transform os -> has computed (bucket o) = false ->
  changes o buf b1 ->
  (has mask (bucket o) = true -> forall c, 0 <= c < 3 -> valid_order o (order_in b1 o c) /\ (has used_orders (bucket o) = false -> order_in b1 o c = natural_list o)) ->
  loop_post os used_orders mask (Z.lor computed (Z.shiftl 1 (bucket o))) b1 b -> loop_post (o :: os) used_orders mask computed buf b.
Proof.
  intros Ho Fs Hc Hch Hv (K & N). pose proof (bucket_range o Ho) as Rb. split.
  - intros o' c Ho' Hr Hb. pose proof (bucket_range o' Ho'). rewrite K; [|assumption|assumption|rewrite has_set by lia; now rewrite Hb]. apply Hch; [assumption|assumption|congruence].
  - intros o' c Hi Hr Hb Hm. assert (Ho' : is_transform o') by (destruct Hi as [<-|Hi]; [exact Ho|rewrite Forall_forall in Fs; now apply Fs]).
    pose proof (bucket_range o' Ho'). destruct (Z.eq_dec (bucket o) (bucket o')) as [E|E].
    + rewrite (K o' c Ho' Hr) by (rewrite has_set by lia; replace (bucket o =? bucket o') with true by lia; apply orb_true_r).
      rewrite <- E in Hm. destruct (Hv Hm c Hr) as (V & Na). rewrite <- (order_in_bucket b1 o o' c Ho Ho' E). split; [now apply (valid_order_bucket o o')|].
      intros Hu. rewrite <- (natural_list_bucket o o' Ho Ho' E). apply Na. now rewrite E.
    + destruct Hi as [<-|Hi]; [congruence|]. apply N; [assumption|assumption| |assumption]. rewrite has_set by lia. rewrite Hb. replace (bucket o =? bucket o') with false by lia. reflexivity.
Qed.
Lemma loop_post_skip o os used_orders mask computed buf b : has computed (bucket o) = true -> loop_post os used_orders mask computed buf b -> loop_post (o :: os) used_orders mask computed buf b.
Proof. intros Hc (K & N). split; [exact K|]. intros o' c [<-|Hi]; [congruence|]. now apply N. Qed.

Lemma natural_gets o natural : is_transform o -> natural_is o natural -> gets (area o) natural (zseq 0 (Z.to_nat (area o))) = Some (natural_list o).
Proof.
  intros Ho Hn. rewrite gets_ok. - f_equal. apply map_ext_zseq. intros k Hk. apply Hn. lia. - apply Forall_forall. intros x Hx. apply zseq_inv in Hx. lia.
Qed.
Lemma natural_valid o : is_transform o -> valid_order o (natural_list o).
Proof. intros Ho. apply natural_list_ok, Ho. Qed.
Lemma natural_len o : is_transform o -> zlen (natural_list o) = area o.
Proof. intros Ho. apply (natural_valid o Ho). Qed.

Lemma decode_loop_all used_orders mask bsize : forall os computed nat0 buf, Forall is_transform os ->
  (forall o, is_transform o -> has mask (bucket o) = true -> order_offset (bucket o) 3 <= bsize) ->
  tall (decode_loop os used_orders mask computed nat0 bsize buf) (fun r => exists r', r = Some r' /\ forall b, r' = Some b -> loop_post os used_orders mask computed buf b).
Proof.
  induction os as [|o os IH]; intros computed nat0 buf F Hs; cbn [decode_loop].
  - cbn [tall]. exists (Some buf). split; [reflexivity|]. intros b E. apply Some_eq in E. subst b. split; [reflexivity|]. intros o c [].
  - inversion F as [|? ? Fo Fs]; subst. cbv zeta. destruct (has computed (bucket o)) eqn:Ec.
    { eapply tall_weaken; [apply IH; assumption|]. intros r (r' & -> & H). exists r'. split; [reflexivity|]. intros b Eb. apply loop_post_skip; [exact Ec|]. now apply H. }
    set (cp := Z.lor computed (Z.shiftl 1 (bucket o))).
    destruct (has mask (bucket o)) eqn:Em; cbn [orb]; [|destruct (has used_orders (bucket o)) eqn:Eu].
    + destruct (natural_order_spec o nat0 Fo) as (natural & -> & Hn). specialize (Hs o Fo Em) as Hz.
      destruct (has used_orders (bucket o)) eqn:Eu.
      * pose proof (shape_range o Fo). pose proof (region_place o 0 Fo ltac:(lia)) as (P0 & _). pose proof (region_place o 1 Fo ltac:(lia)) as (P1 & _). pose proof (region_place o 2 Fo ltac:(lia)) as (P2 & _).
        change (0 + 1) with 1 in *. change (1 + 1) with 2 in *. change (2 + 1) with 3 in *.
        eapply tall_seq; [apply (decode_order_all o 0 true natural bsize buf Fo ltac:(lia) Hn); lia|]. intros b0 (K0 & V0).
        eapply tall_seq; [apply (decode_order_all o 1 true natural bsize b0 Fo ltac:(lia) Hn); lia|]. intros b1 (K1 & V1).
        eapply tall_seq; [apply (decode_order_all o 2 true natural bsize b1 Fo ltac:(lia) Hn); lia|]. intros b2 (K2 & V2).
        eapply tall_weaken; [apply IH; assumption|]. intros r (r' & -> & H'). exists r'. split; [reflexivity|]. intros b Eb. apply loop_post_step with (b1 := b2); auto.
        -- intros o' c Ho' Hc N. rewrite (keeps_other o 2 o' c b1 b2) by (auto; lia). rewrite (keeps_other o 1 o' c b0 b1) by (auto; lia). apply (keeps_other o 0 o' c buf b0); auto; lia.
        -- intros _ c Hc. split; [|congruence]. assert (D : c = 0 \/ c = 1 \/ c = 2) by lia. destruct D as [->|[->| ->]].
           ++ rewrite (keeps_other o 2 o 0 b1 b2) by (auto; lia). rewrite (keeps_other o 1 o 0 b0 b1) by (auto; lia). auto.
           ++ rewrite (keeps_other o 2 o 1 b1 b2) by (auto; lia). auto.
           ++ auto.
      * rewrite (natural_gets o natural Fo Hn). pose proof (natural_len o Fo) as NL.
        destruct (store_three bsize buf o (natural_list o) (natural_list o) (natural_list o) Fo Hz NL NL NL) as (b0 & b1 & b2 & -> & -> & -> & O0 & O1 & O2 & Ch).
        eapply tall_weaken; [apply IH; assumption|]. intros r (r' & -> & H'). exists r'. split; [reflexivity|]. intros b Eb. apply loop_post_step with (b1 := b2); auto.
        intros _ c Hc. assert (E : order_in b2 o c = natural_list o). { assert (D : c = 0 \/ c = 1 \/ c = 2) by lia. destruct D as [->|[->| ->]]; assumption. }
        rewrite E. split; [now apply natural_valid|reflexivity].
    + destruct (natural_order_spec o nat0 Fo) as (natural & -> & Hn).
      eapply tall_seq; [apply (decode_order_all o 0 false natural bsize buf Fo ltac:(lia) Hn); discriminate|]. intros b0 (K0 & _).
      eapply tall_seq; [apply (decode_order_all o 1 false natural bsize b0 Fo ltac:(lia) Hn); discriminate|]. intros b1 (K1 & _).
      eapply tall_seq; [apply (decode_order_all o 2 false natural bsize b1 Fo ltac:(lia) Hn); discriminate|]. intros b2 (K2 & _).
      eapply tall_weaken; [apply IH; assumption|]. intros r (r' & -> & H'). exists r'. split; [reflexivity|]. intros b Eb. apply loop_post_step with (b1 := b2); auto; [|congruence].
      intros o' c Ho' Hc N. rewrite (keeps_other o 2 o' c b1 b2) by (auto; lia). rewrite (keeps_other o 1 o' c b0 b1) by (auto; lia). apply (keeps_other o 0 o' c buf b0); auto; lia.
    + eapply tall_weaken; [apply IH; assumption|]. intros r (r' & -> & H'). exists r'. split; [reflexivity|]. intros b Eb. apply loop_post_step with (b1 := buf); auto; [|congruence].
      intros o' c _ _ _. reflexivity.
Qed.

Lemma decode_order_contexts o used natural bsize off buf : contexts_below 8 (decode_order o used natural bsize off buf).
Proof. unfold decode_order. apply tbind_contexts; [apply permutation_contexts|]. intros [l|]; [destruct used|]; constructor. Qed.
Lemma seq_contexts {A B} m (p : tprog (option (option A))) (f : A -> tprog (option (option B))) : contexts_below m p -> (forall a, contexts_below m (f a)) -> contexts_below m (tseq p f).
Proof. intros H W. unfold tseq. apply tbind_contexts; [exact H|]. intros [[a|]|]; [apply W|constructor|constructor]. Qed.
Lemma decode_loop_contexts used_orders mask bsize : forall os computed nat0 buf, contexts_below 8 (decode_loop os used_orders mask computed nat0 bsize buf).
Proof.
  induction os as [|o os IH]; intros computed nat0 buf; cbn [decode_loop]; [constructor|]. cbv zeta. destruct (has computed (bucket o)); [apply IH|].
  destruct (if has mask (bucket o) || has used_orders (bucket o) then natural_order o nat0 else Some nat0) as [natural|]; [|constructor].
  destruct (has used_orders (bucket o)).
  - apply seq_contexts; [apply decode_order_contexts|]. intros b0. apply seq_contexts; [apply decode_order_contexts|]. intros b1. apply seq_contexts; [apply decode_order_contexts|]. intros b2. apply IH.
  - destruct (has mask (bucket o)); [|apply IH]. match goal with |- contexts_below _ (match ?x with _ => _ end) => destruct x as [b|] end; [apply IH|constructor].
Qed.
Lemma no_orders_no_reads mask bsize : forall os computed nat0 buf, exists r, decode_loop os 0 mask computed nat0 bsize buf = TRet r.
Proof.
  induction os as [|o os IH]; intros computed nat0 buf; cbn [decode_loop]; [eauto|]. cbv zeta. destruct (has computed (bucket o)); [apply IH|].
  destruct (if has mask (bucket o) || has 0 (bucket o) then natural_order o nat0 else Some nat0) as [natural|]; [|eauto].
  unfold has at 1. rewrite Z.bits_0. destruct (has mask (bucket o)); [|apply IH]. match goal with |- context [match ?x with _ => _ end] => destruct x as [b|] end; [apply IH|eauto].
Qed.

Lemma post_orders_ok used_orders used_acs buf b : loop_post strategies used_orders (acs_mask used_acs) 0 buf b -> orders_ok used_orders used_acs b.
Proof.
  intros (_ & N) o c Ho Hc Hu. destruct (N o c (in_strategies o Ho) Hc) as (V & Na); [unfold has; apply Z.bits_0|now apply acs_mask_spec|]. split; [exact V|].
  intros H. rewrite Na by exact H. now apply natural_list_ok.
Qed.

Theorem decode_orders_ends M used_orders used_acs nat0 buf : lane_count (m_lanes M) ->
  ends (decode_orders M used_orders used_acs nat0 buf) (fun r => exists o, r = Some o /\ forall b, o = Some b -> orders_ok used_orders used_acs b).
Proof.
  intros HL. assert (Hs : forall o, is_transform o -> has (acs_mask used_acs) (bucket o) = true -> order_offset (bucket o) 3 <= orders_size used_acs).
  { intros o Ho H. apply orders_size_enough; [exact Ho|]. now apply acs_mask_spec. }
  pose proof (decode_loop_all used_orders (acs_mask used_acs) (orders_size used_acs) strategies 0 nat0 buf strategies_all Hs) as TA.
  unfold decode_orders. cbv zeta. destruct (Z.eqb_spec used_orders 0) as [->|N0].
  - destruct (no_orders_no_reads (acs_mask used_acs) (orders_size used_acs) strategies 0 nat0 buf) as (r & E). rewrite E in *. cbn [tall] in TA.
    destruct TA as (r' & -> & H). apply ends_ret. exists r'. split; [reflexivity|]. intros b Eb. eapply post_orders_ok. now apply H.
  - apply ends_bind with (Q := code_or_error kPermutationContexts). { apply decode_histograms_ends; [exact HL|unfold kPermutationContexts; lia]. }
    intros r (o & -> & Ho). destruct o as [d|]. 2:{ apply ends_ret. exists None. split; [reflexivity|discriminate]. }
    destruct (Ho d eq_refl) as (Hm & _ & _ & _ & Hb & _ & Hw & _).
    intros s pos av Hpos Hav. rewrite run_bits_bind.
    pose proof (decode_loop_contexts used_orders (acs_mask used_acs) (orders_size used_acs) strategies 0 nat0 buf) as CB. revert TA CB.
    generalize (decode_loop strategies used_orders (acs_mask used_acs) 0 nat0 (orders_size used_acs) buf) as p. intros p TA CB.
    destruct (stream_within (below (max_num_bits d)) (d_code d) (d_map d) 0 p) with (s := s) (pos := pos) (av := av)
      as (a & r' & pos2 & av2 & vs & E2 & R & F & L2 & A2); auto.
    + split; [lia|]. apply Z.pow_pos_nonneg; lia.
    + lia.
    + apply (contexts_more 8); [rewrite Hm; destruct (lz_enabled (lz77 (d_code d))); unfold kPermutationContexts; cbn; lia|exact CB].
    + rewrite E2. assert (F0 : Forall (fun v => 0 <= v) vs) by (eapply Forall_impl; [|exact F]; intros v (Hv & _); exact Hv).
      destruct (tall_run _ _ _ TA vs a [] F0 R) as (x & -> & H). destruct x as [b|]; cbn [run_bits].
      * eexists _, pos2, av2. split; [reflexivity|]. split; [|split; [exact L2|exact A2]]. eexists. split; [reflexivity|]. intros b' Eb. destruct (check_final_state r'); [|discriminate]. apply Some_eq in Eb. subst b'.
        eapply post_orders_ok. now apply H.
      * eexists _, pos2, av2. split; [reflexivity|]. split; [|split; [exact L2|exact A2]]. exists None. split; [reflexivity|discriminate].
Qed.
