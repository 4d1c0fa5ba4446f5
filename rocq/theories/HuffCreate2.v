(* CreateHuffmanTree, the array of nodes. *)
From Coq Require Import Permutation.
From Verif Require Import Base ListAux Wrap HuffCreateModel HuffSpec HuffSort HuffRle HuffStored HuffSimple HuffCreate.
Ltac Zify.zify_post_hook ::= idtac.

Fixpoint enc (pool : Z -> hnode) (bound k : Z) (t : ht) : Prop :=
  0 <= k < bound /\
  match t with
  | Lf w v => pool k = Hnode w (-1) v
  | Nd a b => exists l r, pool k = Hnode (wt a + wt b) l r /\ 0 <= l /\ enc pool bound l a /\ enc pool bound r b
  end.
Fixpoint enc_list (pool : Z -> hnode) (bound k : Z) (q : list ht) : Prop :=
  match q with [] => True | t :: q' => enc pool bound k t /\ enc_list pool bound (k + 1) q' end.

Lemma enc_mono pool pool' b b' t : b <= b' -> (forall x, 0 <= x < b -> pool' x = pool x) -> forall k, enc pool b k t -> enc pool' b' k t.
Proof.
  intros Hb Hp. induction t as [w v|x IHx y IHy]; intros k; cbn [enc].
  - intros (R & E). split; [lia|]. rewrite Hp by lia. exact E.
  - intros (R & l & r & E & Hl & Ex & Ey). split; [lia|]. exists l, r. rewrite Hp by lia. auto.
Qed.
Lemma enc_list_mono pool pool' b b' q : b <= b' -> (forall x, 0 <= x < b -> pool' x = pool x) -> forall k, enc_list pool b k q -> enc_list pool' b' k q.
Proof. intros Hb Hp. induction q as [|t q IH]; intros k; cbn [enc_list]; [auto|]. intros (E & F). split; [eapply enc_mono; eauto|auto]. Qed.
Lemma enc_list_snoc pool b q t : forall k, enc_list pool b k q -> enc pool b (k + zlen q) t -> enc_list pool b k (q ++ [t]).
Proof.
  induction q as [|x q IH]; intros k; cbn [enc_list app]; [intros _ E; change (zlen (@nil ht)) with 0 in E; rewrite Z.add_0_r in E; auto|].
  intros (E & F) G. split; [exact E|]. apply IH; [exact F|]. rewrite zlen_cons in G. replace (k + 1 + zlen q) with (k + (1 + zlen q)) by lia. exact G.
Qed.
Lemma enc_total pool b k t : enc pool b k t -> total_count (pool k) = wt t.
Proof. destruct t; cbn [enc wt]; [intros (_ & ->); reflexivity|]. intros (_ & l & r & -> & _). reflexivity. Qed.

Definition big : Z := 2 ^ 32 - 1.
Definition sim (n size : Z) (pool : Z -> hnode) (i j : Z) (q : queues) : Prop :=
  size = j + zlen (snd q) + 1 /\ i + zlen (fst q) = n /\ 0 <= i /\ n + 1 <= j /\ pool n = sentinel /\ pool (size - 1) = sentinel /\
  enc_list pool (size - 1) i (fst q) /\ enc_list pool (size - 1) j (snd q) /\ Forall (fun t => 0 <= wt t < big) (items q).

Lemma next_sim n size pool i j q t q' : sim n size pool i j q -> apick q = Some (t, q') ->
  exists k i' j', next_node size pool i j = Some (k, i', j') /\ enc pool (size - 1) k t /\ sim n size pool i' j' q' /\ 0 <= wt t < big.
Proof.
  intros (S1 & S2 & S3 & S4 & S5 & S6 & EL & EP & W). destruct q as (lq & pq). cbn [fst snd] in *. unfold next_node.
  pose proof (zlen_nonneg lq). pose proof (zlen_nonneg pq). rewrite !get_ok by lia. unfold items in W. cbn [fst snd] in W. apply Forall_app in W as (WL & WP).
  assert (TL : forall l lq', lq = l :: lq' -> enc pool (size - 1) i l /\ enc_list pool (size - 1) (i + 1) lq' /\ total_count (pool i) = wt l /\ 0 <= wt l < big /\ Forall (fun t => 0 <= wt t < big) lq' /\ zlen lq = 1 + zlen lq').
  { intros l lq' ->. cbn [enc_list] in EL. destruct EL as (A & B). split; [exact A|]. split; [exact B|]. split; [eapply enc_total; eauto|]. pose proof (Forall_inv WL). cbv beta in *. split; [assumption|]. split; [now apply Forall_inv_tail in WL|apply zlen_cons]. }
  assert (TP : forall p pq', pq = p :: pq' -> enc pool (size - 1) j p /\ enc_list pool (size - 1) (j + 1) pq' /\ total_count (pool j) = wt p /\ 0 <= wt p < big /\ Forall (fun t => 0 <= wt t < big) pq' /\ zlen pq = 1 + zlen pq').
  { intros l lq' ->. cbn [enc_list] in EP. destruct EP as (A & B). split; [exact A|]. split; [exact B|]. split; [eapply enc_total; eauto|]. pose proof (Forall_inv WP). cbv beta in *. split; [assumption|]. split; [now apply Forall_inv_tail in WP|apply zlen_cons]. }
  assert (SL : lq = [] -> total_count (pool i) = big). { intros ->. change (zlen (@nil ht)) with 0 in S2. replace i with n by lia. rewrite S5. reflexivity. }
  assert (SP : pq = [] -> total_count (pool j) = big). { intros ->. change (zlen (@nil ht)) with 0 in S1. replace j with (size - 1) by lia. rewrite S6. reflexivity. }
  destruct lq as [|l lq]; destruct pq as [|p pq]; cbn [apick]; try discriminate.
  - destruct (TP p pq eq_refl) as (A & B & T & R & F & Hz). intros E. injection E as <- <-. rewrite (SL eq_refl), T. replace (big <=? wt p) with false by lia.
    exists j, i, (j + 1). split; [reflexivity|]. split; [exact A|]. split; [|exact R]. unfold sim, items. cbn [fst snd]. repeat (split; [first [lia|assumption]|]). assumption.
  - destruct (TL l lq eq_refl) as (A & B & T & R & F & Hz). intros E. injection E as <- <-. rewrite (SP eq_refl), T. replace (wt l <=? big) with true by lia.
    exists i, (i + 1), j. split; [reflexivity|]. split; [exact A|]. split; [|exact R]. unfold sim, items. cbn [fst snd]. repeat (split; [first [lia|assumption]|]). rewrite app_nil_r. assumption.
  - destruct (TL l lq eq_refl) as (A & B & T & R & F & Hz). destruct (TP p pq eq_refl) as (A' & B' & T' & R' & F' & Hz'). rewrite T, T'. destruct (wt l <=? wt p); intros E; injection E as <- <-.
    + exists i, (i + 1), j. split; [reflexivity|]. split; [exact A|]. split; [|exact R]. unfold sim, items. cbn [fst snd]. repeat (split; [first [lia|assumption]|]). apply Forall_app. split; assumption.
    + exists j, i, (j + 1). split; [reflexivity|]. split; [exact A'|]. split; [|exact R']. unfold sim, items. cbn [fst snd]. repeat (split; [first [lia|assumption]|]). apply (Forall_app _ (l :: lq)). split; assumption.
Qed.

Lemma s16_id x : - 2 ^ 15 <= x < 2 ^ 15 -> s16 x = x.
Proof. intros H. unfold s16. rewrite Z.mod_small; change (2 ^ 16) with 65536; change (2 ^ 15) with 32768 in *; lia. Qed.

Lemma total_cons t l : total (t :: l) = wt t + total l.
Proof. reflexivity. Qed.
Lemma total_nonneg l : Forall (fun t => 0 <= wt t < big) l -> 0 <= total l.
Proof. induction 1 as [|t l Ht _ IH]; [cbn; lia|]. rewrite total_cons. lia. Qed.

Lemma merge_sim k : forall n size pool i j q q', sim n size pool i j q -> total (items q) < big -> size + Z.of_nat k <= 2 ^ 15 + 1 -> aiter k q = Some q' ->
  exists pool' i' j', merge_nodes k size pool i j = Some (size + Z.of_nat k, pool') /\ sim n (size + Z.of_nat k) pool' i' j' q'.
Proof.
  induction k as [|k IH]; intros n size pool i j q q' Sm T Hs E; cbn [aiter merge_nodes] in *.
  - injection E as <-. rewrite Z.add_0_r. eauto.
  - destruct (astep q) as [q1|] eqn:E1; [|discriminate]. destruct (astep_kept _ _ E1) as (_ & Tk).
    unfold astep in E1. destruct (apick q) as [(a & qa)|] eqn:Ea; [|discriminate]. destruct (apick qa) as [(b & qb)|] eqn:Eb; [|discriminate]. injection E1 as <-.
    destruct (next_sim _ _ _ _ _ _ _ _ Sm Ea) as (kl & i1 & j1 & -> & Ka & Sa & Wa). destruct (next_sim _ _ _ _ _ _ _ _ Sa Eb) as (kr & i2 & j2 & -> & Kb & Sb & Wb).
    assert (Rl : 0 <= kl < size - 1) by (destruct a; apply Ka). assert (Rr : 0 <= kr < size - 1) by (destruct b; apply Kb).
    rewrite !get_ok by lia. rewrite set_ok by lia. rewrite (enc_total _ _ _ _ Ka), (enc_total _ _ _ _ Kb).
    assert (Wab : wt a + wt b < big).
    { pose proof Sb as (_ & _ & _ & _ & _ & _ & _ & _ & Fb). pose proof (total_nonneg _ Fb) as N. pose proof (total_perm _ _ (apick_perm _ _ _ Ea)) as Pa. pose proof (total_perm _ _ (apick_perm _ _ _ Eb)) as Pb. rewrite total_cons in Pa, Pb. lia. }
    replace (w32 (wt a + wt b)) with (wt a + wt b) by (unfold w32, big in *; symmetry; apply Z.mod_small; lia).
    rewrite !s16_id by lia.
    set (pool1 := fun x => if x =? size then sentinel else if x =? size - 1 then Hnode (wt a + wt b) kl kr else pool x).
    replace (size + Z.of_nat (S k)) with (size + 1 + Z.of_nat k) in * by lia.
    apply (IH n (size + 1) pool1 i2 j2 (fst qb, snd qb ++ [Nd a b]) q'); [| rewrite Tk; exact T | lia | exact E].
    destruct Sb as (S1 & S2 & S3 & S4 & S5 & S6 & EL & EP & W). pose proof (zlen_nonneg (snd qb)). pose proof (zlen_nonneg (fst qb)).
    assert (Agree : forall x, 0 <= x < size - 1 -> pool1 x = pool x) by (intros x Hx; unfold pool1; replace (x =? size) with false by lia; replace (x =? size - 1) with false by lia; reflexivity).
    unfold sim. cbn [fst snd]. rewrite zlen_app. change (zlen [Nd a b]) with 1. replace (size + 1 - 1) with size by lia.
    split; [lia|]. split; [lia|]. split; [lia|]. split; [lia|]. split; [rewrite Agree by lia; exact S5|]. split; [unfold pool1; rewrite Z.eqb_refl; reflexivity|].
    split; [apply (enc_list_mono pool pool1 (size - 1) size); [lia|exact Agree|exact EL]|]. split.
    + apply enc_list_snoc; [apply (enc_list_mono pool pool1 (size - 1) size); [lia|exact Agree|exact EP]|].
      replace (j2 + zlen (snd qb)) with (size - 1) by lia. cbn [enc]. split; [lia|]. exists kl, kr. split; [unfold pool1; replace (size - 1 =? size) with false by lia; rewrite Z.eqb_refl; reflexivity|].
      split; [lia|]. split; (eapply enc_mono; [|exact Agree|eassumption]; lia).
    + unfold items in *. cbn [fst snd]. rewrite app_assoc. apply Forall_app. split; [exact W|]. repeat constructor; cbn [wt]; lia.
Qed.

(* ---- SetDepth ---- *)

Definition assign (l : list (Z * Z)) (depth : Z -> Z) : Z -> Z := fold_left (fun d e x => if x =? fst e then snd e else d x) l depth.

Lemma assign_app l l' d : assign (l ++ l') d = assign l' (assign l d).
Proof. unfold assign. apply fold_left_app. Qed.

Lemma set_depth_ok size len pool t : forall fuel k depth level, enc pool (size - 1) k t -> height t <= Z.of_nat fuel -> Forall (fun e => 0 <= snd e < len) (tleaves t) ->
  0 <= level -> level + height t < 256 ->
  set_depth fuel size len pool (pool k) depth level = Some (assign (depths_of t level) depth).
Proof.
  induction t as [w v|a IHa b IHb]; intros fuel k depth level; cbn [enc height tleaves depths_of]; intros E Hf Fv Hl Hh.
  - destruct E as (R & ->). pose proof (Forall_inv Fv) as Hv. cbn [snd] in Hv. destruct fuel; cbn [set_depth index_left index_right_or_value]; change (0 <=? -1) with false; cbv iota; rewrite set_ok by lia; reflexivity.
  - destruct E as (R & l & r & -> & L0 & Ea & Eb). pose proof (height_nonneg a). pose proof (height_nonneg b). destruct fuel as [|fuel]; [lia|]. apply Forall_app in Fv as (Fa & Fb).
    cbn [set_depth index_left index_right_or_value]. replace (0 <=? l) with true by lia. assert (Rl : 0 <= l < size - 1) by (destruct a; apply Ea). assert (Rr : 0 <= r < size - 1) by (destruct b; apply Eb).
    rewrite !get_ok by lia. replace (w8 (level + 1)) with (level + 1) by (unfold w8; symmetry; apply Z.mod_small; change (2 ^ 8) with 256; lia).
    rewrite IHa; try assumption; try lia. rewrite IHb; try assumption; try lia. now rewrite assign_app.
Qed.

Lemma depths_values t : forall d, map fst (depths_of t d) = map snd (tleaves t).
Proof. induction t as [w v|a IHa b IHb]; intros d; [reflexivity|]. cbn [depths_of tleaves]. rewrite !map_app. now rewrite IHa, IHb. Qed.
Lemma depths_range t : forall d, Forall (fun e => d <= snd e <= d + height t) (depths_of t d).
Proof.
  induction t as [w v|a IHa b IHb]; intros d; cbn [depths_of height]; [repeat constructor; cbn; lia|]. pose proof (height_nonneg a). pose proof (height_nonneg b). apply Forall_app. split.
  - eapply Forall_impl; [|exact (IHa (d + 1))]. intros e He. cbv beta in *. lia.
  - eapply Forall_impl; [|exact (IHb (d + 1))]. intros e He. cbv beta in *. lia.
Qed.
Lemma depths_max t : forall d, exists e, In e (depths_of t d) /\ snd e = d + height t.
Proof.
  induction t as [w v|a IHa b IHb]; intros d; cbn [depths_of height]; [exists (v, d); cbn; split; [auto|lia]|].
  destruct (Z.max_spec (height a) (height b)) as [(_ & ->)|(_ & ->)]; [destruct (IHb (d + 1)) as (e & He & E)|destruct (IHa (d + 1)) as (e & He & E)]; exists e; (split; [apply in_or_app; auto|lia]).
Qed.
Lemma depths_kraft t : forall d, 0 <= d -> d + height t <= 15 -> zsum (map (fun e => 2 ^ (15 - snd e)) (depths_of t d)) = 2 ^ (15 - d).
Proof.
  induction t as [w v|a IHa b IHb]; intros d Hd Hh; cbn [depths_of height] in *; [cbn; lia|]. pose proof (height_nonneg a). pose proof (height_nonneg b).
  rewrite map_app. 
  rewrite zsum_app, IHa, IHb by lia. replace (15 - d) with ((15 - (d + 1)) + 1) by lia. rewrite Z.pow_add_r by lia. change (2 ^ 1) with 2. lia.
Qed.
Lemma depths_pos a b d : 0 <= d -> Forall (fun e => 0 < snd e) (depths_of (Nd a b) d).
Proof.
  intros Hd. cbn [depths_of]. apply Forall_app. split; (eapply Forall_impl; [|apply depths_range]; intros e He; cbv beta in *; lia).
Qed.

(* values of assign *)
Lemma assign_out l : forall d x, ~ In x (map fst l) -> assign l d x = d x.
Proof.
  induction l as [|e l IH]; intros d x H; [reflexivity|]. change (assign (e :: l) d) with (assign l (fun y => if y =? fst e then snd e else d y)). cbn [map] in H.
  rewrite IH by (intros G; apply H; now right). destruct (Z.eqb_spec x (fst e)) as [->|]; [exfalso; apply H; now left|reflexivity].
Qed.
Lemma assign_in l : forall d, NoDup (map fst l) -> forall e, In e l -> assign l d (fst e) = snd e.
Proof.
  induction l as [|e l IH]; intros d Hnd e' He; [destruct He|]. cbn [map] in Hnd. inversion Hnd as [|? ? Hx Hnd']; subst. change (assign (e :: l) d) with (assign l (fun y => if y =? fst e then snd e else d y)).
  destruct He as [->|He]; [|apply IH; assumption]. rewrite assign_out by exact Hx. now rewrite Z.eqb_refl.
Qed.

(* the sum over the array is the sum over the leaves *)
Lemma assign_sum (f : Z -> Z) n l : f 0 = 0 -> NoDup (map fst l) -> Forall (fun e => 0 <= fst e < Z.of_nat n) l ->
  zsum (map (fun i => f (assign l (fun _ => 0) i)) (zseq 0 n)) = zsum (map (fun e => f (snd e)) l).
Proof.
  intros F0. induction l as [|e l IH] using rev_ind.
  - intros _ _. cbn [map zsum fold_right]. assert (G : forall k, zsum (map (fun _ : Z => f 0) k) = 0). { intros k. induction k as [|x k IH]; [reflexivity|]. cbn [map zsum fold_right]. unfold zsum in IH. rewrite IH, F0. reflexivity. } exact (G (zseq 0 n)).
  - intros Hnd F. rewrite map_app in Hnd. cbn [map] in Hnd. apply Forall_app in F as (F & Fe). pose proof (Forall_inv Fe) as He. cbv beta in He.
    apply NoDup_remove in Hnd as (Hnd & Hout). rewrite app_nil_r in Hnd, Hout. specialize (IH Hnd F).
    assert (U : forall (g : Z -> Z) i v (k : list Z), NoDup k -> In i k -> zsum (map (fun j => f (if j =? i then v else g j)) k) = zsum (map (fun j => f (g j)) k) - f (g i) + f v).
    { clear. intros g i v. induction k as [|x k IHk]; intros Hnd Hin; [destruct Hin|]. inversion Hnd as [|? ? Hx Hnd']; subst. cbn [map zsum fold_right] in *. unfold zsum in IHk.
      destruct Hin as [->|Hin].
      - rewrite Z.eqb_refl. assert (E : map (fun j => f (if j =? i then v else g j)) k = map (fun j => f (g j)) k). { apply map_ext_in. intros j Hj. destruct (Z.eqb_spec j i) as [->|]; [contradiction|reflexivity]. } rewrite E. lia.
      - rewrite (IHk Hnd' Hin). destruct (Z.eqb_spec x i) as [->|]; [contradiction|lia]. }
    rewrite assign_app. change (assign [e] (assign l (fun _ => 0))) with (fun x => if x =? fst e then snd e else assign l (fun _ => 0) x).
    cbv beta. rewrite U; [|apply nodup_zseq|apply in_zseq; lia]. rewrite IH, (assign_out l _ (fst e) Hout), F0, map_app. cbn [map].
    
    rewrite zsum_app. cbn. lia.
Qed.

(* ---- the leaves ---- *)

Definition leaf_of (x : hnode) : ht := Lf (total_count x) (index_right_or_value x).

Lemma insert_perm x l : Permutation (insert_node x l) (x :: l).
Proof. induction l as [|y l IH]; [reflexivity|]. cbn [insert_node]. destruct (compare_nodes x y); [reflexivity|]. rewrite IH. apply perm_swap. Qed.
Lemma sort_perm l : Permutation (sort_nodes l) l.
Proof. induction l as [|x l IH]; [reflexivity|]. cbn [sort_nodes fold_right]. fold (sort_nodes l). rewrite insert_perm. now constructor. Qed.

Lemma insert_ascending x l : ascending (map leaf_of l) -> ascending (map leaf_of (insert_node x l)).
Proof.
  induction l as [|y l IH]; cbn [insert_node map ascending]; [auto|]. intros (H1 & H2). destruct (compare_nodes x y) eqn:C.
  - assert (Le : total_count x <= total_count y) by (unfold compare_nodes in C; destruct (Z.eqb_spec (total_count x) (total_count y)); lia).
    cbn [map ascending]. split; [|auto]. constructor; [cbn; exact Le|]. eapply Forall_impl; [|exact H1]. intros t Ht. cbv beta in *. cbn [wt leaf_of] in *. lia.
  - assert (Le : total_count y <= total_count x) by (unfold compare_nodes in C; destruct (Z.eqb_spec (total_count x) (total_count y)); lia).
    cbn [map ascending]. split; [|auto]. apply (Permutation_Forall (Permutation_map leaf_of (Permutation_sym (insert_perm x l)))). cbn [map]. constructor; [exact Le|exact H1].
Qed.
Lemma sort_ascending l : ascending (map leaf_of (sort_nodes l)).
Proof. induction l as [|x l IH]; [exact I|]. cbn [sort_nodes fold_right]. fold (sort_nodes l). now apply insert_ascending. Qed.

Definition leaf_ok (x : hnode) : Prop := index_left x = -1 /\ 1 <= total_count x.

Lemma enc_leaves bound (l : list hnode) (pool : Z -> hnode) : Forall leaf_ok l -> forall k, 0 <= k -> k + zlen l <= bound ->
  (forall i, 0 <= i < zlen l -> pool (k + i) = nth (Z.to_nat i) l sentinel) -> enc_list pool bound k (map leaf_of l).
Proof.
  induction 1 as [|x l (H1 & H2) _ IH]; intros k Hk Hb Hp; [exact I|]. rewrite zlen_cons in *. pose proof (zlen_nonneg l). cbn [map enc_list leaf_of enc]. split.
  - split; [lia|]. specialize (Hp 0 ltac:(lia)). rewrite Z.add_0_r in Hp. rewrite Hp. cbn [Z.to_nat nth]. destruct x as [w i v]. cbn in *. now subst.
  - apply IH; [lia|lia|]. intros i Hi. replace (k + 1 + i) with (k + (1 + i)) by lia. rewrite Hp by lia. replace (Z.to_nat (1 + i)) with (S (Z.to_nat i)) by lia. reflexivity.
Qed.

(* one pass: at least two leaves *)
Definition weights (nodes : list hnode) : Z := zsum (map total_count nodes).

Lemma weights_perm l l' : Permutation l l' -> weights l = weights l'.
Proof. unfold weights. induction 1; cbn [map zsum fold_right] in *; unfold zsum in *; lia. Qed.
Lemma total_leaves l : total (map leaf_of l) = weights l.
Proof. unfold total, weights. rewrite map_map. reflexivity. Qed.

Theorem one_tree_ok data depth nodes : 2 <= zlen nodes <= 2 ^ 14 -> Forall leaf_ok nodes -> Forall (fun x => 0 <= index_right_or_value x < zlen data) nodes -> weights nodes < big ->
  exists a b, let t := Nd a b in
    one_tree data depth nodes = Some (assign (depths_of t 0) depth) /\ fair t /\ height t < 256 /\ wt t = weights nodes /\
    Permutation (map snd (tleaves t)) (map index_right_or_value nodes) /\
    (forall u, 0 < u -> Forall (fun x => total_count x = u) nodes -> forall lim, 0 <= lim -> zlen nodes <= 2 ^ lim -> height t <= lim).
Proof.
  intros Hn Fl Fr Hw. set (n := zlen nodes) in *. set (sorted := sort_nodes nodes). pose proof (sort_perm nodes) as Ps. fold sorted in Ps.
  assert (Hls : zlen sorted = n) by (unfold zlen, n; now rewrite (Permutation_length Ps)).
  assert (Fs : Forall leaf_ok sorted) by (apply (Permutation_Forall (Permutation_sym Ps)); exact Fl).
  set (q0 := (map leaf_of sorted, @nil ht) : queues).
  assert (Hi0 : items q0 = map leaf_of sorted) by (unfold items, q0; cbn; apply app_nil_r).
  assert (Hw0 : total (items q0) = weights nodes).
  { rewrite Hi0, <- total_leaves. apply total_perm. apply Permutation_map. exact Ps. }
  assert (Wt : forall x, In x sorted -> 1 <= total_count x <= weights nodes).
  { intros x Hx. apply (Permutation_in _ Ps) in Hx. clear -Hx Fl. unfold weights. induction Fl as [|y l (_ & Hy) F IH]; [destruct Hx|]. cbn [map zsum fold_right]. fold (zsum (map total_count l)).
    assert (N : 0 <= zsum (map total_count l)). { clear -F. induction F as [|z l (_ & Hz) _ IH]; [cbn; lia|]. cbn [map zsum fold_right]. unfold zsum in IH. lia. }
    destruct Hx as [->|Hx]; [lia|]. specialize (IH Hx). unfold zsum in *. lia. }
  assert (Sm : sim n (n + 2) (fun i => nth (Z.to_nat i) sorted sentinel) 0 (n + 1) q0).
  { unfold sim, q0, items. cbn [fst snd]. change (zlen (@nil ht)) with 0. split; [lia|]. split; [unfold zlen in *; rewrite map_length; lia|]. split; [lia|]. split; [lia|].
    assert (Over : forall x, n <= x -> nth (Z.to_nat x) sorted sentinel = sentinel) by (intros x Hx; apply nth_overflow; unfold zlen in Hls; lia).
    split; [apply Over; lia|]. split; [apply Over; lia|]. split; [apply enc_leaves; [exact Fs|lia|lia|]; intros i Hi; reflexivity|]. split; [exact I|].
    rewrite app_nil_r. apply Forall_forall. intros t Ht. apply in_map_iff in Ht as (x & <- & Hx). cbn [wt leaf_of]. specialize (Wt x Hx). lia. }
  assert (Hlen : length (items q0) = S (Z.to_nat (n - 1))) by (rewrite Hi0, map_length; unfold zlen in Hls; lia).
  destruct (aiter_total (Z.to_nat (n - 1)) q0 Hlen) as (t & [Et|(E0 & _)]); [|lia].
  assert (Q0 : qinv 0 0 q0).
  { unfold qinv. rewrite Hi0. unfold q0. cbn [fst snd]. split; [apply sort_ascending|]. split; [exact I|]. split; [|split; [constructor|lia]].
    apply Forall_forall. intros x Hx. apply in_map_iff in Hx as (y & <- & Hy). specialize (Wt y Hy). cbn [fair wt mx leaf_of]. lia. }
  destruct (aiter_inv _ _ _ _ _ Q0 Et) as (M & L & (_ & _ & Ff & _)). cbn [items fst snd app] in Ff. pose proof (Forall_inv Ff) as (Ffair & _).
  destruct (aiter_kept _ _ _ Et) as (Pl & Tt). cbn [items fst snd app] in Pl, Tt. rewrite Hw0 in Tt. cbn in Tt. rewrite Z.add_0_r in Tt.
  assert (Pv : Permutation (map snd (tleaves t)) (map index_right_or_value nodes)).
  { rewrite Hi0 in Pl. unfold all_leaves in Pl. cbn [flat_map] in Pl. rewrite app_nil_r in Pl. rewrite <- Pl.
    assert (E : flat_map tleaves (map leaf_of sorted) = map (fun x => (total_count x, index_right_or_value x)) sorted). { clear. induction sorted as [|x l IH]; [reflexivity|]. cbn. now rewrite IH. }
    rewrite E, map_map. cbn [snd]. apply Permutation_map. exact Ps. }
  assert (Hh : height t < 256) by (apply fair_height; [exact Ffair|unfold big in Hw; lia]).
  destruct (merge_sim (Z.to_nat (n - 1)) n (n + 2) _ 0 (n + 1) q0 _ Sm ltac:(lia) ltac:(change (2 ^ 14) with 16384 in Hn; change (2 ^ 15) with 32768; lia) Et) as (pool' & i' & j' & Em & Sf).
  replace (n + 2 + Z.of_nat (Z.to_nat (n - 1))) with (2 * n + 1) in * by lia.
  destruct Sf as (S1 & _ & _ & _ & _ & _ & _ & EP & _). cbn [snd] in S1, EP. change (zlen [t]) with 1 in S1. replace j' with (2 * n - 1) in EP by lia. cbn [enc_list] in EP. destruct EP as (EP & _).
  assert (Hleaf : length (tleaves t) = length nodes) by (rewrite <- (map_length snd (tleaves t)), (Permutation_length Pv), map_length; reflexivity).
  assert (Hhl : forall t, height t < Z.of_nat (length (tleaves t))).
  { clear. induction t as [w v|a IHa b IHb]; cbn [height tleaves]; [cbn; lia|]. rewrite app_length.
    assert (P : forall t, (1 <= length (tleaves t))%nat) by (clear; induction t; cbn [tleaves]; [cbn; lia|rewrite app_length; lia]). pose proof (P a). pose proof (P b). lia. }
  destruct t as [w v|a b]; [cbn in Hleaf; unfold n, zlen in Hn; lia|]. exists a, b. cbv zeta.
  split. { unfold one_tree. fold n. replace (n =? 0) with false by lia. fold sorted. rewrite Em. rewrite get_ok by lia.
    apply set_depth_ok; [exact EP|rewrite <- Hleaf; specialize (Hhl (Nd a b)); lia| |lia|lia].
    apply Forall_forall. intros e He. assert (Hin : In (snd e) (map index_right_or_value nodes)) by (apply (Permutation_in _ Pv), in_map, He).
    apply in_map_iff in Hin as (x & <- & Hx). exact (proj1 (Forall_forall _ _) Fr x Hx). }
  split; [exact Ffair|]. split; [exact Hh|]. split; [exact Tt|]. split; [exact Pv|].
  intros u Hu Fu lim Hlim Hnl. apply (equal_height u Hu (Nd a b) n lim).
  - apply (aiter_einv u Hu (Z.to_nat (n - 1)) 0 0 q0 ([], [Nd a b]) Q0); [|exact Et]. split; [apply sort_ascending|]. split; [exact I|]. exists 0. split; [lia|]. rewrite Hi0.
    assert (Wu : forall x, In x sorted -> total_count x = u) by (intros x Hx; apply (Permutation_in _ Ps) in Hx; exact (proj1 (Forall_forall _ _) Fu x Hx)).
    split.
    + apply Forall_forall. intros y Hy. apply in_map_iff in Hy as (x & <- & Hx). left. cbn [wt height leaf_of]. rewrite (Wu x Hx). change (2 ^ 0) with 1. lia.
    + rewrite none_mids; [lia|]. apply Forall_forall. intros y Hy. apply in_map_iff in Hy as (x & <- & Hx). unfold is_mid. cbn [wt leaf_of]. rewrite (Wu x Hx). change (2 ^ 0) with 1. lia.
  - rewrite Tt. unfold weights, n, zlen. clear -Fu. induction Fu as [|x l Hx _ IH]; [cbn; lia|]. cbn [map zsum fold_right length]. unfold zsum in IH. rewrite IH, Hx. lia.
  - lia.
  - exact Hlim.
Qed.

(* ---- the loop ---- *)

Lemma leaf_nodes_from data cl k : flat_map (fun e => if snd e =? 0 then [] else [Hnode (Z.max (snd e) (w32 (cl - 1))) (-1) (s16 (fst e))]) (combine (zseq k (length data)) data) =
  map (fun s => Hnode (Z.max (nth (Z.to_nat (s - k)) data 0) (w32 (cl - 1))) (-1) (s16 s)) (used_from k data).
Proof.
  revert k. induction data as [|x data IH]; intros k; [reflexivity|]. rewrite used_cons. cbn [length zseq combine flat_map fst snd]. rewrite IH. unfold nz.
  assert (E : map (fun s => Hnode (Z.max (nth (Z.to_nat (s - (k + 1))) data 0) (w32 (cl - 1))) (-1) (s16 s)) (used_from (k + 1) data) =
              map (fun s => Hnode (Z.max (nth (Z.to_nat (s - k)) (x :: data) 0) (w32 (cl - 1))) (-1) (s16 s)) (used_from (k + 1) data)).
  { apply map_ext_in. intros s Hs. unfold used_from in Hs. apply in_map_iff in Hs as ((s' & y) & <- & Hy). apply filter_In in Hy as (Hy & _). apply in_combine_l in Hy. apply zseq_in in Hy. cbn [fst].
    replace (Z.to_nat (s' - k)) with (S (Z.to_nat (s' - (k + 1)))) by lia. reflexivity. }
  rewrite E. destruct (x =? 0); cbn [negb app map]; [reflexivity|]. rewrite Z.sub_diag. reflexivity.
Qed.

Lemma leaf_nodes_perm data cl : Permutation (leaf_nodes data cl) (map (fun s => Hnode (Z.max (nth (Z.to_nat s) data 0) (w32 (cl - 1))) (-1) (s16 s)) (used_of data)).
Proof.
  unfold leaf_nodes. rewrite (Permutation_flat_map _ (Permutation_sym (Permutation_rev _))). rewrite leaf_nodes_from. fold (used_of data).
  erewrite map_ext; [reflexivity|]. intros s. cbv beta. now rewrite Z.sub_0_r.
Qed.

Lemma used_in data s : In s (used_of data) <-> 0 <= s < zlen data /\ nth (Z.to_nat s) data 0 <> 0.
Proof.
  split.
  - intros H. apply (In_nth _ _ 0) in H as (i & Hi & E). unfold used_of in *. rewrite used_length in Hi. destruct (used_nth data 0 i Hi) as (s' & E' & R & Z1 & _). rewrite E' in E. replace s with s' by lia. split; [exact R|].
    rewrite (znth_some data s' 0) in Z1 by exact R. injection Z1 as ->. assert (Hin : In (nth i (filter nz data) 0) (filter nz data)) by (apply nth_In; exact Hi). apply filter_In in Hin as (_ & Hin). intros G. rewrite G in Hin. discriminate.
  - intros (R & N). assert (G : forall k (ls : list Z) s, 0 <= s < zlen ls -> nth (Z.to_nat s) ls 0 <> 0 -> In (k + s) (used_from k ls)).
    { clear. intros k ls. revert k. induction ls as [|x ls IH]; intros k s R N; [change (zlen (@nil Z)) with 0 in R; lia|]. rewrite used_cons. rewrite zlen_cons in R. apply in_or_app. destruct (Z.eq_dec s 0) as [->|Ns].
      - left. cbn [Z.to_nat nth] in N. unfold nz. replace (x =? 0) with false by lia. cbn. lia.
      - right. replace (Z.to_nat s) with (S (Z.to_nat (s - 1))) in N by lia. cbn [nth] in N. replace (k + s) with (k + 1 + (s - 1)) by lia. apply IH; [lia|exact N]. }
    exact (G 0 data s R N).
Qed.
Lemma used_nodup data : NoDup (used_of data).
Proof.
  unfold used_of, used_from. assert (G : forall (l : list (Z * Z)), NoDup (map fst l) -> NoDup (map fst (filter (fun e => nz (snd e)) l))).
  { clear. induction l as [|e l IH]; intros H; [constructor|]. cbn [map filter] in *. inversion H as [|? ? Hx Hn]; subst. destruct (nz (snd e)); [|auto]. cbn [map]. constructor; [|auto].
    intros Hin. apply Hx. apply in_map_iff in Hin as (y & Ey & Hy). apply filter_In in Hy as (Hy & _). rewrite <- Ey. now apply in_map. }
  apply G. assert (E : forall (l : list Z) k, map fst (combine (zseq k (length l)) l) = zseq k (length l)) by (clear; induction l; intros k; cbn; [reflexivity|now rewrite IHl]). rewrite E. apply nodup_zseq.
Qed.

(* what CreateHuffmanTree is used for *)
Definition code_for (data : list Z) (limit : Z) (depths : list Z) : Prop :=
  zlen depths = zlen data /\ Forall (fun l => 0 <= l <= limit) depths /\
  (forall s l c, znth depths s = Some l -> znth data s = Some c -> (0 < l <-> 0 < c)).

Section Create.
Variables (data : list Z) (B limit : Z).
Hypothesis Hdata : Forall (fun c => 0 <= c <= B) data.
Hypothesis Hlen : zlen data <= 2 ^ 15.
Let n := zlen (used_of data).
Hypothesis Hn : 2 <= n <= 2 ^ 14.
Hypothesis Hlim : 1 <= limit <= 15 /\ n <= 2 ^ limit.
Hypothesis HB : n * (2 * B) < big.

Lemma nodes_facts cl : 1 <= cl <= 2 * B \/ cl = 1 -> let nodes := leaf_nodes data cl in
  zlen nodes = n /\ Forall leaf_ok nodes /\ Forall (fun x => 0 <= index_right_or_value x < zlen data) nodes /\ weights nodes < big /\
  Permutation (map index_right_or_value nodes) (used_of data) /\ (B <= cl - 1 -> Forall (fun x => total_count x = cl - 1) nodes).
Proof.
  intros Hcl nodes. pose proof (leaf_nodes_perm data cl) as P. fold nodes in P.
  assert (HB1 : 1 <= B). { assert (Hin : In (nth 0 (used_of data) 0) (used_of data)) by (apply nth_In; unfold n, zlen in Hn; lia). apply used_in in Hin as (R & N).
    pose proof (proj1 (Forall_forall _ _) Hdata (nth (Z.to_nat (nth 0 (used_of data) 0)) data 0) ltac:(apply nth_In; unfold zlen in R; lia)). cbv beta in *. lia. }
  assert (Hcl2 : 1 <= cl <= 2 * B) by lia.
  assert (Hbig : 2 * B < 2 ^ 32). { unfold big in HB. nia. }
  assert (Ecl : w32 (cl - 1) = cl - 1) by (unfold w32; apply Z.mod_small; lia).
  assert (Val : forall s, In s (used_of data) -> 0 <= s < zlen data /\ 1 <= nth (Z.to_nat s) data 0 <= B /\ s16 s = s).
  { intros s Hs. apply used_in in Hs as (R & N). pose proof (proj1 (Forall_forall _ _) Hdata (nth (Z.to_nat s) data 0) ltac:(apply nth_In; unfold zlen in R; lia)). cbv beta in *.
    split; [exact R|]. split; [lia|]. apply s16_id. change (2 ^ 15) with 32768 in *. lia. }
  set (f := fun s => Hnode (Z.max (nth (Z.to_nat s) data 0) (w32 (cl - 1))) (-1) (s16 s)) in *.
  assert (Each : forall (Q : hnode -> Prop), (forall s, In s (used_of data) -> Q (f s)) -> Forall Q nodes).
  { intros Q H. apply (Permutation_Forall (Permutation_sym P)). apply Forall_forall. intros x Hx. apply in_map_iff in Hx as (s & <- & Hs). auto. }
  split. { unfold n, zlen. now rewrite (Permutation_length P), map_length. }
  split. { apply Each. intros s Hs. destruct (Val s Hs) as (_ & R & _). unfold leaf_ok, f. cbn. lia. }
  split. { apply Each. intros s Hs. destruct (Val s Hs) as (R & _ & E). unfold f. cbn. rewrite E. exact R. }
  split. { assert (W : weights nodes <= n * (2 * B)); [|lia].
    assert (E : weights nodes = weights (map f (used_of data))) by (apply weights_perm; exact P).
    rewrite E. unfold n, zlen. assert (G : forall l, (forall s, In s l -> In s (used_of data)) -> weights (map f l) <= Z.of_nat (length l) * (2 * B)); [|apply G; auto].
    induction l as [|s l IH]; intros Hl; [cbn; lia|]. unfold weights in *. cbn [map zsum fold_right length]. unfold zsum in IH. specialize (IH ltac:(intros; apply Hl; now right)).
    destruct (Val s (Hl s ltac:(now left))) as (_ & R & _). assert (total_count (f s) <= 2 * B) by (unfold f; cbn [total_count]; rewrite Ecl; lia). lia. }
  split. { rewrite (Permutation_map index_right_or_value P), map_map. erewrite map_ext_in; [rewrite map_id; reflexivity|]. intros s Hs. destruct (Val s Hs) as (_ & _ & E). unfold f. cbn. exact E. }
  intros G. apply Each. intros s Hs. destruct (Val s Hs) as (_ & R & _). unfold f. cbn. rewrite Ecl. lia.
Qed.

Lemma create_loop_ok fuel : forall cl depth, (1 <= cl <= 2 * B \/ cl = 1) -> 2 * B <= cl * 2 ^ (Z.of_nat fuel - 1) -> (0 < fuel)%nat ->
  (forall x, ~ In x (used_of data) -> depth x = 0) ->
  exists depth', create_loop fuel data limit cl depth = Some depth' /\
    code_for data limit (map depth' (zseq 0 (length data))) /\ complete (map depth' (zseq 0 (length data))).
Proof.
  induction fuel as [|fuel IH]; intros cl depth Hcl Hf Hf0 Hout; [lia|]. cbn [create_loop].
  destruct (nodes_facts cl Hcl) as (Ln & Fl & Fr & Hw & Pv & Heq). set (nodes := leaf_nodes data cl) in *. replace (zlen nodes =? 1) with false by lia.
  destruct (one_tree_ok data depth nodes ltac:(lia) Fl Fr Hw) as (a & b & H). cbv zeta in H. destruct H as (E & Ffair & Hh & Wt & Pt & Hequal). rewrite E. set (t := Nd a b) in *. set (ds := depths_of t 0) in *.
  assert (Pfst : Permutation (map fst ds) (used_of data)) by (unfold ds; rewrite depths_values, Pt; exact Pv).
  assert (Hnd : NoDup (map fst ds)) by (apply (Permutation_NoDup (Permutation_sym Pfst)), used_nodup).
  assert (Hin : forall x, In x (map fst ds) <-> In x (used_of data)) by (intros x; split; [apply Permutation_in; exact Pfst|apply Permutation_in; apply Permutation_sym; exact Pfst]).
  assert (Eq0 : forall x, assign ds depth x = assign ds (fun _ => 0) x).
  { intros x. destruct (in_dec Z.eq_dec x (map fst ds)) as [I|I].
    - apply in_map_iff in I as (e & <- & He). now rewrite !assign_in.
    - rewrite !assign_out by exact I. apply Hout. intros G. apply I. now apply Hin. }
  assert (Hzero : forall x, ~ In x (used_of data) -> assign ds depth x = 0).
  { intros x Hx. rewrite Eq0, assign_out; [reflexivity|]. intros G. apply Hx. now apply Hin. }
  destruct (forallb _ _) eqn:Fb.
  - exists (assign ds depth). split; [reflexivity|]. set (out := map (assign ds depth) (zseq 0 (length data))).
    assert (Hlz : forall k z, length (zseq z k) = k) by (clear; induction k; intros; cbn; [reflexivity|now rewrite IHk]).
    assert (Hle : forall x, 0 <= x < zlen data -> assign ds depth x <= limit).
    { intros x Hx. pose proof (proj1 (forallb_forall _ _) Fb x ltac:(apply in_zseq; unfold zlen in Hx; lia)) as G. cbv beta in G. lia. }
    assert (Pos : forall x, In x (used_of data) -> 0 < assign ds depth x).
    { intros x Hx. apply Hin in Hx. apply in_map_iff in Hx as (e & <- & He). rewrite assign_in by assumption. exact (proj1 (Forall_forall _ _) (depths_pos a b 0 ltac:(lia)) e He). }
    assert (Hhl : height t <= limit).
    { destruct (depths_max t 0) as (e & He & Ee). fold ds in He. assert (Hfe : In (fst e) (used_of data)) by (apply Hin, in_map, He). apply used_in in Hfe as (R & _).
      specialize (Hle (fst e) R). rewrite assign_in in Hle by assumption. lia. }
    assert (Znth : forall s l, znth out s = Some l -> 0 <= s < zlen data /\ l = assign ds depth s).
    { intros s l H. pose proof (znth_some_inv _ _ _ H) as R. unfold out, zlen in R. rewrite map_length, Hlz in R. split; [unfold zlen; lia|].
      unfold out, znth in H. replace (s <? 0) with false in H by lia. rewrite nth_error_map in H. rewrite (nth_error_nth' _ 0) in H by (rewrite Hlz; lia). cbn [option_map] in H. injection H as <-. f_equal.
      assert (G : forall k z i, (i < k)%nat -> nth i (zseq z k) 0 = z + Z.of_nat i). { clear. induction k as [|k IH]; intros z i Hi; [lia|]. destruct i as [|i]; cbn [zseq nth]; [lia|]. rewrite IH by lia. lia. }
      rewrite G by lia. lia. }
    split.
    + split; [unfold out, zlen; now rewrite map_length, Hlz|]. split.
      * apply Forall_forall. intros x Hx. apply in_map_iff in Hx as (s & <- & Hs). apply zseq_in in Hs. split; [|apply Hle; unfold zlen; lia].
        destruct (in_dec Z.eq_dec s (used_of data)) as [I|I]; [specialize (Pos s I); lia|rewrite Hzero by exact I; lia].
      * intros s l c Hs Hc. apply Znth in Hs as (R & ->). rewrite (znth_some data s 0) in Hc by exact R. injection Hc as <-.
        pose proof (proj1 (Forall_forall _ _) Hdata (nth (Z.to_nat s) data 0) ltac:(apply nth_In; unfold zlen in R; lia)) as C. cbv beta in C. split.
        -- intros G. destruct (Z.eq_dec (nth (Z.to_nat s) data 0) 0) as [E0|]; [|lia]. exfalso. rewrite Hzero in G; [lia|]. intros I. apply used_in in I. tauto.
        -- intros G. apply Pos. apply used_in. split; [exact R|lia].
    + unfold complete, out. rewrite map_map. erewrite map_ext; [|intros x; rewrite Eq0; reflexivity].
      rewrite (assign_sum (fun l => if l =? 0 then 0 else 2 ^ (15 - l)) (length data) ds eq_refl Hnd).
      * change (2 ^ 15) with (2 ^ (15 - 0)). rewrite <- (depths_kraft t 0 ltac:(lia) ltac:(lia)). fold ds. f_equal. apply map_ext_in. intros e He.
        pose proof (proj1 (Forall_forall _ _) (depths_pos a b 0 ltac:(lia)) e He) as P. cbv beta in P. replace (snd e =? 0) with false by lia. reflexivity.
      * apply Forall_forall. intros e He. assert (I : In (fst e) (used_of data)) by (apply Hin, in_map, He). apply used_in in I as (R & _). exact R.
  - assert (Hfuel : (0 < fuel)%nat /\ cl <= B).
    { assert (NB : ~ B <= cl - 1).
      { intros G. assert (Hcl1 : 0 < cl - 1). { destruct (Z.eq_dec cl 1) as [->|]; [|lia]. exfalso. assert (Hin0 : In (nth 0 (used_of data) 0) (used_of data)) by (apply nth_In; unfold n, zlen in Hn; lia). apply used_in in Hin0 as (R & N).
          pose proof (proj1 (Forall_forall _ _) Hdata (nth (Z.to_nat (nth 0 (used_of data) 0)) data 0) ltac:(apply nth_In; unfold zlen in R; lia)). cbv beta in *. lia. }
        pose proof (Hequal (cl - 1) Hcl1 (Heq G) limit ltac:(lia) ltac:(lia)) as Hh'. apply Bool.not_true_iff_false in Fb. apply Fb. apply forallb_forall. intros x Hx.
        destruct (in_dec Z.eq_dec x (used_of data)) as [I|I]; [|rewrite Hzero by exact I; lia]. apply Hin in I. apply in_map_iff in I as (e & <- & He). rewrite assign_in by assumption.
        pose proof (proj1 (Forall_forall _ _) (depths_range t 0) e He) as P. cbv beta in P. lia. }
      split; [|lia]. destruct fuel; [|lia]. change (2 ^ (Z.of_nat 1 - 1)) with 1 in Hf. lia. }
    assert (H2B : 2 * B < 2 ^ 32). { unfold big in HB. clear -HB Hn Hcl Hfuel. nia. }
    replace (w32 (cl * 2)) with (cl * 2) by (unfold w32; symmetry; apply Z.mod_small; lia).
    apply IH; [lia| |lia|exact Hzero]. replace (Z.of_nat (S fuel) - 1) with (1 + (Z.of_nat fuel - 1)) in Hf by lia. rewrite Z.pow_add_r in Hf by lia. change (2 ^ 1) with 2 in Hf. lia.
Qed.

Theorem create_ok : exists depths, create_huffman_tree data limit = Some depths /\ code_for data limit depths /\ complete depths.
Proof.
  unfold create_huffman_tree. destruct (create_loop_ok 33 1 (fun _ => 0)) as (d & E & H).
  - lia.
  - change (2 ^ (Z.of_nat 33 - 1)) with 4294967296. unfold big in HB. change (2 ^ 32) with 4294967296 in HB. nia.
  - lia.
  - reflexivity.
  - rewrite E. eexists. split; [reflexivity|exact H].
Qed.
End Create.

(* a single symbol *)
Lemma create_one data limit s : Forall (fun c => 0 <= c) data -> zlen data <= 2 ^ 15 -> used_of data = [s] ->
  create_huffman_tree data limit = Some (map (fun i => if i =? s then 1 else 0) (zseq 0 (length data))).
Proof.
  intros Hd Hlen Hu. unfold create_huffman_tree. cbn [create_loop]. pose proof (leaf_nodes_perm data 1) as P. rewrite Hu in P. cbn [map] in P. apply Permutation_sym, Permutation_length_1_inv in P. rewrite P.
  match goal with |- context [zlen [?x] =? 1] => change (zlen [x] =? 1) with true end. cbv iota. cbn [znth Z.ltb Z.compare Z.to_nat nth_error index_right_or_value].
  assert (R : 0 <= s < zlen data) by (apply used_in; rewrite Hu; now left). rewrite s16_id by lia. rewrite set_ok by exact R. reflexivity.
Qed.
