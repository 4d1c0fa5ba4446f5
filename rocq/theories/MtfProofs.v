From Verif Require Import Base ListAux AliasModel MtfModel MtfSpec.

Definition shifted (v : Z -> Z) (n : Z) (j : Z) : Z := if (0 <? j) && (j <=? n) then v (j - 1) else v j.
Definition fronted (v : Z -> Z) (n : Z) (j : Z) : Z := if j =? 0 then v n else shifted v n j.

Lemma shift_up_ok size : forall i v, Z.of_nat i < size ->
  exists v', shift_up size i v = Some v' /\ forall j, v' j = shifted v (Z.of_nat i) j.
Proof.
  induction i as [|i IH]; intros v H.
  - exists v. split; [reflexivity|]. intros j. unfold shifted. change (Z.of_nat 0) with 0. now replace ((0 <? j) && (j <=? 0)) with false by lia.
  - cbn [shift_up]. rewrite get_ok by lia. rewrite set_ok by lia.
    destruct (IH (fun j => if j =? Z.of_nat (S i) then v (Z.of_nat i) else v j) ltac:(lia)) as (v' & -> & E).
    exists v'. split; [reflexivity|]. intros j. rewrite E. unfold shifted.
    destruct (Z.ltb_spec 0 j); cbn [andb]; [|now replace (j =? Z.of_nat (S i)) with false by lia].
    destruct (Z.leb_spec j (Z.of_nat i)).
    + replace (j - 1 =? Z.of_nat (S i)) with false by lia. now replace (j <=? Z.of_nat (S i)) with true by lia.
    + destruct (Z.eqb_spec j (Z.of_nat (S i))); [subst; replace (_ <=? _) with true by lia; f_equal; lia|].
      now replace (j <=? Z.of_nat (S i)) with false by lia.
Qed.

Lemma move_to_front_ok size v n : 0 <= n < size ->
  exists v', move_to_front size v n = Some v' /\ forall j, v' j = fronted v n j.
Proof.
  intros H. unfold move_to_front. rewrite get_ok by lia.
  destruct (shift_up_ok size (Z.to_nat n) v ltac:(lia)) as (v1 & -> & E). rewrite set_ok by lia.
  eexists. split; [reflexivity|]. intros j. unfold fronted. cbv beta. rewrite E, Z2Nat.id by lia. reflexivity.
Qed.

(* vectors: i is a multiple of the lane count *)
Lemma shift_vectors_ok L : 1 <= L <= 64 -> forall m fuel v, (m <= fuel)%nat -> L * Z.of_nat m <= 256 ->
  (L * Z.of_nat m <= 255) ->
  exists v', shift_vectors fuel L (L * Z.of_nat m) v = Some v' /\ forall j, v' j = shifted v (L * Z.of_nat m) j.
Proof.
  intros HL. induction m as [|m IH]; intros fuel v Hf Hm Hm'.
  - exists v. split; [destruct fuel; cbn [shift_vectors]; now replace (L * Z.of_nat 0 =? 0) with true by lia|].
    intros j. unfold shifted. now replace ((0 <? j) && (j <=? L * Z.of_nat 0)) with false by lia.
  - destruct fuel as [|fuel]; [lia|]. cbn [shift_vectors]. replace (L * Z.of_nat (S m) =? 0) with false by lia.
    cbn zeta. assert (E0 : w8 (L * Z.of_nat (S m) - L) = L * Z.of_nat m) by (unfold w8; rewrite Z.mod_small; lia).
    rewrite E0. set (a := L * Z.of_nat m) in *. assert (a + L = L * Z.of_nat (S m)) as Ea by lia.
    unfold load_lanes, store_lanes, kMtfSize. replace ((0 <=? a) && (a + L <=? 256 + 64)) with true by lia.
    replace ((0 <=? a + 1) && (a + 1 + L <=? 256 + 64)) with true by lia.
    match goal with |- context [shift_vectors fuel L a ?w] => set (v1 := w) end.
    destruct (IH fuel v1 ltac:(lia) ltac:(lia) ltac:(lia)) as (v' & -> & E). exists v'. split; [reflexivity|].
    intros j. rewrite E. unfold shifted. rewrite <- Ea. unfold v1. clear E IH.
    destruct (Z.ltb_spec 0 j); cbn [andb].
    + destruct (Z.leb_spec j a).
      * replace (j <=? a + L) with true by lia. replace (a + 1 <=? j - 1) with false by lia. reflexivity.
      * destruct (Z.leb_spec j (a + L)).
        -- replace ((a + 1 <=? j) && (j <? a + 1 + L)) with true by lia. f_equal. lia.
        -- replace ((a + 1 <=? j) && (j <? a + 1 + L)) with false by lia. reflexivity.
    + replace ((a + 1 <=? j) && (j <? a + 1 + L)) with false by lia. reflexivity.
Qed.

Lemma simd_ok L v n : lane_count L -> 0 <= n < 256 ->
  exists v', move_to_front_simd L v n = Some v' /\ forall j, v' j = fronted v n j.
Proof.
  intros (k & Hk & ->) Hn. assert (HL : 1 <= 2 ^ k <= 64).
  { split; [apply (Z.pow_le_mono_r 2 0 k); lia|]. change 64 with (2 ^ 6). apply Z.pow_le_mono_r; lia. }
  unfold move_to_front_simd. rewrite get_ok by (unfold kMtfSize; lia).
  assert (Fin : forall o : option (Z -> Z), (exists v1, o = Some v1 /\ forall j, v1 j = shifted v n j) ->
    exists v', (do v1 <- o; set kMtfSize v1 0 (v n)) = Some v' /\ forall j, v' j = fronted v n j).
  { intros o (v1 & -> & E). rewrite set_ok by (unfold kMtfSize; lia). eexists. split; [reflexivity|].
    intros j. cbv beta. unfold fronted. rewrite E. reflexivity. }
  apply Fin. clear Fin. destruct (n <? 4) eqn:E4.
  - destruct (shift_up_ok kMtfSize (Z.to_nat n) v) as (v1 & -> & E); [unfold kMtfSize; lia|].
    exists v1. split; [reflexivity|]. intros j. rewrite E, Z2Nat.id by lia. reflexivity.
  - cbn zeta. assert (T : Z.land n (2 ^ k - 1) = n mod 2 ^ k).
    { rewrite <- Z.land_ones by lia. f_equal. rewrite Z.ones_equiv. lia. }
    rewrite T. set (L := 2 ^ k) in *. pose proof (Z.div_mod n L ltac:(lia)) as D. pose proof (Z.mod_pos_bound n L ltac:(lia)) as B.
    assert (Q : 0 <= n / L) by (apply Z.div_pos; lia).
    set (t := n mod L) in *. set (q := n / L) in *.
    assert (A : L * Z.of_nat (Z.to_nat q) = n - t) by (rewrite Z2Nat.id; lia).
    assert (Hq : (Z.to_nat q <= 256)%nat) by (clear -D B Q HL Hn; nia).
    destruct (Z.eqb_spec t 0) as [E0|N0].
    + destruct (shift_vectors_ok L HL (Z.to_nat q) 256 v Hq ltac:(lia) ltac:(lia)) as (v1 & H1 & E).
      rewrite A, E0, Z.sub_0_r in H1, E. exists v1. split; [exact H1|]. exact E.
    + replace (w8 (n - t)) with (n - t) by (unfold w8; rewrite Z.mod_small; lia).
      set (a := n - t) in *. unfold load_lanes, store_lanes, kMtfSize.
      replace ((0 <=? a) && (a + L <=? 256 + 64)) with true by lia.
      replace ((0 <=? a + 1) && (a + 1 + L <=? 256 + 64)) with true by lia.
      match goal with |- context [shift_vectors _ L a ?w] => set (v1 := w) end.
      destruct (shift_vectors_ok L HL (Z.to_nat q) 256 v1 Hq ltac:(lia) ltac:(lia)) as (v2 & H1 & E).
      rewrite A in H1, E. exists v2. split; [exact H1|]. intros j. rewrite E. unfold shifted, v1.
      clear E H1. assert (a + t = n) as En by lia. clearbody a t. clear D.
      destruct (Z.ltb_spec 0 j); cbn [andb].
      * destruct (Z.leb_spec j a).
        -- replace (j <=? n) with true by lia. replace (a + 1 <=? j - 1) with false by lia. reflexivity.
        -- destruct (Z.leb_spec j n).
           ++ replace ((a + 1 <=? j) && (j <? a + 1 + L)) with true by lia. replace (j - (a + 1) <? t) with true by lia. f_equal. lia.
           ++ destruct (Z.ltb_spec j (a + 1 + L)).
              ** replace ((a + 1 <=? j) && true) with true by lia. replace (j - (a + 1) <? t) with false by lia. f_equal. lia.
              ** now rewrite Bool.andb_false_r.
      * replace ((a + 1 <=? j) && (j <? a + 1 + L)) with false by lia. reflexivity.
Qed.

(* the decoder computes [recall] *)
Definition holds_list (v : Z -> Z) (l : list Z) : Prop := forall j, 0 <= j < zlen l -> v j = nth (Z.to_nat j) l 0.

Lemma to_front_length l i : 0 <= i < zlen l -> zlen (to_front l i) = zlen l.
Proof. unfold zlen, to_front. intros H. cbn [length]. rewrite app_length, firstn_length, skipn_length. lia. Qed.

Lemma fronted_list v l i : holds_list v l -> 0 <= i < zlen l -> holds_list (fronted v i) (to_front l i).
Proof.
  intros H Hi j Hj. rewrite to_front_length in Hj by exact Hi. unfold fronted, to_front.
  destruct (Z.eqb_spec j 0) as [->|N]; [cbn [Z.to_nat nth]; apply H; exact Hi|].
  replace (Z.to_nat j) with (S (Z.to_nat (j - 1))) by lia. cbn [nth]. unfold shifted, zlen in *.
  destruct (Z.leb_spec j i).
  - replace (0 <? j) with true by lia. cbn [andb]. rewrite H by (unfold zlen; lia). rewrite app_nth1 by (rewrite firstn_length; lia).
    rewrite <- (firstn_skipn (Z.to_nat i) l) at 1. rewrite app_nth1 by (rewrite firstn_length; lia). reflexivity.
  - rewrite Bool.andb_false_r. rewrite H by (unfold zlen; lia). rewrite app_nth2 by (rewrite firstn_length; lia). rewrite firstn_length.
    rewrite <- (firstn_skipn (S (Z.to_nat i)) l) at 1. rewrite app_nth2 by (rewrite firstn_length; lia). f_equal. rewrite firstn_length. lia.
Qed.

Lemma holds_ext v v' l : (forall j, v' j = v j) -> holds_list v l -> holds_list v' l.
Proof. intros E H j Hj. rewrite E. now apply H. Qed.

Lemma inverse_loop_recall L : lane_count L -> forall is mtf l, holds_list mtf l -> zlen l = 256 ->
  Forall (fun i => 0 <= i < 256) is -> inverse_mtf_loop L mtf is = Some (recall l is).
Proof.
  intros HL. induction is as [|i is IH]; intros mtf l H Hl HF; [reflexivity|].
  inversion HF as [|x y H1 H2]; subst. cbn [inverse_mtf_loop recall]. rewrite get_ok by (unfold kMtfSize; lia).
  rewrite (H i) by lia.
  assert (exists m', (if i =? 0 then Some mtf else move_to_front_simd L mtf i) = Some m' /\ holds_list m' (to_front l i)) as (m' & -> & Hm).
  { destruct (Z.eqb_spec i 0) as [->|N].
    - exists mtf. split; [reflexivity|]. destruct l as [|x l]; [discriminate|]. exact H.
    - destruct (simd_ok L mtf i HL ltac:(lia)) as (m' & -> & E). exists m'. split; [reflexivity|].
      eapply holds_ext; [exact E|]. apply fronted_list; [exact H|lia]. }
  rewrite (IH m' (to_front l i)); auto. rewrite to_front_length; lia.
Qed.

Lemma nth_byte_list i : 0 <= i < 256 -> nth (Z.to_nat i) byte_list 0 = i.
Proof.
  intros H. unfold byte_list. rewrite (nth_indep _ 0 (Z.of_nat 0)) by (rewrite map_length, seq_length; lia).
  rewrite map_nth, seq_nth by lia. lia.
Qed.

Theorem inverse_recall L mem is : lane_count L -> Forall (fun i => 0 <= i < 256) is ->
  inverse_mtf L mem is = Some (recall byte_list is).
Proof.
  intros HL HF. apply inverse_loop_recall; auto. intros j Hj. change (zlen byte_list) with 256 in Hj.
  replace ((0 <=? j) && (j <? 256)) with true by lia. rewrite nth_byte_list by lia. unfold w8. apply Z.mod_small. lia.
Qed.

(* the values are bytes *)
Lemma recall_bytes : forall is l, Forall (fun x => 0 <= x < 256) l -> zlen l = 256 -> Forall (fun i => 0 <= i < 256) is ->
  Forall (fun x => 0 <= x < 256) (recall l is).
Proof.
  induction is as [|i is IH]; intros l Hl Hz HF; cbn [recall]; [constructor|]. inversion HF as [|x y H1 H2]; subst.
  assert (0 <= nth (Z.to_nat i) l 0 < 256). { rewrite Forall_forall in Hl. apply Hl, nth_In. unfold zlen in *. lia. }
  constructor; [assumption|]. apply IH; auto; [|rewrite to_front_length; lia]. unfold to_front. constructor; [assumption|].
  apply Forall_app. split; apply Forall_forall; intros x Hx; rewrite Forall_forall in Hl; apply Hl.
  - rewrite <- (firstn_skipn (Z.to_nat i) l). apply in_or_app. now left.
  - rewrite <- (firstn_skipn (S (Z.to_nat i)) l). apply in_or_app. now right.
Qed.
Lemma bytes_byte_list : Forall (fun x => 0 <= x < 256) byte_list.
Proof. unfold byte_list. apply Forall_forall. intros x Hx. apply in_map_iff in Hx. destruct Hx as (n & <- & Hn). apply in_seq in Hn. lia. Qed.

(* the encoder: its list is a prefix of the decoder's *)
Lemma index_of_ok v x : forall fuel i, (exists j, i <= j < i + Z.of_nat fuel /\ v j = x) ->
  i <= index_of fuel i v x < i + Z.of_nat fuel /\ v (index_of fuel i v x) = x.
Proof.
  induction fuel as [|fuel IH]; intros i (j & Hj & E); [lia|]. cbn [index_of].
  destruct (Z.eqb_spec (v i) x) as [Ei|N]; [split; [lia|exact Ei]|].
  assert (i <> j) by (intros ->; congruence). destruct (IH (i + 1)) as (A & B); [exists j; split; [lia|exact E]|]. split; [lia|exact B].
Qed.

Definition prefix_of (size : Z) (v : Z -> Z) (l : list Z) : Prop := forall j, 0 <= j < size -> v j = nth (Z.to_nat j) l 0.
Definition complete (size : Z) (v : Z -> Z) : Prop := forall x, 0 <= x < size -> exists j, 0 <= j < size /\ v j = x.

Lemma complete_front size v i : complete size v -> 0 <= i < size -> complete size (fronted v i).
Proof.
  intros H Hi x Hx. destruct (H x Hx) as (j & Hj & E). unfold fronted, shifted.
  destruct (Z.eq_dec j i) as [->|N]; [exists 0; split; [lia|]; now replace (0 =? 0) with true by lia|].
  destruct (Z_lt_le_dec j i) as [L|L].
  - exists (j + 1). split; [lia|]. replace (j + 1 =? 0) with false by lia. replace ((0 <? j + 1) && (j + 1 <=? i)) with true by lia.
    now replace (j + 1 - 1) with j by lia.
  - exists j. split; [lia|]. replace (j =? 0) with false by lia. now replace ((0 <? j) && (j <=? i)) with false by lia.
Qed.

Lemma prefix_front size v l i : prefix_of size v l -> 0 <= i < size -> size <= zlen l -> prefix_of size (fronted v i) (to_front l i).
Proof.
  intros H Hi Hs j Hj.
  (* compare with the array holding all of l *)
  set (w := fun j => nth (Z.to_nat j) l 0).
  transitivity (fronted w i j); [|apply fronted_list; [intros k Hk; reflexivity|lia|rewrite to_front_length; lia]].
  unfold fronted, shifted, w. destruct (Z.eqb_spec j 0); [apply H; lia|]. destruct (Z.ltb_spec 0 j); cbn [andb]; [|apply H; lia].
  destruct (j <=? i); apply H; lia.
Qed.

Lemma mtf_loop_recall size : 0 <= size <= 256 -> forall v mtf l, prefix_of size mtf l -> complete size mtf -> zlen l = 256 ->
  Forall (fun x => 0 <= x < size) v ->
  exists is, mtf_loop size mtf v = Some is /\ length is = length v /\ Forall (fun i => 0 <= i < size) is /\ recall l is = v.
Proof.
  intros Hs. induction v as [|x v IH]; intros mtf l HP HC Hl HF; [exists []; repeat split; constructor|].
  inversion HF as [|a b H1 H2]; subst. cbn [mtf_loop]. cbn zeta.
  destruct (index_of_ok mtf x (Z.to_nat size) 0) as (A & B).
  { destruct (HC x H1) as (j & Hj & E). exists j. split; [lia|exact E]. }
  set (i := index_of (Z.to_nat size) 0 mtf x) in *. assert (Hi : 0 <= i < size) by lia.
  destruct (move_to_front_ok size mtf i Hi) as (m' & -> & E).
  destruct (IH m' (to_front l i)) as (is & -> & L & F & R).
  - intros j Hj. rewrite E. apply (prefix_front size mtf l i); auto. lia.
  - intros y Hy. destruct (complete_front size mtf i HC Hi y Hy) as (j & Hj & Ej). exists j. now rewrite E.
  - rewrite to_front_length; lia.
  - exact H2.
  - replace (w8 i) with i by (unfold w8; rewrite Z.mod_small; lia).
    exists (i :: is). split; [reflexivity|]. split; [cbn; lia|]. split; [constructor; assumption|].
    cbn [recall]. rewrite R. f_equal. rewrite <- (HP i) by lia. exact B.
Qed.

Lemma max_bound v : Forall (fun x => 0 <= x) v -> Forall (fun x => 0 <= x <= fold_right Z.max 0 v) v.
Proof.
  induction 1 as [|x v Hx Hv IH]; [constructor|]. cbn [fold_right]. constructor; [lia|].
  eapply Forall_impl; [|exact IH]. cbn. intros; lia.
Qed.
Lemma max_below v n : 0 <= n -> Forall (fun x => x <= n) v -> 0 <= fold_right Z.max 0 v <= n.
Proof. intros Hn. induction 1; cbn [fold_right]; lia. Qed.

Theorem transform_recall v : Forall (fun x => 0 <= x < 256) v ->
  exists is, mtf_transform v = Some is /\ length is = length v /\ Forall (fun i => 0 <= i <= fold_right Z.max 0 v) is /\
    recall byte_list is = v.
Proof.
  intros HF. destruct v as [|x v]; [exists []; repeat split; constructor|].
  set (w := x :: v) in *. assert (M : 0 <= fold_right Z.max 0 w <= 255).
  { apply max_below; [lia|]. eapply Forall_impl; [|exact HF]. cbn. intros; lia. }
  destruct (mtf_loop_recall (fold_right Z.max 0 w + 1) ltac:(lia) w (fun i => w8 i) byte_list) as (is & E & L & F & R).
  - intros j Hj. rewrite nth_byte_list by lia. unfold w8. apply Z.mod_small. lia.
  - intros y Hy. exists y. split; [lia|]. unfold w8. apply Z.mod_small. lia.
  - reflexivity.
  - eapply Forall_impl; [|apply max_bound; eapply Forall_impl; [|exact HF]; cbn; intros; lia]. cbn. intros; lia.
  - exists is. split; [exact E|]. split; [exact L|]. split; [|exact R]. eapply Forall_impl; [|exact F]. cbn. intros; lia.
Qed.

Theorem mtf_round_trip L mem v : lane_count L -> Forall (fun x => 0 <= x < 256) v ->
  exists is, mtf_transform v = Some is /\ length is = length v /\ Forall (fun i => 0 <= i < 256) is /\ inverse_mtf L mem is = Some v.
Proof.
  intros HL HF. destruct (transform_recall v HF) as (is & E & Le & F & R). exists is.
  assert (M : 0 <= fold_right Z.max 0 v <= 255).
  { apply max_below; [lia|]. eapply Forall_impl; [|exact HF]. cbn. intros; lia. }
  assert (F' : Forall (fun i => 0 <= i < 256) is) by (eapply Forall_impl; [|exact F]; cbn; intros; lia).
  repeat split; auto. rewrite (inverse_recall L mem is HL F'). now rewrite R.
Qed.
