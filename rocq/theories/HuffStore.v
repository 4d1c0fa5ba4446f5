(* A stored prefix code is read back: the general form. *)
From Verif Require Import Base ListAux Wrap BitProg BitProgProofs FieldsProofs HuffTreeModel HuffSpec HuffSort HuffRoot HuffSub HuffBuild HuffEnc HuffTop HuffRle HuffLens.
Ltac Zify.zify_post_hook ::= idtac.

(* ---- the lengths of the code length codes ---- *)

Definition w5 (v : Z) : Z := if v =? 0 then 0 else Z.shiftr 32 v.
Definition cl_field (l : Z) : Z * Z := (nth (Z.to_nat l) kBitLengthBitLengths 0, nth (Z.to_nat l) kBitLengthSymbols 0).
Definition is_code (v : Z) : Z := if v =? 0 then 0 else 1.

Definition huff16_check (x v : Z) : bool :=
  let (n, s) := cl_field v in
  (0 <=? n) && (n <=? 4) && (0 <=? s) && (s <? 2 ^ n) && (negb (x mod 2 ^ n =? s) ||
    match znth huff16 x with Some (n', v') => (n' =? n) && (v' =? v) | None => false end).
Lemma huff16_all : forallb (fun x => forallb (huff16_check x) (zseq 0 6)) (zseq 0 16) = true.
Proof. vm_cast_no_check (eq_refl true). Qed.
Lemma huff16_ok x v : 0 <= x < 16 -> 0 <= v <= 5 ->
  0 <= fst (cl_field v) <= 4 /\ 0 <= snd (cl_field v) < 2 ^ fst (cl_field v) /\
  (x mod 2 ^ fst (cl_field v) = snd (cl_field v) -> znth huff16 x = Some (fst (cl_field v), v)).
Proof.
  intros Hx Hv. pose proof (proj1 (forallb_forall _ _) huff16_all x ltac:(apply in_zseq; cbn; lia)) as H.
  pose proof (proj1 (forallb_forall _ _) H v ltac:(apply in_zseq; cbn; lia)) as H'. unfold huff16_check in H'. destruct (cl_field v) as (n & s). cbn [fst snd].
  apply andb_prop in H' as (H' & H5). apply andb_prop in H' as (H' & H4). apply andb_prop in H' as (H' & H3). apply andb_prop in H' as (H1 & H2).
  split; [lia|]. split; [lia|]. intros E. apply Z.eqb_eq in E. rewrite E in H5. cbn in H5. destruct (znth huff16 x) as [(n' & v')|]; [|discriminate]. f_equal. f_equal; lia.
Qed.

Lemma w5_nonneg v : 0 <= v -> 0 <= w5 v.
Proof. intros. unfold w5. destruct (v =? 0); [lia|]. apply Z.shiftr_nonneg. lia. Qed.
Lemma w5_pos v : 1 <= v <= 5 -> 0 < w5 v.
Proof. intros H. assert (v = 1 \/ v = 2 \/ v = 3 \/ v = 4 \/ v = 5) as [->|[->|[->|[->| ->]]]] by lia; reflexivity. Qed.

Lemma peek4 {A} v (K : Z -> rprog A) (bad : rprog A) e a : 0 <= v <= 5 -> parses (K v) e a ->
  parses (Refill (Peek 4 (fun i => match znth huff16 i with None => bad | Some (nbits, c) => Consume nbits (K c) end)))
    (fields_bits [cl_field v] ++ e) a.
Proof.
  intros Hv HK pre post av Hav. cbn [run_bits]. change ((0 <=? 4) && (4 <=? 56)) with true. cbv iota.
  cbn [fields_bits flat_map]. rewrite app_nil_r. set (n := fst (cl_field v)). set (s := snd (cl_field v)).
  destruct (huff16_ok 0 v ltac:(lia) Hv) as (Hn & Hs & _). fold n s in Hn, Hs.
  set (st := pre ++ (to_bits (Z.to_nat n) s ++ e) ++ post). pose proof (zlen_nonneg pre) as Hp.
  pose proof (bits_at_range st (zlen pre) 4 ltac:(lia)) as R. change (2 ^ 4) with 16 in R.
  assert (Ex : bits_at st (zlen pre) 4 mod 2 ^ n = s).
  { rewrite bits_at_mod by lia. unfold st. rewrite <- app_assoc. apply bits_at_exact; lia. }
  destruct (huff16_ok _ v R Hv) as (_ & _ & Ht). rewrite (Ht Ex). fold n. cbn [run_bits]. replace ((0 <=? n) && (n <=? 56)) with true by lia.
  destruct (HK (pre ++ to_bits (Z.to_nat n) s) post (56 - n) ltac:(lia)) as (av' & Hr & Hav').
  exists av'. split; [|exact Hav']. unfold st. rewrite <- !app_assoc in *. rewrite zlen_app, zlen_to_bits, Z2Nat.id in Hr by lia.
  rewrite Hr. rewrite zlen_app, zlen_to_bits, Z2Nat.id by lia. do 3 f_equal. lia.
Qed.

Lemma fields_cons f fs : fields_bits (f :: fs) = fields_bits [f] ++ fields_bits fs.
Proof. cbn [fields_bits flat_map]. now rewrite app_nil_r. Qed.

(* the reader's loop over the codes [mid], whose lengths are given by [b]; it ends because
   nothing is left of the space, or of the codes *)
Lemma cl_loop_parses b rest : (forall i, 0 <= b i <= 5) -> forall mid cl sp num sp',
  Forall (fun i => 0 <= i < 18) mid -> sp = zsum (map (fun i => w5 (b i)) mid) + sp' ->
  (sp' = 0 /\ b (last mid 0) <> 0) \/ (0 < sp' /\ rest = []) ->
  mid <> [] \/ sp' = 0 \/ rest = [] ->
  exists cl', (forall i, cl' i = if existsb (Z.eqb i) mid then b i else cl i) /\
    parses (read_cl_loop (mid ++ rest) cl sp num) (fields_bits (map (fun i => cl_field (b i)) mid))
      (Some (cl', sp', num + zsum (map (fun i => is_code (b i)) mid))).
Proof.
  intros Hb. induction mid as [|i mid IH]; intros cl sp num sp' Hm Hsp Hend Hne.
  - exists cl. split; [reflexivity|]. cbn [map zsum fold_right app] in *. rewrite Z.add_0_r. replace sp with sp' by lia.
    assert (E : read_cl_loop rest cl sp' num = Ret (Some (cl, sp', num))).
    { destruct Hend as [(-> & _)|(_ & ->)]; [|reflexivity]. destruct rest; reflexivity. }
    rewrite E. apply parses_ret.
  - pose proof (Forall_inv Hm) as Hi. cbv beta in Hi. pose proof (Forall_inv_tail Hm) as Hm'. cbn [map app read_cl_loop]. cbn [map zsum fold_right] in Hsp. fold (zsum (map (fun i => w5 (b i)) mid)) in Hsp.
    assert (Hpos : 0 < sp).
    { assert (Hnn : forall l, 0 <= zsum (map (fun i => w5 (b i)) l)). { induction l as [|y l IHl]; cbn; [lia|]. pose proof (w5_nonneg (b y) ltac:(apply Hb)). unfold zsum in IHl. lia. }
      pose proof (w5_nonneg (b i) ltac:(apply Hb)). pose proof (Hnn mid). destruct Hend as [(-> & Hl)|(Hl & _)]; [|lia].
      assert (Hlast : forall l, b (last (i :: l) 0) <> 0 -> 0 < w5 (b i) + zsum (map (fun i => w5 (b i)) l)).
      { clear -Hb Hnn. intros l. revert i. induction l as [|y l IHl]; intros i Hl.
        - cbn [last] in Hl. cbn. pose proof (w5_pos (b i)). pose proof (Hb i). lia.
        - change (last (i :: y :: l) 0) with (last (y :: l) 0) in Hl. specialize (IHl y Hl). pose proof (w5_nonneg (b i) ltac:(apply Hb)). cbn [map zsum fold_right]. unfold zsum in IHl. lia. }
      specialize (Hlast mid Hl). lia. }
    replace (0 <? sp) with true by lia. rewrite fields_cons.
    assert (Hend' : (sp' = 0 /\ b (last mid 0) <> 0) \/ (0 < sp' /\ rest = []) \/ (mid = [] /\ sp' = 0)).
    { destruct Hend as [(A & B)|]; [|auto]. destruct mid; [auto|]. left. split; [exact A|exact B]. }
    destruct (Z.eqb_spec (b i) 0) as [B0|B0].
    + set (cl1 := fun j => if j =? i then b i else cl j).
      assert (IH' : exists cl', (forall i, cl' i = if existsb (Z.eqb i) mid then b i else cl1 i) /\
        parses (read_cl_loop (mid ++ rest) cl1 sp num) (fields_bits (map (fun i => cl_field (b i)) mid))
          (Some (cl', sp', num + zsum (map (fun i => is_code (b i)) mid)))).
      { apply IH; [assumption| | |].
        - rewrite B0 in Hsp. change (w5 0) with 0 in Hsp. lia.
        - destruct Hend' as [|[|(-> & ->)]]; [tauto|tauto|]. exfalso. destruct Hend as [(_ & Hl)|]; [|lia]. cbn in Hl. contradiction.
        - destruct mid; [|now left; discriminate]. destruct Hend as [(_ & Hl)|(_ & ->)]; auto. }
      destruct IH' as (cl' & Hcl & P). exists cl'. split.
      * intros j. rewrite Hcl. cbn [existsb]. unfold cl1. destruct (existsb (Z.eqb j) mid); [now rewrite Bool.orb_true_r|]. rewrite Bool.orb_false_r. destruct (Z.eqb_spec j i) as [->|]; reflexivity.
      * apply (peek4 (b i) (fun v => match set 18 cl i v with None => _ | Some cl0 => if v =? 0 then _ else _ end)); [apply Hb|].
        rewrite set_ok by lia. rewrite (proj2 (Z.eqb_eq (b i) 0) B0). cbn [map zsum fold_right]. unfold is_code at 1. rewrite (proj2 (Z.eqb_eq (b i) 0) B0). rewrite Z.add_0_l. exact P.
    + set (cl1 := fun j => if j =? i then b i else cl j).
      assert (Hw : w5 (b i) = Z.shiftr 32 (b i)) by (unfold w5; now rewrite (proj2 (Z.eqb_neq (b i) 0) B0)).
      assert (IH' : exists cl', (forall i, cl' i = if existsb (Z.eqb i) mid then b i else cl1 i) /\
        parses (read_cl_loop (mid ++ rest) cl1 (sp - Z.shiftr 32 (b i)) (num + 1)) (fields_bits (map (fun i => cl_field (b i)) mid))
          (Some (cl', sp', num + 1 + zsum (map (fun i => is_code (b i)) mid)))).
      { destruct Hend' as [|[|(-> & ->)]].
        - apply IH; [assumption|lia|tauto|tauto].
        - apply IH; [assumption|lia|tauto|tauto].
        - exists cl1. split; [reflexivity|]. cbn [map zsum fold_right app] in *. rewrite Z.add_0_r. replace (sp - Z.shiftr 32 (b i)) with 0 by lia.
          replace (read_cl_loop rest cl1 0 (num + 1)) with (@Ret (option ((Z -> Z) * Z * Z)) (Some (cl1, 0, num + 1))) by (destruct rest; reflexivity). apply parses_ret. }
      destruct IH' as (cl' & Hcl & P). exists cl'. split.
      * intros j. rewrite Hcl. cbn [existsb]. unfold cl1. destruct (existsb (Z.eqb j) mid); [now rewrite Bool.orb_true_r|]. rewrite Bool.orb_false_r. destruct (Z.eqb_spec j i) as [->|]; reflexivity.
      * apply (peek4 (b i) (fun v => match set 18 cl i v with None => _ | Some cl0 => if v =? 0 then _ else _ end)); [apply Hb|].
        rewrite set_ok by lia. rewrite (proj2 (Z.eqb_neq (b i) 0) B0). cbn [map zsum fold_right]. unfold is_code at 1. rewrite (proj2 (Z.eqb_neq (b i) 0) B0).
        fold (zsum (map (fun i => is_code (b i)) mid)). rewrite Z.add_assoc. exact P.
Qed.

Definition order : list Z := [1; 2; 3; 4; 0; 5; 17; 6; 16; 7; 8; 9; 10; 11; 12; 13; 14; 15].

Lemma order_sum (f : Z -> Z) bd : zlen bd = 18 -> zsum (map (fun i => f (nth (Z.to_nat i) bd 0)) order) = zsum (map f bd).
Proof.
  intros H. assert (L : length bd = 18%nat) by (unfold zlen in H; lia). clear H.
  do 18 (destruct bd as [|? bd]; [discriminate L|]). destruct bd; [|discriminate L].
  unfold order. cbn [map zsum fold_right]. change (Z.to_nat 1) with 1%nat. change (Z.to_nat 2) with 2%nat. change (Z.to_nat 3) with 3%nat. change (Z.to_nat 4) with 4%nat.
  change (Z.to_nat 0) with 0%nat. change (Z.to_nat 5) with 5%nat. change (Z.to_nat 17) with 17%nat. change (Z.to_nat 6) with 6%nat. change (Z.to_nat 16) with 16%nat.
  change (Z.to_nat 7) with 7%nat. change (Z.to_nat 8) with 8%nat. change (Z.to_nat 9) with 9%nat. change (Z.to_nat 10) with 10%nat. change (Z.to_nat 11) with 11%nat.
  change (Z.to_nat 12) with 12%nat. change (Z.to_nat 13) with 13%nat. change (Z.to_nat 14) with 14%nat. change (Z.to_nat 15) with 15%nat. cbn [nth]. lia.
Qed.

Lemma order_all i : 0 <= i < 18 -> In i order.
Proof.
  intros H. assert (E : forallb (fun i => existsb (Z.eqb i) order) (zseq 0 18) = true) by reflexivity.
  pose proof (proj1 (forallb_forall _ _) E i ltac:(apply in_zseq; cbn; lia)) as H'. apply existsb_exists in H' as (x & Hx & Ex). apply Z.eqb_eq in Ex. now subst.
Qed.
Lemma order_range : Forall (fun i => 0 <= i < 18) order.
Proof. unfold order. repeat constructor; lia. Qed.

Lemma mapM_map {A B} (f : A -> option B) (g : A -> B) l : Forall (fun x => f x = Some (g x)) l -> mapM f l = Some (map g l).
Proof. induction 1 as [|x l E _ IH]; [reflexivity|]. cbn [mapM map]. now rewrite E, IH. Qed.

Lemma zsum_zero (f : Z -> Z) l : Forall (fun i => f i = 0) l -> zsum (map f l) = 0.
Proof. induction 1 as [|x l E _ IH]; [reflexivity|]. cbn [map zsum fold_right]. unfold zsum in IH. lia. Qed.

Lemma trim_firstn l : exists k, firstn (length (trim l)) l = trim l /\ skipn (length (trim l)) l = repeat 0 k /\ (length (trim l) <= length l)%nat /\
  match rev (trim l) with x :: _ => x <> 0 | [] => True end.
Proof.
  destruct (trim_spec l) as (k & E & N). exists k. set (tl := trim l) in *. clearbody tl. subst l.
  rewrite firstn_app, skipn_app, Nat.sub_diag, firstn_all, skipn_all, app_length. cbn [firstn skipn app]. rewrite app_nil_r.
  split; [reflexivity|]. split; [reflexivity|]. split; [lia|exact N].
Qed.

(* how the lengths of the code length codes have to be related: a complete code of lengths up
   to 5, or a single code of length 1 *)
Definition cl_shape (num_codes : Z) (bd : list Z) : Prop :=
  zlen bd = 18 /\ Forall (fun l => 0 <= l <= 5) bd /\
  ((1 < num_codes /\ zsum (map w5 bd) = 32) \/ (num_codes = 1 /\ zsum (map w5 bd) = 16 /\ zsum (map is_code bd) = 1)).

Lemma cl_field_ok v : 0 <= v <= 5 -> field_ok (cl_field v).
Proof. intros H. destruct (huff16_ok 0 v ltac:(lia) H) as (A & B & _). split; [lia|exact B]. Qed.

Lemma tree_of_tree_parses num_codes bd : cl_shape num_codes bd ->
  exists skip fs cl sp nc, store_tree_of_tree num_codes bd = Some ((2, skip) :: fs) /\ (skip = 0 \/ skip = 2 \/ skip = 3) /\ Forall field_ok fs /\
    parses (read_cl_loop (skipn (Z.to_nat skip) kCodeLengthCodeOrder) (fun _ => 0) 32 0) (fields_bits fs) (Some (cl, sp, nc)) /\
    map cl (zseq 0 18) = bd /\ (nc =? 1) || (sp =? 0) = true.
Proof.
  intros (Hlen & Hbd & Hshape). set (b := fun i => nth (Z.to_nat i) bd 0).
  assert (Hb : forall i, 0 <= b i <= 5).
  { intros i. unfold b. destruct (nth_in_or_default (Z.to_nat i) bd 0) as [H| ->]; [|lia]. exact (proj1 (Forall_forall _ _) Hbd _ H). }
  assert (Ho : mapM (znth bd) kStorageOrder = Some (map b order)).
  { apply mapM_map. eapply Forall_impl; [|exact order_range]. intros i Hi. cbv beta in *. apply znth_some. lia. }
  unfold store_tree_of_tree. rewrite Ho.
  change (znth (map b order) 0) with (Some (b 1)). change (znth (map b order) 1) with (Some (b 2)). change (znth (map b order) 2) with (Some (b 3)). cbv iota.
  set (skip := if (b 1 =? 0) && (b 2 =? 0) then if b 3 =? 0 then 3 else 2 else 0).
  assert (Hskip : skip = 0 \/ skip = 2 \/ skip = 3) by (unfold skip; destruct ((b 1 =? 0) && (b 2 =? 0)); [destruct (b 3 =? 0)|]; auto).
  assert (Hsk0 : Forall (fun i => b i = 0) (firstn (Z.to_nat skip) order)).
  { unfold skip. destruct (Z.eqb_spec (b 1) 0); destruct (Z.eqb_spec (b 2) 0); cbn [andb]; try constructor.
    destruct (Z.eqb_spec (b 3) 0); cbn; repeat constructor; assumption. }
  (* the codes stored *)
  assert (Hm : exists m, (Z.to_nat skip <= m <= 18)%nat /\ (if 1 <? num_codes then trim (map b order) else map b order) = map b (firstn m order) /\
    Forall (fun i => b i = 0) (skipn m order) /\
    ((1 < num_codes /\ b (last (skipn (Z.to_nat skip) (firstn m order)) 0) <> 0) \/ (num_codes = 1 /\ m = 18%nat))).
  { destruct Hshape as [(Hn & Hs)|(-> & Hs & _)].
    - replace (1 <? num_codes) with true by lia. destruct (trim_firstn (map b order)) as (k & E1 & E2 & E3 & N). set (m := length (trim (map b order))) in *. set (tl := trim (map b order)) in *.
      assert (Em : map b (firstn m order) = tl) by (rewrite <- firstn_map; exact E1).
      assert (Er : map b (skipn m order) = repeat 0 k) by (rewrite <- skipn_map; exact E2).
      assert (Hrest : Forall (fun i => b i = 0) (skipn m order)).
      { apply Forall_forall. intros i Hi. assert (Hin : In (b i) (repeat 0 k)) by (rewrite <- Er; now apply in_map). now apply repeat_spec in Hin. }
      assert (Hm18 : (m <= 18)%nat). { rewrite map_length in E3. exact E3. }
      clearbody tl. clearbody m.
      assert (Hlast : b (last (firstn m order) 0) <> 0 /\ firstn m order <> []).
      { assert (Hne : firstn m order <> []).
        { intros E0. assert (zsum (map (fun i => w5 (b i)) order) = 0).
          { apply zsum_zero. rewrite <- (firstn_skipn m order), E0. eapply Forall_impl; [|exact Hrest]. intros i Ei. cbv beta in *. now rewrite Ei. }
          unfold b in H. rewrite (order_sum w5 bd Hlen) in H. lia. }
        split; [|assumption]. destruct (exists_last Hne) as (l & x & El). rewrite El, last_last.
        rewrite <- Em, El, map_app, rev_app_distr in N. cbn in N. exact N. }
      exists m. assert (Hsm : (Z.to_nat skip < m)%nat).
      { destruct (Nat.lt_ge_cases (Z.to_nat skip) m) as [|G]; [assumption|]. exfalso. destruct Hlast as (Hl & Hne).
        apply Hl. destruct (exists_last Hne) as (l & x & El). rewrite El, last_last. apply (proj1 (Forall_forall _ _) Hsk0).
        replace (firstn (Z.to_nat skip) order) with (firstn m order ++ skipn m (firstn (Z.to_nat skip) order)).
        - apply in_or_app. left. rewrite El. apply in_or_app. right. now left.
        - rewrite <- (firstn_skipn m (firstn (Z.to_nat skip) order)) at 2. f_equal. rewrite firstn_firstn. f_equal. lia. }
      split; [lia|]. split; [now rewrite Em|]. split; [assumption|]. left. split; [assumption|].
      destruct Hlast as (Hl & Hne). destruct (exists_last Hne) as (l & x & El). rewrite El in *. rewrite last_last in Hl.
      assert (Hll : (Z.to_nat skip <= length l)%nat).
      { pose proof (f_equal (@length Z) El) as EL. rewrite firstn_length, app_length in EL. change (length order) with 18%nat in EL. cbn in EL. lia. }
      rewrite skipn_app. replace (Z.to_nat skip - length l)%nat with 0%nat by lia. cbn [skipn]. rewrite last_last. exact Hl.
    - exists 18%nat. split; [lia|]. split; [reflexivity|]. split; [constructor|]. now right. }
  destruct Hm as (m & Hm & Ecodes & Hrest & Hcase). rewrite Ecodes.
  set (mid := skipn (Z.to_nat skip) (firstn m order)). set (rest := skipn m order).
  assert (Emid : skipn (Z.to_nat skip) order = mid ++ rest).
  { unfold mid, rest. rewrite <- (firstn_skipn m order) at 1. rewrite skipn_app, firstn_length. change (length order) with 18%nat.
    replace (Z.to_nat skip - Nat.min m 18)%nat with 0%nat by lia. reflexivity. }
  assert (Eorder : order = firstn (Z.to_nat skip) order ++ mid ++ rest) by (rewrite <- Emid; now rewrite firstn_skipn).
  assert (Hsum : forall f : Z -> Z, f 0 = 0 -> zsum (map (fun i => f (b i)) mid) = zsum (map f bd)).
  { intros f F0. rewrite <- (order_sum f bd Hlen). fold b. rewrite Eorder. change (fun i => f (nth (Z.to_nat i) bd 0)) with (fun i => f (b i)).
    rewrite !map_app, !zsum_app. rewrite (zsum_zero (fun i => f (b i)) (firstn _ order)), (zsum_zero (fun i => f (b i)) rest); [lia| |];
      (eapply Forall_impl; [|eassumption]); intros i Ei; cbv beta in *; now rewrite Ei. }
  rewrite skipn_map, (mapM_map _ cl_field).
  2: { apply Forall_forall. intros x Hx. apply in_map_iff in Hx as (i & <- & _). specialize (Hb i). unfold cl_field.
       rewrite (znth_some kBitLengthBitLengths (b i) 0), (znth_some kBitLengthSymbols (b i) 0) by (cbn; lia). reflexivity. }
  fold mid. rewrite map_map.
  assert (Hmr : Forall (fun i => 0 <= i < 18) mid). { pose proof order_range as R. rewrite Eorder in R. apply Forall_app in R as (_ & R). now apply Forall_app in R as (R & _). }
  assert (Hw5 : zsum (map (fun i => w5 (b i)) mid) = zsum (map w5 bd)) by (apply Hsum; reflexivity).
  assert (Hic : zsum (map (fun i => is_code (b i)) mid) = zsum (map is_code bd)) by (apply Hsum; reflexivity).
  destruct (cl_loop_parses b rest Hb mid (fun _ => 0) 32 0 (32 - zsum (map w5 bd)) Hmr) as (cl & Hcl & P); [lia| | |].
  { destruct Hcase as [(Hn & Hl)|(Hn & Em)].
    - left. split; [|exact Hl]. destruct Hshape as [|(? & _)]; lia.
    - right. split; [destruct Hshape as [(? & _)|]; lia|]. unfold rest. now rewrite Em. }
  { destruct Hcase as [(Hn & Hl)|(Hn & Em)]; [|right; right; unfold rest; now rewrite Em]. right. left. destruct Hshape as [|(? & _)]; lia. }
  exists skip, (map (fun i => cl_field (b i)) mid), cl, (32 - zsum (map w5 bd)), (0 + zsum (map (fun i => is_code (b i)) mid)).
  split; [reflexivity|]. split; [exact Hskip|]. split. { apply Forall_forall. intros f Hf. apply in_map_iff in Hf as (i & <- & _). apply cl_field_ok, Hb. }
  split; [change kCodeLengthCodeOrder with order; rewrite Emid; exact P|]. split.
  - transitivity (map b (zseq 0 18)).
    + apply map_ext_in. intros i Hi. rewrite Hcl. destruct (existsb (Z.eqb i) mid) eqn:E; [reflexivity|].
      assert (Hi' : 0 <= i < 18). { revert Hi. cbn. lia. }
      pose proof (order_all i Hi') as Hin. rewrite Eorder in Hin. apply in_app_or in Hin as [Hin|Hin]; [symmetry; exact (proj1 (Forall_forall _ _) Hsk0 i Hin)|].
      apply in_app_or in Hin as [Hin|Hin]; [|symmetry; exact (proj1 (Forall_forall _ _) Hrest i Hin)].
      exfalso. assert (existsb (Z.eqb i) mid = true) by (apply existsb_exists; exists i; split; [assumption|apply Z.eqb_refl]). congruence.
    + unfold b. clear -Hlen. assert (L : length bd = 18%nat) by (unfold zlen in Hlen; lia). do 18 (destruct bd as [|? bd]; [discriminate L|]). destruct bd; [|discriminate L]. reflexivity.
  - rewrite Hic. destruct Hshape as [(_ & ->)|(_ & _ & ->)]; [now rewrite Bool.orb_true_r|reflexivity].
Qed.
