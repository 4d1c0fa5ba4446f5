(* C24: decision trees as they are used. *)
From Verif Require Import Base MaModel MaSpec MaProofs MaValid MaFlat MaLut.

(* The trees in question are those the decoder accepts (C25_any_bits: well_formed, stored, each_leaf_needed,
   at most 2^22 + 1 nodes) or the encoder's tokenizer puts out (C50_roundtrip).

   FilterTree, given the channel and the group, makes a flat tree that leads from each vector of properties
   with this channel and this group to the same leaf as the tree; it says how many properties are needed,
   and whether the weighted predictor is needed, is all there is, or the gradient is all there is. *)
Theorem C24_flat_tree : forall t T sp, well_formed t -> stored t 0 T -> nodes_of T = zlen t -> zlen t <= 2 ^ 23 -> let R := resolve sp T in
  exists fl np use_wp wp_only grad, filter_tree t sp = Some (fl, np, use_wp, wp_only, grad) /\ 1 <= zlen fl < 2 * zlen t /\
    (forall p v, has_split R p v -> 2 <= p < np) /\ 16 <= np < 260 /\ np mod 4 = 0 /\ (np = 16 \/ exists p v, has_split R p v /\ np - 4 <= p) /\
    (forall pv, agrees sp pv -> lookup (length fl) fl np pv 0 = Some (decide T pv)) /\
    (use_wp = true <-> (exists v, has_split R 15 v) \/ has_leaf R 6) /\
    (wp_only = true <-> (forall p v, has_split R p v -> p = 15) /\ (forall q, has_leaf R q -> q = 6)) /\
    (grad = true <-> (forall p v, has_split R p v -> p = 9) /\ (forall q, has_leaf R q -> q = 5)).
Proof.
  intros t T sp A B C D. destruct (filter_spec t T sp A B C D) as (fl & np & uw & wo & g & H1 & _ & H2 & _ & H3). exists fl, np, uw, wo, g. auto.
Qed.
Print Assumptions C24_flat_tree.

(* The same with the leaves' contexts replaced by those of a context map. *)
Theorem C24_clustered : forall t T sp cm, well_formed t -> stored t 0 T -> nodes_of T = zlen t -> zlen t <= 2 ^ 23 -> zlen cm = zlen (filter is_leaf t) ->
  exists fl np use_wp wp_only grad fc, filter_tree t sp = Some (fl, np, use_wp, wp_only, grad) /\ cluster_leaves cm fl = Some fc /\
    forall pv, agrees sp pv -> exists c p o m x, decide T pv = (c, p, o, m) /\ znth cm c = Some x /\ lookup (length fc) fc np pv 0 = Some (x, p, o, m).
Proof.
  intros t T sp cm A B C D H. destruct (clustered_lookup t T sp cm A B C D H) as (fl & np & uw & wo & g & fc & H1 & H2 & _ & _ & H3). exists fl, np, uw, wo, g, fc. auto.
Qed.
Print Assumptions C24_clustered.

(* If a tree asks for one property only, and a table is made of it, the table says what the tree says:
   for properties from -8192 on, and for all when there is no split at -8193. *)
Theorem C24_lut : forall t T sp cm wrap lut0, well_formed t -> stored t 0 T -> nodes_of T = zlen t -> zlen t <= 2 ^ 23 -> each_leaf_needed T -> zlen cm = zlen (filter is_leaf t) ->
  exists fl np use_wp wp_only grad fc r, filter_tree t sp = Some (fl, np, use_wp, wp_only, grad) /\ cluster_leaves cm fl = Some fc /\
    forall q predictor, (wp_only = true /\ q = 15 /\ predictor = 6) \/ (grad = true /\ q = 9 /\ predictor = 5) -> tree_to_lut wrap fc lut0 = Some r /\
      forall lut, r = Some lut -> forall pv, agrees sp pv -> -8192 <= pv q \/ ~ has_split (resolve sp T) q (-8193) ->
        exists c x, decide T pv = (c, predictor, 0, 1) /\ znth cm c = Some x /\ lut_at lut (pv q) = Some (wrap x).
Proof. exact lut_meaning. Qed.
Print Assumptions C24_lut.

(* a case: a split on the channel, then two on property 9; in channel 1 a table can be made *)
Definition flat_case : list node :=
  [Node 0 0 1 2 0 0 1; Node 9 (-5) 3 4 0 0 1; Node (-1) 0 0 0 6 3 2; Node 9 70 5 6 0 0 1; Node (-1) 0 1 0 5 0 1; Node (-1) 0 2 0 5 0 1; Node (-1) 0 3 0 5 0 1].
Definition flat_case_tree : mtree :=
  MSplit 0 0 (MSplit 9 (-5) (MSplit 9 70 (MLeaf 2 5 0 1) (MLeaf 3 5 0 1)) (MLeaf 1 5 0 1)) (MLeaf 0 6 3 2).
Definition at_channel (c i : Z) : Z := if i =? 0 then c else 7.
Lemma flat_case_well_formed : well_formed flat_case.
Proof.
  split; [|split; [|split]].
  - intros i n E H. destruct (Z.ltb_spec i 0); [unfold znth in E; replace (i <? 0) with true in E by lia; discriminate|]. assert (i < 7). { apply AliasProofs.znth_bound in E. change (zlen flat_case) with 7 in E. lia. }
    assert (i = 0 \/ i = 1 \/ i = 2 \/ i = 3 \/ i = 4 \/ i = 5 \/ i = 6) as [->|[->|[->|[->|[->|[->| ->]]]]]] by lia; injection E as <-; try discriminate H; vm_compute; repeat split; congruence.
  - intros i n E H. destruct (Z.ltb_spec i 0); [unfold znth in E; replace (i <? 0) with true in E by lia; discriminate|]. assert (i < 7). { apply AliasProofs.znth_bound in E. change (zlen flat_case) with 7 in E. lia. }
    assert (i = 0 \/ i = 1 \/ i = 2 \/ i = 3 \/ i = 4 \/ i = 5 \/ i = 6) as [->|[->|[->|[->|[->|[->| ->]]]]]] by lia; injection E as <-; try discriminate H; vm_compute; repeat split; congruence.
  - intros j Hj. change (zlen flat_case) with 7 in Hj.
    assert (U : forall i, child_of flat_case i j -> i = match j with 1 | 2 => 0 | 3 | 4 => 1 | _ => 3 end).
    { intros i (n & E & L & K). assert (B : 0 <= i < 7). { apply AliasProofs.znth_bound in E. change (zlen flat_case) with 7 in E. lia. }
      assert (i = 0 \/ i = 1 \/ i = 2 \/ i = 3 \/ i = 4 \/ i = 5 \/ i = 6) as [->|[->|[->|[->|[->|[->| ->]]]]]] by lia; injection E as <-; try discriminate L; cbn in K; destruct K as [<-|<-]; reflexivity. }
    exists (match j with 1 | 2 => 0 | 3 | 4 => 1 | _ => 3 end). split; [|exact U].
    assert (j = 1 \/ j = 2 \/ j = 3 \/ j = 4 \/ j = 5 \/ j = 6) as [->|[->|[->|[->|[->| ->]]]]] by lia; (eexists; split; [reflexivity|split; [reflexivity|cbn; lia]]).
  - reflexivity.
Qed.
Lemma flat_case_stored : stored flat_case 0 flat_case_tree.
Proof.
  unfold flat_case_tree. repeat first
    [ apply (stored_split flat_case 0 (Node 0 0 1 2 0 0 1)); [reflexivity|discriminate| |]
    | apply (stored_split flat_case 1 (Node 9 (-5) 3 4 0 0 1)); [reflexivity|discriminate| |]
    | apply (stored_split flat_case 3 (Node 9 70 5 6 0 0 1)); [reflexivity|discriminate| |]
    | apply (stored_leaf flat_case 2 (Node (-1) 0 0 0 6 3 2)); reflexivity
    | apply (stored_leaf flat_case 4 (Node (-1) 0 1 0 5 0 1)); reflexivity
    | apply (stored_leaf flat_case 5 (Node (-1) 0 2 0 5 0 1)); reflexivity
    | apply (stored_leaf flat_case 6 (Node (-1) 0 3 0 5 0 1)); reflexivity ].
Qed.
Example C24_case_hypotheses : well_formed flat_case /\ stored flat_case 0 flat_case_tree /\ nodes_of flat_case_tree = zlen flat_case /\ each_leaf_needed flat_case_tree.
Proof.
  split; [exact flat_case_well_formed|]. split; [exact flat_case_stored|]. split; [reflexivity|].
  destruct (validate_meaning flat_case flat_case_tree flat_case_stored ltac:(cbn; lia)) as (b & E & H). apply H. vm_compute in E. now apply HuffRle.Some_eq in E.
Qed.
Example C24_case : match filter_tree flat_case (at_channel 1) with
  | Some (fl, np, use_wp, wp_only, grad) => fl = [FNode 9 (-5) 9 70 0 0 1; FLeaf 2 5 0 1; FLeaf 3 5 0 1; FLeaf 1 5 0 1; FLeaf 1 5 0 1] /\ (np, use_wp, wp_only, grad) = (16, false, false, true) /\
      match cluster_leaves [0; 4; 5; 4] fl with
      | Some fc => match tree_to_lut w8 fc (fun _ => 0) with
                   | Some (Some lut) => map (lut_at lut) [-100000; -5; -4; 70; 71; 100000] = [Some 4; Some 4; Some 4; Some 4; Some 5; Some 5]
                   | _ => False
                   end
      | None => False
      end
  | None => False
  end.
Proof. vm_compute. repeat split. Qed.

(* Not so: that the table says what the tree says for every property.  The tree takes the right way at
   property 9 <= -8193, the table the left one: a split at -8193 is let through although it is not in the
   table's range. *)
Definition lut_case : list node := [Node 9 (-8193) 1 2 0 0 1; Node (-1) 0 0 0 5 0 1; Node (-1) 0 1 0 5 0 1].
Definition lut_case_tree : mtree := MSplit 9 (-8193) (MLeaf 0 5 0 1) (MLeaf 1 5 0 1).
Theorem C24_lut_refuted : exists t T sp fl np use_wp wp_only lut pv, stored t 0 T /\ nodes_of T = zlen t /\ each_leaf_needed T /\
  filter_tree t sp = Some (fl, np, use_wp, wp_only, true) /\ tree_to_lut w8 fl (fun _ => 0) = Some (Some lut) /\ agrees sp pv /\ (forall i, is_i32 (pv i)) /\
  decide T pv = (1, 5, 0, 1) /\ lut_at lut (pv 9) = Some 0.
Proof.
  assert (St : stored lut_case 0 lut_case_tree).
  { apply (stored_split lut_case 0 (Node 9 (-8193) 1 2 0 0 1)); [reflexivity|discriminate|apply (stored_leaf lut_case 1 (Node (-1) 0 0 0 5 0 1)); reflexivity|apply (stored_leaf lut_case 2 (Node (-1) 0 1 0 5 0 1)); reflexivity]. }
  exists lut_case, lut_case_tree, (fun _ => 0). do 4 eexists. set (lut := match tree_to_lut w8 [FNode 9 (-8193) 0 0 0 0 1; FLeaf 0 5 0 1; FLeaf 0 5 0 1; FLeaf 1 5 0 1; FLeaf 1 5 0 1] (fun _ => 0) with Some (Some l) => l | _ => fun _ => 0 end).
  exists lut, (fun i => if i <? 2 then 0 else -9000). split; [exact St|]. split; [reflexivity|]. split.
  { destruct (validate_meaning lut_case lut_case_tree St ltac:(cbn; lia)) as (b & E & H). apply H. vm_compute in E. now apply HuffRle.Some_eq in E. }
  split; [vm_compute; reflexivity|]. split.
  { unfold lut. match goal with |- ?x = _ => assert (K : match x with Some (Some _) => true | _ => false end = true) by (vm_compute; reflexivity); destruct x as [[l|]|]; [reflexivity|discriminate..] end. }
  split; [split; reflexivity|]. split; [intros i; destruct (i <? 2); unfold is_i32; lia|]. split; [reflexivity|]. vm_compute. reflexivity.
Qed.
Print Assumptions C24_lut_refuted.
