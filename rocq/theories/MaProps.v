(* C25, C50: the decision trees of modular coding. *)
From Verif Require Import Base BitReaderModel BitReaderSpec BitProg BitProgProofs HybridUintModel HybridUintSpec AnsModel HistoSpec MtfSpec CodesModel CodesSpec
  LehmerSpec TocModel TocSpec PermProofs MaModel MaSpec MaProofs MaValid MaTok TocProps CodesProps.

(* ---- C25 ---- *)

(* Whatever the bits are, and wherever they end ([within]): no undefined behaviour, and an accepted
   tree is well formed; its nodes make up a tree in which each leaf can be reached. *)
Theorem C25_any_bits : forall M within limit, lane_count (m_lanes M) -> 0 <= limit -> forall s pos av, 0 <= pos -> 0 <= av <= 56 ->
  exists r pos' av', run_bits s pos av (decode_tree M within limit) = Some (Some r, (pos', av')) /\ pos <= pos' /\ 0 <= av' <= 56 /\
    forall t, r = Some t -> well_formed t /\ 1 <= zlen t <= Z.min limit kMaxTreeSize + 1 /\
      exists T, stored t 0 T /\ nodes_of T = zlen t /\ each_leaf_needed T.
Proof. exact any_tree. Qed.
Print Assumptions C25_any_bits.

(* ValidateTree answers whether each leaf can be reached. *)
Theorem C25_validate : forall t T, stored t 0 T -> nodes_of T <= zlen t -> exists b, validate_tree t = Some b /\ (b = true <-> each_leaf_needed T).
Proof. exact validate_meaning. Qed.
Print Assumptions C25_validate.

Definition bits_case (fs : option (list (Z * Z))) : list bool := match fs with Some fs => fields_bits fs | None => [] end.
Definition tree_case : list node :=
  [Node 9 3 1 2 0 0 1; Node (-1) 0 7 0 5 (-4) 12; Node 2 (-1) 3 4 0 0 1; Node (-1) 0 0 0 6 0 1; Node (-1) 0 0 0 0 100 2].
Definition tree_tokens : list token := match tokenize_tree 5 tree_case with Some (Some (ts, _)) => ts | _ => [] end.
Definition tree_plan : plan := Plan (LZ77 false 224 3 (HC 0 0 0) 0) (repeat 0 6) true 15 [HC 4 2 0] [repeat 1 40] [].
Definition tree_bits : list bool := bits_case (encode_with_plan (fun _ => Entry 0 0 0 0 0) MSimple tree_plan tree_tokens).

(* Not so: that a tree has at most as many nodes as the limit. *)
Theorem C25_size_limit_refuted : exists M within limit s t r, lane_count (m_lanes M) /\ 0 <= limit /\ run_bits s 0 0 (decode_tree M within limit) = Some (Some (Some t), r) /\ limit < zlen t.
Proof.
  exists case_machine, (fun _ => true), 4, tree_bits. do 2 eexists. split; [exists 5; cbn; lia|]. split; [discriminate|]. split; [vm_compute; reflexivity|reflexivity].
Qed.
Print Assumptions C25_size_limit_refuted.

(* a case: three leaves *)
Example C25_case : match run_bits tree_bits 0 0 (decode_tree case_machine (fun _ => true) 100) with
  | Some (Some (Some t), (pos, _)) => pos = zlen tree_bits /\ t =
      [Node 9 3 1 2 0 0 1; Node (-1) 0 0 0 5 (-4) 12; Node 2 (-1) 3 4 0 0 1; Node (-1) 0 1 0 6 0 1; Node (-1) 0 2 0 0 100 2]
  | _ => False
  end.
Proof. vm_compute. repeat split. Qed.
(* a leaf that cannot be reached, as property 9 is at most 3 there *)
Example C25_case_refused : validate_tree [Node 9 3 1 2 0 0 1; Node (-1) 0 0 0 0 0 1; Node 9 7 3 4 0 0 1; Node (-1) 0 0 0 6 0 1; Node (-1) 0 0 0 0 100 2] = Some false.
Proof. reflexivity. Qed.

(* ---- C50 ---- *)

(* A tree whose leaves can be reached is written, and read back; only the contexts are changed: they
   are given anew (see well_formed).  With LZ77 the code must be able to say, outside copies, that a
   node is a leaf. *)
Theorem C50_roundtrip : forall M mem within limit tree T fuel, lane_count (m_lanes M) -> (forall n, within n = true) -> stored tree 0 T -> writable T -> each_leaf_needed T ->
  zlen tree <= kMaxTreeSize -> nodes_of T <= Z.min limit kMaxTreeSize + 1 -> nodes_of T <= Z.of_nat fuel ->
  exists raw out, tokenize_tree fuel tree = Some (Some (raw, out)) /\ well_formed out /\
    (exists T', stored out 0 T' /\ no_contexts T' = no_contexts T /\ nodes_of T' = zlen out) /\
    forall mp p ts, coding_of kNumTreeContexts mp p ts raw -> lz_enabled (p_lz p) = false \/ says_leaf p ->
      exists fs, encode_with_plan mem mp p ts = Some fs /\ Forall field_ok fs /\
        parses (decode_tree M within limit) (fields_bits fs) (Some (Some out)).
Proof. exact tree_roundtrip. Qed.
Print Assumptions C50_roundtrip.

Definition tree_case_tree : mtree := MSplit 9 3 (MLeaf 7 5 (-4) 12) (MSplit 2 (-1) (MLeaf 0 6 0 1) (MLeaf 0 0 100 2)).
Example C50_case : stored tree_case 0 tree_case_tree /\ writable tree_case_tree /\ each_leaf_needed tree_case_tree.
Proof.
  split; [|split].
  - apply (stored_split tree_case 0 (Node 9 3 1 2 0 0 1)); [reflexivity|cbn; lia|apply (stored_leaf tree_case 1 (Node (-1) 0 7 0 5 (-4) 12)); reflexivity|].
    apply (stored_split tree_case 2 (Node 2 (-1) 3 4 0 0 1)); [reflexivity|cbn; lia|apply (stored_leaf tree_case 3 (Node (-1) 0 0 0 6 0 1)); reflexivity|apply (stored_leaf tree_case 4 (Node (-1) 0 0 0 0 100 2)); reflexivity].
  - cbn. unfold is_i32. lia.
  - intros path H. cbn in H. destruct path as [|[] path]; [contradiction| |].
    + destruct path; [|contradiction]. split; [reflexivity|]. exists (fun _ => 4). split; [intros i; unfold is_i32; lia|reflexivity].
    + destruct path as [|[] [|]]; try contradiction; (split; [reflexivity|]).
      * exists (fun _ => 3). split; [intros i; unfold is_i32; lia|reflexivity].
      * exists (fun _ => -1). split; [intros i; unfold is_i32; lia|reflexivity].
Qed.
Example C50_case_coding : coding_of kNumTreeContexts MSimple tree_plan tree_tokens tree_tokens.
Proof.
  unfold tree_tokens. match goal with |- coding_of _ _ _ ?t _ => let v := eval vm_compute in t in change t with v end.
  split; [|split; [|split]].
  - split; [discriminate|]. split; [reflexivity|]. split; [split; [cbn; lia|]; intros h; cbn; lia|]. split; [repeat (apply Forall_cons; [unfold hconfig_codable; cbn; lia|]); apply Forall_nil|].
    cbn [histograms_ok p_prefix tree_plan p_log_alpha p_histograms p_configs]. split; [reflexivity|]. split; [reflexivity|]. constructor; [|constructor]. split; [cbn; lia|]. exists 3. split; [cbn; repeat constructor; lia|]. cbn; lia.
  - intros _. left. reflexivity.
  - repeat (eapply pl_literal; [split; [unfold is_u32; cbn; lia|]; split; [reflexivity|]; do 4 eexists; split; [reflexivity|]; split; [reflexivity|]; split; [reflexivity|]; split; [cbn; lia|]; eexists; split; [reflexivity|]; split; vm_compute; [split; [discriminate|reflexivity]|reflexivity]|cbn; lia|]).
    apply pl_nil.
  - eexists. split; [reflexivity|]. repeat constructor.
Qed.
