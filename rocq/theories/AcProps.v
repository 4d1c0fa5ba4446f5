(** * C57, C58: reading AC coefficients from any file, and reading back what was written *)
From Coq Require Import ZArith List Bool Lia Permutation.
From Verif Require Import Base FieldsModel AcModel AcSpec AcProofs.
Import ListNotations.
Local Open Scope Z_scope.

(** C57: whatever values are read from the file, with any usable block context map, any
    set of histograms of the group and any blocks, no context map, table, block context
    map or coefficient is accessed outside of its memory, as long as there are fewer than
    2^31 contexts. *)
Theorem C57_no_stray_access : forall (S : Type) (read : S -> Z -> Z * S),
  (forall st c, is_u32 (fst (read st c))) ->
  forall m num_hist cur bits shift, usable m -> 0 <= cur < num_hist -> num_hist * num_ac m <= 2 ^ 31 ->
  forall blocks f st, Forall (well_formed m) blocks ->
  dec_blocks S read (num_hist * num_ac m + (474 - 458)) (cur * num_ac m) bits shift m blocks f st <> Stray.
Proof.
  intros S read Hr m num_hist cur bits shift Hu Hc Hn blocks f st Hb.
  apply (dec_blocks_safe S read Hr _ _ bits shift m num_hist cur); auto.
  apply usable_inv. assumption.
Qed.
Print Assumptions C57_no_stray_access.

(** The contexts: block contexts are below their number, which is at most 16 *)
Theorem C57_block_context : forall m v, usable m -> well_formed m v ->
  exists bc, context m (v_dc v) (v_qf v) (v_ord v) (v_c v) = Some bc /\ 0 <= bc < nctx m /\ nctx m <= 16.
Proof. intros m v Hu Hw. apply context_some; auto. apply usable_inv. assumption. Qed.
Print Assumptions C57_block_context.

(** Contexts of different kinds are apart: counts of different buckets or block contexts,
    counts and coefficients, coefficients of different block contexts. *)
Theorem C57_contexts_apart : forall m bc bc', usable m -> 0 <= bc < nctx m -> 0 <= bc' < nctx m ->
  (forall p p', 0 <= p < 2 ^ 31 -> 0 <= p' < 2 ^ 31 ->
    nonzero_context m p bc = nonzero_context m p' bc' -> bc = bc' /\ count_bucket p = count_bucket p') /\
  (forall p z, 0 <= z < 458 -> nonzero_context m p bc < zd_offset m bc' + z < num_ac m) /\
  (forall z z', 0 <= z < 458 -> 0 <= z' < 458 -> zd_offset m bc + z = zd_offset m bc' + z' -> bc = bc' /\ z = z').
Proof.
  intros m bc bc' Hu Hb Hb'. pose proof (usable_inv m Hu) as (_ & _ & _ & _ & H16).
  rewrite !zd_offset_eq, num_ac_eq by lia. split; [|split].
  - intros p p' Hp Hp' E. rewrite !nonzero_eq in E by assumption.
    destruct (pair_unique _ _ _ _ _ Hb Hb' E). auto.
  - intros p z Hz. pose proof (nonzero_range m p bc Hb H16). lia.
  - intros z z' Hz Hz' E. apply (pair_unique 458); lia.
Qed.
Print Assumptions C57_contexts_apart.

(** A reader that says 63 nonzero coefficients and then only zeros *)
Definition liar (st : nat) (_ : Z) : Z * nat := (match st with O => 63 | _ => 0 end, Datatypes.S st).
Definition single : bctx := Bctx [] [] [] [] (repeat 0 39) 1 1.
Definition small : vblock := VB 1 0 0 1 1 0 5 0 (fun k => k).

Lemma liar_u32 : forall st c, is_u32 (fst (liar st c)).
Proof. intros [|st] c; cbn; unfold is_u32; lia. Qed.

Lemma single_usable : usable single.
Proof.
  right. exists [], [], [], [], (fun n => if n =? 39 then Some (repeat 0 39, 1) else None). split; [|reflexivity].
  intros n l k H. destruct (n =? 39) eqn:E; [|discriminate]. apply Z.eqb_eq in E. subst n.
  injection H as <- <-. split; [reflexivity|]. cbn [repeat]. repeat constructor; lia.
Qed.

Lemma small_ok m : inv m -> ndc m = 1 -> well_formed m small.
Proof.
  intros Hi Hn. unfold well_formed, small. cbn [v_c v_x v_y v_cx v_cy v_dc v_qf v_ord v_order].
  split; [exists 0, 0; cbn; lia|]. unfold num_orders. do 4 (split; [lia|]). split.
  - exists 0, 0, 0. unfold dc_bucket. rewrite Hn. reflexivity.
  - apply Forall_forall. intros x Hx. apply in_range in Hx. unfold bsize, covered in *. cbn [v_cx v_cy] in *. lia.
Qed.

(** The slack of 16 entries behind the context map is needed: without it a file that
    announces more nonzero coefficients than there are left reads outside. *)
Theorem C57_without_slack_refuted : ~ (forall (S : Type) (read : S -> Z -> Z * S),
  (forall st c, is_u32 (fst (read st c))) ->
  forall m num_hist cur bits shift, usable m -> 0 <= cur < num_hist -> num_hist * num_ac m <= 2 ^ 31 ->
  forall blocks f st, Forall (well_formed m) blocks ->
  dec_blocks S read (num_hist * num_ac m) (cur * num_ac m) bits shift m blocks f st <> Stray).
Proof.
  intros H. apply (H nat liar liar_u32 single 1 0 32 0 single_usable ltac:(lia) ltac:(vm_compute; discriminate)
    [small] (fun _ _ _ => 0) O).
  - constructor; [|constructor]. apply small_ok; [apply usable_inv, single_usable | reflexivity].
  - vm_compute. reflexivity.
Qed.
Print Assumptions C57_without_slack_refuted.

(** With more contexts than 2^31 (about 289000 sets of histograms with the default block
    context map, which a frame of as many groups may have) the context of the number of
    nonzero coefficients, an int32_t, is negative. *)
Theorem C57_many_histograms_refuted : ~ (forall (S : Type) (read : S -> Z -> Z * S),
  (forall st c, is_u32 (fst (read st c))) ->
  forall m num_hist cur bits shift, usable m -> 0 <= cur < num_hist ->
  forall blocks f st, Forall (well_formed m) blocks ->
  dec_blocks S read (num_hist * num_ac m + (474 - 458)) (cur * num_ac m) bits shift m blocks f st <> Stray).
Proof.
  intros H. assert (Hu : usable default_bctx) by (left; reflexivity).
  apply (H nat liar liar_u32 default_bctx 289226 289225 32 0 Hu ltac:(lia) [small] (fun _ _ _ => 0) O).
  - constructor; [|constructor]. apply small_ok; [apply usable_inv, Hu | reflexivity].
  - vm_compute. reflexivity.
Qed.
Print Assumptions C57_many_histograms_refuted.

(** The hypotheses of C57 are met; the lying file is refused. *)
Example C57_refused :
  well_formed single small /\
  dec_blocks nat liar (1 * num_ac single + (474 - 458)) (0 * num_ac single) 32 0 single [small] (fun _ _ _ => 0) O = Bad.
Proof.
  split; [apply small_ok; [apply usable_inv, single_usable | reflexivity] | vm_compute; reflexivity].
Qed.

(** C58: any blocks of a group, of any sizes and with any coefficients of the given
    number of bits, with nothing in the lowest frequencies: the encoder makes tokens, all
    with contexts that have a histogram, and the decoder gets back all the coefficients
    and stops behind the last token.  The DC coefficient of an 8x8 block is not coded.  The
    maps of counts may hold anything before the first block, and other things in the
    encoder than in the decoder. *)
Theorem C58_round_trip : forall m bits num_hist cur, usable m -> 1 <= bits <= 32 ->
  0 <= cur < num_hist -> num_hist * num_ac m <= 2 ^ 31 ->
  forall l f f', in_order [] (map fst l) ->
  Forall (fun p => well_formed m (fst p) /\ full_order (fst p) /\ codable bits (fst p) (snd p)) l ->
  exists ts, enc_blocks m l f = Some ts /\
    Forall (fun t => 0 <= fst t < num_ac m /\ is_u32 (snd t)) ts /\
    forall rest, exists ds,
      dec_blocks _ (read_token (cur * num_ac m)) (num_hist * num_ac m + (474 - 458)) (cur * num_ac m) bits 0
        m (map fst l) f' (ts ++ rest) = Fine (ds, rest) /\
      Forall2 (fun p d => forall i, 0 <= i < bsize (fst p) ->
        d i = if (covered (fst p) =? 1) && (i =? 0) then 0 else snd p i) l ds.
Proof.
  intros m bits num_hist cur Hu Hb Hc Hn l f f' Ho Hl.
  destruct (blocks_trip m bits num_hist cur (usable_inv m Hu) Hb Hc Hn l f' Hl) as (ts & H1 & H2 & H3).
  exists ts. rewrite (enc_indep m l [] f f' Ho (agree_nil f f')). auto.
Qed.
Print Assumptions C58_round_trip.

(** A block of 16x8 with its two lowest frequencies first *)
Definition wide : vblock := VB 1 1 0 2 1 0 5 4 (fun k => k).

Lemma wide_ok : well_formed default_bctx wide /\ full_order wide.
Proof.
  split.
  - unfold well_formed, wide. cbn [v_c v_x v_y v_cx v_cy v_dc v_qf v_ord v_order].
    split; [exists 1, 0; cbn; lia|]. unfold num_orders. do 4 (split; [lia|]). split.
    + exists 0, 0, 0. reflexivity.
    + apply Forall_forall. intros x Hx. apply in_range in Hx. unfold bsize, covered in *. cbn [v_cx v_cy] in *. lia.
  - split.
    + cbn [wide v_order]. rewrite map_id. apply Permutation_refl.
    + intros k Hk. unfold low, bsize, covered, wide in *. cbn [v_cx v_cy v_order] in *.
      change (Z.max 2 1 * 8) with 16. change (Z.min 2 1) with 1. change (Z.max 2 1) with 2.
      split.
      * intros [H1 H2]. pose proof (Z.div_mod k 16 ltac:(lia)). pose proof (Z.div_pos k 16 ltac:(lia) ltac:(lia)). lia.
      * intros H. rewrite Z.div_small, Z.mod_small by lia. lia.
Qed.

Lemma small_full : full_order small.
Proof.
  split.
  - cbn [small v_order]. rewrite map_id. apply Permutation_refl.
  - intros k Hk. unfold low, bsize, covered, small in *. cbn [v_cx v_cy v_order] in *.
    change (Z.max 1 1 * 8) with 8. change (Z.min 1 1) with 1. change (Z.max 1 1) with 1.
    split.
    + intros [H1 H2]. pose proof (Z.div_mod k 8 ltac:(lia)). pose proof (Z.div_pos k 8 ltac:(lia) ltac:(lia)).
      pose proof (Z.mod_pos_bound k 8 ltac:(lia)). lia.
    + intros H. rewrite Z.div_small, Z.mod_small by lia. lia.
Qed.

(** The hypotheses are met by an 8x8 block with a DC coefficient and a 16x8 block. *)
Example C58_met :
  let b1 := fun i => if i =? 0 then 77 else if i =? 9 then -3 else if i =? 63 then 32767 else 0 in
  let b2 := fun i => if i =? 5 then 2 else if i =? 127 then -32768 else 0 in
  in_order [] [small; wide] /\
  Forall (fun p => well_formed default_bctx (fst p) /\ full_order (fst p) /\ codable 16 (fst p) (snd p)) [(small, b1); (wide, b2)].
Proof.
  cbv zeta. split.
  { cbn. repeat split; try lia. intros _. left. cbn. lia. }
  constructor; [|constructor; [|constructor]]; cbn [fst snd].
  - split; [apply small_ok; [apply usable_inv; left; reflexivity | reflexivity]|]. split; [apply small_full|].
    split; [|intros H; exfalso; apply H; reflexivity]. change (2 ^ (16 - 1)) with 32768.
    intros i. destruct (i =? 0), (i =? 9), (i =? 63); lia.
  - split; [apply wide_ok|]. split; [apply wide_ok|]. split.
    + change (2 ^ (16 - 1)) with 32768. intros i. destruct (i =? 5), (i =? 127); lia.
    + intros _ i Hi [_ Hl]. unfold wide, bsize, covered in *. cbn [v_cx v_cy] in *.
      change (Z.max 2 1 * 8) with 16 in Hl. change (Z.max 2 1) with 2 in Hl.
      destruct (i =? 5) eqn:E5; [apply Z.eqb_eq in E5; subst; vm_compute in Hl; discriminate|].
      destruct (i =? 127) eqn:E7; [apply Z.eqb_eq in E7; subst; vm_compute in Hl; discriminate|]. reflexivity.
Qed.

(** The lowest frequencies of blocks larger than 8x8 are not ignored, as the comment of
    the function that counts them says: a nonzero one there is counted, and the encoder
    fails.  (The quantizer does not make them.) *)
Theorem C58_low_frequencies_refuted : ~ (forall m bits, usable m -> 1 <= bits <= 32 ->
  forall v b f, well_formed m v -> full_order v -> (forall i, - 2 ^ (bits - 1) <= b i < 2 ^ (bits - 1)) ->
  exists ts, enc_blocks m [(v, b)] f = Some ts).
Proof.
  intros H.
  destruct (H default_bctx 16 (or_introl eq_refl) ltac:(lia) wide (fun i => if i =? 0 then 1 else 0) (fun _ _ _ => 0)
    (proj1 wide_ok) (proj2 wide_ok)) as (ts & E).
  - change (2 ^ (16 - 1)) with 32768. intros i. destruct (i =? 0); lia.
  - vm_compute in E. discriminate.
Qed.
Print Assumptions C58_low_frequencies_refuted.
