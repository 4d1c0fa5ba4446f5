(* The concrete bundles are well formed. *)
From Verif Require Import Base ListAux BitIOProofs BitReaderModel BitProg BitProgProofs FieldsModel FieldsSpec FieldsProofs BundleModel BundleSpec BundleProofs BundleTrunc BundleDefaults BundleExt Wrap HeadersModel HeadersSpec.

Definition own (lo hi x : Z) : bool := (lo <=? x) && (x <? hi).

(* ---- general lemmas ---- *)

Fixpoint mono (p : prog) : Prop :=
  match p with
  | Seq p q | If _ p q | Branch _ p q => mono p /\ mono q
  | AllDef p => mono p
  | Assign _ e => rds e = []
  | _ => True
  end.

Lemma mono_incl p : mono p -> forall D, incl D (surely D p).
Proof.
  induction p as [|c d x cx tow fromw|p IHp q IHq|c p IHp q IHq|c p IHp q IHq|p IHp|x|c|c|x e|n body IH];
    cbn [mono surely]; intros Hm D; try apply incl_refl.
  - apply incl_tl, incl_refl.
  - eapply incl_tran; [apply IHp; tauto|apply IHq; tauto].
  - intros x Hx. apply inter_iff. split; [apply IHp|apply IHq]; tauto.
  - intros x Hx. apply inter_iff. split; [apply IHp|apply IHq]; tauto.
  - now apply IHp.
  - apply incl_tl, incl_refl.
  - rewrite Hm. cbn. apply incl_tl, incl_refl.
Qed.

Lemma surely_loop_snoc D body k : surely_loop D body (S k) = surely (surely_loop D body k) (body (Z.of_nat k)).
Proof.
  unfold surely_loop. rewrite zrange_snoc, fold_left_app. cbn [fold_left]. now rewrite Z.add_0_l.
Qed.

Lemma surely_loop_incl D body : (forall i, 0 <= i -> mono (body i)) -> forall k, incl D (surely_loop D body k).
Proof.
  intros Hm k. induction k as [|k IH]; [apply incl_refl|]. rewrite surely_loop_snoc.
  eapply incl_tran; [exact IH|]. apply mono_incl, Hm. lia.
Qed.

Lemma wf_for U D n body : subset (rds n) D = true -> (forall i, 0 <= i -> mono (body i)) ->
  (forall i D' U', 0 <= i -> incl D D' -> well_formed U' D' (body i)) -> well_formed U D (For n body).
Proof.
  intros Hn Hm Hw. cbn [well_formed]. split; [exact Hn|]. intros k.
  pose proof (surely_loop_incl D body Hm k) as Hi. split; [exact Hi|]. apply Hw; [lia|exact Hi].
Qed.

Lemma wf_for_k U D n body : subset (rds n) D = true -> (forall i, 0 <= i -> mono (body i)) ->
  (forall k U', incl D (surely_loop D body k) -> well_formed U' (surely_loop D body k) (body (Z.of_nat k))) ->
  well_formed U D (For n body).
Proof.
  intros Hn Hm Hw. cbn [well_formed]. split; [exact Hn|]. intros k.
  pose proof (surely_loop_incl D body Hm k) as Hi. split; [exact Hi|]. apply Hw. exact Hi.
Qed.

Lemma wf_steps_cons U D p q l : well_formed U D p -> well_formed (fun y => U y \/ touches p y) (surely D p) (steps (q :: l)) ->
  well_formed U D (steps (p :: q :: l)).
Proof. intros H1 H2. cbn [steps well_formed]. auto. Qed.

Lemma wf_seq U D p q : well_formed U D p -> well_formed (fun y => U y \/ touches p y) (surely D p) q -> well_formed U D (Seq p q).
Proof. intros H1 H2. split; assumption. Qed.
Lemma wf_if U D c p q : subset (rds c) D = true -> well_formed U D p -> well_formed U D q -> well_formed U D (If c p q).
Proof. intros H1 H2 H3. repeat split; assumption. Qed.
Lemma wf_branch U D c p q : subset (rds c) D = true -> well_formed U D p -> well_formed U D q -> well_formed U D (Branch c p q).
Proof. intros H1 H2 H3. repeat split; assumption. Qed.
Lemma wf_alldef U D p : well_formed U D p -> defaults_ok U D p -> well_formed U D (AllDef p).
Proof. intros H1 H2. split; assumption. Qed.
Lemma wf_fail U D c : subset (rds c) D = true -> well_formed U D (Fail c).
Proof. exact (fun H => H). Qed.
Lemma wf_fail_reading U D c : subset (rds c) D = true -> well_formed U D (FailReading c).
Proof. exact (fun H => H). Qed.

Ltac mem :=
  lazymatch goal with
  | |- In _ (inter _ _) => apply inter_iff; split; mem
  | |- In ?x (?x :: _) => left; reflexivity
  | |- In _ (_ :: _) => right; mem
  | H : incl ?D ?D' |- In _ ?D' => apply H; mem
  | |- _ => assumption
  end.
Ltac sub := first [reflexivity | apply subset_iff; let x := fresh "x" in let H := fresh "H" in
  intros x H; cbn [rds E0 E1 E2 E3 isset isnot eqc nec In] in H;
  repeat match type of H with _ \/ _ => destruct H as [<-|H]; [mem|] end; try contradiction].
(* open a program *)
Ltac wf_step :=
  lazymatch goal with
  | |- well_formed _ _ (steps (_ :: _ :: _)) => apply wf_steps_cons
  | |- well_formed _ _ (steps [_]) => cbn [steps]
  | |- well_formed _ _ (Seq _ _) => apply wf_seq
  | |- well_formed _ _ (If _ _ _) => apply wf_if; [sub| |]
  | |- well_formed _ _ (Branch _ _ _) => apply wf_branch; [sub| |]
  | |- well_formed _ _ (Fail _) => apply wf_fail; sub
  | |- well_formed _ _ (FailReading _) => apply wf_fail_reading; sub
  | |- well_formed _ _ Done => exact I
  | |- well_formed _ _ (Ext _) => exact I
  | |- well_formed _ _ (Assign _ _) => exact I
  | |- well_formed _ _ (FBool _ _) => reflexivity
  | |- well_formed _ _ (FBits _ _ _) => reflexivity
  | |- well_formed _ _ (FBits1 _ _ _) => reflexivity
  | |- well_formed _ _ (FU32 _ _ _ _ _ _) => reflexivity
  | |- well_formed _ _ (FF16 _ _) => reflexivity
  end;
  cbn [surely FBool FBits FBits1 FU32 FF16 size_u32 rds E0 subset forallb].

Lemma squeeze_params_wf b ix : forall D U, well_formed U D (SqueezeParams b ix).
Proof. intros D U. unfold SqueezeParams. cbv zeta. repeat wf_step. Qed.

Lemma squeeze_params_mono b ix : mono (SqueezeParams b ix).
Proof. cbn. tauto. Qed.

Lemma transform_wf b ix : forall D U, well_formed U D (Transform b ix).
Proof.
  intros D U. unfold Transform. cbv zeta. repeat wf_step.
  apply wf_for; [sub|intros; apply squeeze_params_mono|intros; apply squeeze_params_wf].
Qed.

Lemma transform_mono b ix : mono (Transform b ix).
Proof. cbn. tauto. Qed.

Lemma size_header_wf b ix D U : well_formed U D (SizeHeader b ix).
Proof. unfold SizeHeader, size_u32. cbv zeta. repeat wf_step. Qed.
Lemma preview_header_wf b ix D U : well_formed U D (PreviewHeader b ix).
Proof. unfold PreviewHeader. cbv zeta. repeat wf_step. Qed.
Lemma animation_header_wf b ix D U : well_formed U D (AnimationHeader b ix).
Proof. unfold AnimationHeader. cbv zeta. repeat wf_step. Qed.
Lemma bit_depth_wf b ix D U : well_formed U D (BitDepth b ix).
Proof. unfold BitDepth. cbv zeta. repeat wf_step. Qed.
Lemma blending_info_wf b ix D U : In (at_ b ix 4) D -> In (at_ b ix 5) D -> well_formed U D (BlendingInfo b ix).
Proof. intros H4 H5. unfold BlendingInfo. cbv zeta. repeat wf_step. Qed.
Lemma animation_frame_wf b ix D U : In (at_ b ix 2) D -> In (at_ b ix 3) D -> well_formed U D (AnimationFrame b ix).
Proof. intros H2 H3. unfold AnimationFrame. cbv zeta. repeat wf_step. Qed.
Lemma chroma_subsampling_wf b ix D U : well_formed U D (YCbCrChromaSubsampling b ix).
Proof. unfold YCbCrChromaSubsampling. cbv zeta. repeat wf_step. Qed.
Lemma quantizer_params_wf b ix D U : well_formed U D (QuantizerParams b ix).
Proof. unfold QuantizerParams. cbv zeta. repeat wf_step. Qed.
Lemma lz77_params_wf b ix D U : well_formed U D (LZ77Params b ix).
Proof. unfold LZ77Params. cbv zeta. repeat wf_step. Qed.

Lemma passes_wf b ix D U : well_formed U D (Passes b ix).
Proof.
  unfold Passes. cbv zeta. cbn [fold_right]. repeat wf_step.
  - apply wf_for; [sub|intros; exact I|intros; reflexivity].
  - apply wf_for_k; [sub| |].
    { intros i Hi. cbn. destruct (0 <? i); cbn; auto. }
    intros k U' Hi. apply wf_seq; [reflexivity|]. cbn [surely FU32].
    destruct k as [|k]; [reflexivity|]. replace (0 <? Z.of_nat (S k)) with true by lia.
    apply wf_fail, subset_iff. rewrite surely_loop_snoc. cbn [surely FU32].
    replace (Z.of_nat (S k) - 1) with (Z.of_nat k) by lia.
    intros x H. cbn [rds E2 In] in H. destruct H as [<-|[<-|[]]]; [left; reflexivity|].
    right. destruct (0 <? Z.of_nat k); left; reflexivity.
  - apply wf_for_k; [sub| |].
    { intros i Hi. cbn. destruct (0 <? i); cbn; auto. }
    intros k U' Hi. match type of Hi with incl _ ?L => assert (Hn : In (at_ b ix 0) L) by (apply Hi; mem) end.
    apply wf_seq; [reflexivity|]. cbn [surely FU32]. apply wf_seq.
    + destruct k as [|k]; [reflexivity|]. replace (0 <? Z.of_nat (S k)) with true by lia.
      apply wf_fail, subset_iff. rewrite surely_loop_snoc. cbn [steps surely FU32].
      replace (Z.of_nat (S k) - 1) with (Z.of_nat k) by lia.
      intros x H. cbn [rds E2 In] in H. destruct H as [<-|[<-|[]]]; [left; reflexivity|].
      right. destruct (0 <? Z.of_nat k); left; reflexivity.
    + cbn [steps]. apply wf_fail, subset_iff.
      intros x H. cbn [rds E2 In] in H. destruct H as [<-|[<-|[]]].
      * destruct (0 <? Z.of_nat k); left; reflexivity.
      * destruct (0 <? Z.of_nat k); right; exact Hn.
Qed.

(* ---- bundles with an all-default shortcut ---- *)

Lemma own_out lo hi x : (forall y, In y x -> y < lo \/ hi <= y) -> forall y, In y x -> own lo hi y = false.
Proof. intros H y Hy. specialize (H y Hy). unfold own. lia. Qed.

Lemma tone_mapping_wf : well_formed (fun x => In x []) [] (ToneMapping 0 0).
Proof.
  unfold ToneMapping. cbv zeta. apply wf_alldef; [repeat wf_step|].
  apply (defaults_check_ok (own 0 4)); [reflexivity|intros x []].
Qed.
Lemma wp_header_wf b (U : Z -> Prop) D : 0 <= b <= 10 -> (forall x, U x -> own b (b + 11) x = false) -> b = 0 \/ b = 10 -> well_formed U D (WPHeader b 0).
Proof.
  intros _ HU Hb. unfold WPHeader. cbv zeta. apply wf_alldef; [repeat wf_step|].
  destruct Hb as [-> | ->].
  - apply (defaults_check_ok (own 0 11)); [reflexivity|exact HU].
  - apply (defaults_check_ok (own 10 21)); [reflexivity|exact HU].
Qed.
Lemma group_header_wf : well_formed (fun x => In x []) [] (GroupHeader 0 0).
Proof.
  unfold GroupHeader. cbv zeta. wf_step; [wf_step|]. wf_step.
  - apply wp_header_wf; [lia| |auto]. cbn. intros x [[]|Hx]. unfold own. lia.
  - repeat wf_step. apply wf_for; [reflexivity|intros; apply transform_mono|intros; apply transform_wf].
Qed.
Lemma extra_channel_info_wf : well_formed (fun x => In x []) [] (ExtraChannelInfo 0 0).
Proof.
  unfold ExtraChannelInfo. cbv zeta. apply wf_alldef.
  - unfold FEnum, NameString. wf_step; [repeat wf_step|]. wf_step; [apply bit_depth_wf|]. repeat wf_step.
    apply wf_for; [reflexivity|intros; exact I|intros; reflexivity].
  - apply (defaults_check_ok (own 0 13)); [reflexivity|intros x []].
Qed.

Lemma wf_f16s l : forall x U D, well_formed U D (steps (f16s l x)).
Proof.
  induction l as [|d l IH]; intros x U D; [exact I|]. cbn [f16s]. destruct l as [|d' l]; [reflexivity|].
  cbn [f16s] in *. apply wf_steps_cons; [reflexivity|]. apply IH.
Qed.

Lemma opsin_inverse_matrix_wf b (U : Z -> Prop) D : (forall x, U x -> own b (b + 16) x = false) -> b = 0 \/ b = 10 -> well_formed U D (OpsinInverseMatrix b 0).
Proof.
  intros HU Hb. unfold OpsinInverseMatrix. apply wf_alldef; [apply wf_f16s|].
  destruct Hb as [-> | ->].
  - apply (defaults_check_ok (own 0 16)); [reflexivity|exact HU].
  - apply (defaults_check_ok (own 10 26)); [reflexivity|exact HU].
Qed.
Lemma custom_transform_data_wf : well_formed (fun x => In x [0]) [0] (CustomTransformData 0 0).
Proof.
  unfold CustomTransformData. cbv zeta. apply wf_alldef.
  - wf_step; [wf_step; [|exact I]|].
    { apply opsin_inverse_matrix_wf; [|auto]. intros x [<-|[]]. reflexivity. }
    wf_step; [reflexivity|]. wf_step; [apply wf_if; [reflexivity|apply wf_f16s|exact I]|].
    apply wf_steps_cons; [apply wf_if; [reflexivity|apply wf_f16s|exact I]|]. cbn [steps].
    apply wf_if; [reflexivity|apply wf_f16s|exact I].
  - apply (defaults_check_ok (own 1 1000)); [vm_compute; reflexivity|]. intros x [<-|[]]. reflexivity.
Qed.

Lemma loop_filter_wf : well_formed (fun x => In x [31]) [31] (LoopFilter 0 0).
Proof.
  unfold LoopFilter. cbv zeta. apply wf_alldef.
  - cbn [f16s app]. repeat wf_step.
  - apply (defaults_check_ok (own 0 31)); [vm_compute; reflexivity|intros x [<-|[]]; reflexivity].
Qed.

(* ---- all headers ---- *)

Lemma f16s_ext_free l : forall x, ext_free (steps (f16s l x)).
Proof. induction l as [|d l IH]; intros x; cbn [f16s]; [exact I|]. destruct l as [|d' l]; [exact I|]. split; [exact I|apply IH]. Qed.
Lemma f16s_guarded l : forall x, guarded (steps (f16s l x)).
Proof. induction l as [|d l IH]; intros x; cbn [f16s]; [exact I|]. destruct l as [|d' l]; [exact I|]. split; [exact I|apply IH]. Qed.

Ltac each_header H := unfold headers in H; cbn [In] in H;
  repeat (destruct H as [H|H]; [injection H as <- <-|]); [..|contradiction].
Ltac walk := repeat (first [ exact I | apply f16s_ext_free | apply f16s_guarded | lia | progress intros | apply conj
  | match goal with |- context [if ?b then _ else _] => destruct b end | progress cbn ]).

Lemma headers_extensible D p : In (D, p) headers -> extensible_at_end p.
Proof.
  intros H. each_header H.
  all: first [ right; right; eexists _, _; reflexivity | left; walk ].
Qed.

Lemma headers_guarded D p : In (D, p) headers -> guarded p.
Proof.
  intros H. each_header H. 
  all: walk.
  all: try (cbn; tauto).
Qed.

Lemma headers_wf D p : In (D, p) headers -> well_formed (fun x => In x D) D p.
Proof.
  intros H. each_header H.
  - apply size_header_wf.
  - apply preview_header_wf.
  - apply animation_header_wf.
  - apply bit_depth_wf.
  - apply extra_channel_info_wf.
  - apply tone_mapping_wf.
  - apply opsin_inverse_matrix_wf; auto. intros x [].
  - apply custom_transform_data_wf.
  - apply loop_filter_wf.
  - apply blending_info_wf; cbn; auto.
  - apply animation_frame_wf; cbn; auto.
  - apply passes_wf.
  - apply chroma_subsampling_wf.
  - apply quantizer_params_wf.
  - apply lz77_params_wf.
  - apply wp_header_wf; auto; [lia|]. intros x [].
  - apply squeeze_params_wf.
  - apply transform_wf.
  - apply group_header_wf.
Qed.

Lemma wf_round_trips D p : well_formed (fun x => In x D) D p -> extensible_at_end p -> round_trips D p.
Proof. intros Hw He s r total ws Hv Ha Hwr. exact (bundle_round_trip p D s r total ws Hw He Hv Ha Hwr). Qed.

Lemma headers_round_trip D p : In (D, p) headers -> round_trips D p.
Proof. intros H. apply wf_round_trips; [now apply headers_wf|now apply (headers_extensible D)]. Qed.

(* ---- image dimensions ---- *)

Lemma find_ratio_spec l : forall r x y, 0 < r -> let k := find_ratio l r x y in
  k = 0 \/ (r <= k < r + zlen l /\ mul_truncate (nth (Z.to_nat (k - r)) l (1, 1)) y = x).
Proof.
  induction l as [|q l IH]; intros r x y Hr; cbn [find_ratio]; [auto|].
  rewrite zlen_cons. pose proof (zlen_nonneg l).
  destruct (Z.eqb_spec x (mul_truncate q y)) as [->|Hn].
  - right. split; [lia|]. replace (Z.to_nat (r - r)) with 0%nat by lia. reflexivity.
  - destruct (IH (r + 1) x y ltac:(lia)) as [H0|(H1 & H2)]; [auto|]. right. split; [lia|].
    replace (Z.to_nat (find_ratio l (r + 1) x y - r)) with (S (Z.to_nat (find_ratio l (r + 1) x y - (r + 1)))) by lia.
    exact H2.
Qed.

Lemma find_aspect_ratio_spec x y : let k := find_aspect_ratio x y in
  k = 0 \/ (1 <= k <= 7 /\ mul_truncate (nth (Z.to_nat (k - 1)) ratios (1, 1)) y = x).
Proof.
  destruct (find_ratio_spec ratios 1 x y ltac:(lia)) as [H|(H1 & H2)]; [now left|right].
  unfold find_aspect_ratio. split; [|exact H2]. change (zlen ratios) with 7 in H1. lia.
Qed.

Lemma write_plain p s : valid p s -> no_extensions p s = true -> coks (fields p s) = true -> woks (fields p s) = true ->
  exists total ws, bundle_write p s = Some (total, ws).
Proof.
  intros Hv Hx Hc Hw. unfold bundle_write, bundle_can_encode.
  rewrite (can_encode_fields p s) by auto. cbn [negb].
  unfold ce_add. cbn [ce_ok ce_bits ce_pos ce_env ce_ext Z.eqb andb]. rewrite Hc. cbn [negb].
  rewrite (write_fields p s) by auto. unfold wr_add. cbn [wr_env wr_out wr_ok andb app]. rewrite Hw. eauto.
Qed.

Definition size_enc : coder := CU32 (U32 (BitsOffset 9 1) (BitsOffset 13 1) (BitsOffset 18 1) (BitsOffset 30 1)).
Lemma size_enc_ok : coder_ok size_enc.
Proof.
  exists (DBits 9 1), (DBits 13 1), (DBits 18 1), (DBits 30 1). repeat split; try (cbn; unfold is_u32; lia).
Qed.
Lemma size_coks v : 1 <= v <= 2 ^ 30 -> fst (coder_can_encode size_enc v) = true /\ wok1 (size_enc, v) = true.
Proof.
  intros Hv. destruct size_enc_ok as (a & b & c & d & _).
  assert (D : forall n, In n [9; 13; 18; 30] -> distr_ok (DBits n 1)).
  { intros n. cbn. intuition (subst; lia). }
  pose proof (u32_write_spec (DBits 9 1) (DBits 13 1) (DBits 18 1) (DBits 30 1) v
    (D 9 ltac:(cbn; auto)) (D 13 ltac:(cbn; auto)) (D 18 ltac:(cbn; auto)) (D 30 ltac:(cbn; auto))) as H.
  change (enc4 (DBits 9 1) (DBits 13 1) (DBits 18 1) (DBits 30 1))
    with (U32 (BitsOffset 9 1) (BitsOffset 13 1) (BitsOffset 18 1) (BitsOffset 30 1)) in H.
  unfold wok1, size_enc. cbn [fst snd coder_write coder_can_encode].
  destruct (u32_write _ v) as [ws|].
  - destruct H as (_ & _ & _ & ->). auto.
  - exfalso. destruct H as (H & _). apply (H (true :: true :: to_bits (Z.to_nat 30) (v - 1))). apply uc3.
    replace (distr_code _ _ v) with (distr_code (DBits 30 1) (to_bits (Z.to_nat 30) (v - 1)) (1 + (v - 1))) by (f_equal; lia). constructor. lia.
Qed.
Lemma bits_coks n v : 0 <= n <= 32 -> 0 <= v < 2 ^ n -> fst (coder_can_encode (CBits n) v) = true /\ wok1 (CBits n, v) = true.
Proof.
  intros Hn Hv. unfold wok1. cbn [fst snd coder_write coder_can_encode]. unfold bits_write, bits_can_encode.
  rewrite Z.shiftl_mul_pow2 by lia. replace (_ <=? _) with false by lia. auto.
Qed.

Lemma size_case s : 0 <= s 3 <= 7 -> s 0 = 0 \/ s 0 = 1 ->
  (s 0 = 1 -> 0 <= s 1 < 32 /\ (s 3 = 0 -> 0 <= s 4 < 32)) ->
  (s 0 = 0 -> 1 <= s 2 <= 2 ^ 30 /\ (s 3 = 0 -> 1 <= s 5 <= 2 ^ 30)) ->
  valid (SizeHeader 0 0) s /\ (exists total ws, bundle_write (SizeHeader 0 0) s = Some (total, ws)) /\
  forall r, agree (determined [] (SizeHeader 0 0) s) s r -> sh_xsize r = sh_xsize s /\ sh_ysize r = sh_ysize s.
Proof.
  intros Hk H01 H1 H0.
  assert (Hc3 : holds (E2 3 0 (fun r s => b2z ((r =? 0) && negb (s =? 0)))) s = (s 3 =? 0) && negb (s 0 =? 0)).
  { unfold holds, ev, E2. cbn [fn rds map nth]. now destruct ((s 3 =? 0) && negb (s 0 =? 0)). }
  assert (Hc4 : holds (E2 3 0 (fun r s => b2z ((r =? 0) && (s =? 0)))) s = (s 3 =? 0) && (s 0 =? 0)).
  { unfold holds, ev, E2. cbn [fn rds map nth]. now destruct ((s 3 =? 0) && (s 0 =? 0)). }
  assert (Hc1 : holds (isset 0) s = negb (s 0 =? 0)) by reflexivity.
  assert (Hc2 : holds (isnot 0) s = (s 0 =? 0)).
  { unfold holds, ev, isnot, E1. cbn [fn rds map nth]. now destruct (s 0 =? 0). }
  assert (Hv : valid (SizeHeader 0 0) s /\ coks (fields (SizeHeader 0 0) s) = true /\ woks (fields (SizeHeader 0 0) s) = true).
  { unfold SizeHeader, at_. cbn [steps valid fields FBool FBits size_u32 FU32 Z.add Z.mul shown stored map].
    rewrite Hc1, Hc2, Hc3, Hc4.
    pose proof size_enc_ok as He. pose proof size_coks as Hs. pose proof bits_coks as Hb.
    assert (Hb1 : fst (coder_can_encode (CBits 1) (s 0)) = true /\ wok1 (CBits 1, s 0) = true) by (apply Hb; lia).
    assert (Hb3 : fst (coder_can_encode (CBits 3) (s 3)) = true /\ wok1 (CBits 3, s 3) = true) by (apply Hb; lia).
    destruct Hb1 as (Hb1 & Hb1'). destruct Hb3 as (Hb3 & Hb3').
    destruct H01 as [E|E]; [destruct (H0 E) as (Ha & Hb')|destruct (H1 E) as (Ha & Hb')]; rewrite E; cbn [Z.eqb negb andb];
      (destruct (Z.eqb_spec (s 3) 0) as [E3|E3]; [specialize (Hb' E3)|]); cbn [andb valid fields app].
    all: split; [repeat split; try exact He; unfold stored, shown, idw; cbn; unfold is_u32; lia|].
    all: unfold coks, woks; cbn [forallb fst snd]; unfold shown, idw; cbn [map]; fold size_enc;
         rewrite ?Hb1, ?Hb1', ?Hb3, ?Hb3'.
    - destruct (Hs (s 2) Ha) as (-> & ->). destruct (Hs (s 5) Hb') as (-> & ->). auto.
    - destruct (Hs (s 2) Ha) as (-> & ->). auto.
    - destruct (Hb 5 (s 1) ltac:(lia) ltac:(lia)) as (-> & ->). destruct (Hb 5 (s 4) ltac:(lia) ltac:(lia)) as (-> & ->). auto.
    - destruct (Hb 5 (s 1) ltac:(lia) ltac:(lia)) as (-> & ->). auto. }
  destruct Hv as (Hv & Hck & Hwk). split; [exact Hv|].
  split.
  - apply write_plain; auto. apply ext_free_no_extensions. cbn; tauto.
  - intros r. unfold SizeHeader, at_. cbn [steps determined FBool FBits size_u32 FU32 Z.add Z.mul].
    rewrite Hc1, Hc2, Hc3, Hc4. unfold agree. intros Hr.
    assert (Hr0 : s 0 = r 0 /\ s 3 = r 3).
    { split; apply Hr; destruct (s 3 =? 0), (s 0 =? 0); cbn; tauto. }
    destruct Hr0 as (R0 & R3).
    unfold sh_xsize, sh_ysize. rewrite <- R0, <- R3.
    destruct H01 as [E|E]; rewrite E in *; cbn [Z.eqb negb andb] in *;
      (destruct (Z.eqb_spec (s 3) 0) as [E3|E3]); cbn [andb determined] in Hr.
    + rewrite <- (Hr 2), <- (Hr 5) by (cbn; tauto). auto.
    + rewrite <- (Hr 2) by (cbn; tauto). auto.
    + rewrite <- (Hr 1), <- (Hr 4) by (cbn; tauto). auto.
    + rewrite <- (Hr 1) by (cbn; tauto). auto.
Qed.

Lemma size_finish s xsize ysize : sh_xsize s = xsize -> sh_ysize s = ysize ->
  0 <= s 3 <= 7 -> s 0 = 0 \/ s 0 = 1 ->
  (s 0 = 1 -> 0 <= s 1 < 32 /\ (s 3 = 0 -> 0 <= s 4 < 32)) ->
  (s 0 = 0 -> 1 <= s 2 <= 2 ^ 30 /\ (s 3 = 0 -> 1 <= s 5 <= 2 ^ 30)) ->
  exists s', (if negb (sh_xsize s =? xsize) then None else if negb (sh_ysize s =? ysize) then None else Some s) = Some s' /\
    sh_xsize s' = xsize /\ sh_ysize s' = ysize /\
    valid (SizeHeader 0 0) s' /\ (exists total ws, bundle_write (SizeHeader 0 0) s' = Some (total, ws)) /\
    forall r, agree (determined [] (SizeHeader 0 0) s') s' r -> sh_xsize r = xsize /\ sh_ysize r = ysize.
Proof.
  intros <- <- H1 H2 H3 H4. rewrite !Z.eqb_refl. cbn [negb]. exists s.
  split; [reflexivity|]. split; [reflexivity|]. split; [reflexivity|]. now apply size_case.
Qed.

Lemma sh_set_ok s xsize ysize : 1 <= xsize <= 2 ^ 30 -> 1 <= ysize <= 2 ^ 30 ->
  exists s', sh_set s xsize ysize = Some s' /\ sh_xsize s' = xsize /\ sh_ysize s' = ysize /\
    valid (SizeHeader 0 0) s' /\ (exists total ws, bundle_write (SizeHeader 0 0) s' = Some (total, ws)) /\
    forall r, agree (determined [] (SizeHeader 0 0) s') s' r -> sh_xsize r = xsize /\ sh_ysize r = ysize.
Proof.
  intros Hx Hy. unfold sh_set.
  replace ((2 ^ 32 - 1 <? xsize) || (2 ^ 32 - 1 <? ysize)) with false by lia.
  replace ((xsize =? 0) || (ysize =? 0)) with false by lia.
  pose proof (find_aspect_ratio_spec xsize ysize) as Hr. cbv zeta in Hr.
  set (k := find_aspect_ratio xsize ysize) in *. cbv zeta. clearbody k.
  assert (W8 : forall v, 1 <= v <= 256 -> v mod 8 = 0 -> w32 (v / 8 - 1) = v / 8 - 1).
  { intros v Hv Hm. apply w32_id. unfold is_u32. lia. }
  assert (W : forall v, 1 <= v <= 256 -> v mod 8 = 0 -> w32 (w32 (w32 (v / 8 - 1) + 1) * 8) = v).
  { intros v Hv Hm. rewrite W8 by auto. rewrite (w32_id (v / 8 - 1 + 1)) by (unfold is_u32; lia).
    rewrite w32_id by (unfold is_u32; lia). lia. }
  destruct ((ysize <=? 256) && (ysize mod 8 =? 0) && (negb (k =? 0) || ((xsize <=? 256) && (xsize mod 8 =? 0)))) eqn:Hsm.
  all: destruct (Z.eqb_spec k 0) as [E3|E3]; cbn [b2z negb orb andb] in *; apply size_finish;
    unfold sh_xsize, sh_ysize, upd; cbn [Z.eqb Pos.eqb].
  all: try (subst k; cbn [Z.eqb]); try (rewrite W by lia); try lia; try (now intros).
  all: try (replace (k =? 0) with false by lia).
  all: try (destruct Hr as [Hr|(Hr1 & Hr)]; [lia|]; exact Hr || lia).
  all: intros _; split; [|intros ?]; rewrite ?W8 by lia; lia.
Qed.

(* ---- C07 from Set to the decoded header ---- *)
Lemma image_size_round_trip s xsize ysize : 1 <= xsize <= 2 ^ 30 -> 1 <= ysize <= 2 ^ 30 ->
  exists s' total ws, sh_set s xsize ysize = Some s' /\ sh_xsize s' = xsize /\ sh_ysize s' = ysize /\
    bundle_write (SizeHeader 0 0) s' = Some (total, ws) /\
    forall r, exists r', parses_to (bundle_read (SizeHeader 0 0) r) (fields_bits ws) (Loaded r') /\
      sh_xsize r' = xsize /\ sh_ysize r' = ysize.
Proof.
  intros Hx Hy. destruct (sh_set_ok s xsize ysize Hx Hy) as (s' & H1 & H2 & H3 & Hv & (total & ws & Hw) & Hr).
  exists s', total, ws. repeat (split; [assumption|]). intros r.
  destruct (headers_round_trip [] (SizeHeader 0 0) (or_introl eq_refl) s' r total ws Hv) as (_ & _ & r' & Hp & Ha).
  - intros x [].
  - exact Hw.
  - exists r'. split; [exact Hp|]. now apply Hr.
Qed.
