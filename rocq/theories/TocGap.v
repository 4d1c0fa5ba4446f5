(* Streaming output: the gap left for the table of contents is filled exactly. *)
From Verif Require Import Base HuffRle BitProg BitIOProofs FieldsModel FieldsProofs TocModel ListAux TocSpec PermProofs TocRead TocLayout.
Ltac Zify.zify_post_hook ::= idtac.

Lemma bucket_cases s : toc_bucket s = if s <? 1024 then 0 else if s <? 17408 then 1 else if s <? 4211712 then 2 else 3.
Proof.
  unfold toc_bucket. cbn [toc_bucket_loop]. change (nth (Z.to_nat (0 + 1)) kGroupSizeOffset 0) with 1024. change (nth (Z.to_nat (0 + 1 + 1)) kGroupSizeOffset 0) with 17408.
  change (nth (Z.to_nat (0 + 1 + 1 + 1)) kGroupSizeOffset 0) with 4211712. change (0 <? 3) with true. change (0 + 1 <? 3) with true. change (0 + 1 + 1 <? 3) with true. cbn [andb].
  destruct (Z.leb_spec 1024 s), (Z.ltb_spec s 1024); try lia. destruct (Z.leb_spec 17408 s), (Z.ltb_spec s 17408); try lia. destruct (Z.leb_spec 4211712 s), (Z.ltb_spec s 4211712); lia.
Qed.
Lemma bucket_mono a b : a <= b -> toc_bucket a <= toc_bucket b.
Proof. intros H. rewrite !bucket_cases. destruct (Z.ltb_spec a 1024), (Z.ltb_spec b 1024), (Z.ltb_spec a 17408), (Z.ltb_spec b 17408), (Z.ltb_spec a 4211712), (Z.ltb_spec b 4211712); lia. Qed.
Lemma bucket_bits s : nth (Z.to_nat (toc_bucket s)) kTOCBits 0 = entry_bits s.
Proof. rewrite bucket_cases. unfold entry_bits. destruct (s <? 1024); [reflexivity|]. destruct (s <? 17408); [reflexivity|]. destruct (s <? 4211712); reflexivity. Qed.
Lemma bucket_range s : 0 <= toc_bucket s <= 3.
Proof. rewrite bucket_cases. destruct (s <? 1024), (s <? 17408), (s <? 4211712); lia. Qed.
Lemma bucket_start b : 0 <= b <= 3 -> toc_bucket (nth (Z.to_nat b) kGroupSizeOffset 0) = b.
Proof. intros H. assert (b = 0 \/ b = 1 \/ b = 2 \/ b = 3) as [->|[->|[->| ->]]] by lia; reflexivity. Qed.
Lemma toc_size_eq sizes : toc_size sizes = (total_of (map entry_bits sizes) + 7) / 8.
Proof.
  unfold toc_size. do 2 f_equal. assert (G : forall l a, fold_left (fun toc_bits s => toc_bits + nth (Z.to_nat (toc_bucket s)) kTOCBits 0) l a = a + total_of (map entry_bits l)).
  { induction l as [|s l IH]; intros a; cbn [fold_left map]; [unfold total_of; cbn [fold_right]; lia|]. rewrite IH, bucket_bits, total_cons. lia. }
  rewrite G. lia.
Qed.

Lemma raise_spec maxpad : 0 <= maxpad -> forall f m b, toc_bucket m = b -> 4 - b <= Z.of_nat f -> 0 <= m ->
  exists m' b', raise_min f maxpad m b = Some (m', b') /\ m <= m' /\ toc_bucket m' = b' /\ toc_bucket (m' + maxpad) = b'.
Proof.
  intros Hp. induction f as [|f IH]; intros m b Hb Hf Hm; [pose proof (bucket_range m); lia|]. cbn [raise_min]. pose proof (bucket_range (m + maxpad)) as R. pose proof (bucket_mono m (m + maxpad) ltac:(lia)) as M.
  destruct (Z.ltb_spec b (toc_bucket (m + maxpad))) as [L|L].
  - set (b1 := toc_bucket (m + maxpad)) in *. assert (B1 : toc_bucket (nth (Z.to_nat b1) kGroupSizeOffset 0) = b1) by (apply bucket_start; lia).
    assert (Lm : m <= nth (Z.to_nat b1) kGroupSizeOffset 0). { destruct (Z_le_gt_dec m (nth (Z.to_nat b1) kGroupSizeOffset 0)) as [|G]; [assumption|]. pose proof (bucket_mono (nth (Z.to_nat b1) kGroupSizeOffset 0) m ltac:(lia)). lia. }
    destruct (IH _ _ B1 ltac:(lia) ltac:(lia)) as (m' & b' & E & L' & E1 & E2). exists m', b'. split; [exact E|]. split; [lia|auto].
  - exists m, b. split; [reflexivity|]. split; [lia|]. split; [exact Hb|lia].
Qed.

Lemma ceil8 a : a <= 8 * ((a + 7) / 8) < a + 8.
Proof. pose proof (Z.mod_pos_bound (a + 7) 8 ltac:(lia)). pose proof (Z.div_mod (a + 7) 8 ltac:(lia)). lia. Qed.
Lemma bits_between sizes : 12 * zlen sizes <= total_of (map entry_bits sizes) <= 32 * zlen sizes.
Proof.
  induction sizes as [|s sizes IH]; [unfold total_of; cbn; lia|]. cbn [map]. rewrite total_cons, zlen_cons. assert (12 <= entry_bits s <= 32) by (unfold entry_bits; destruct (s <? 1024), (s <? 17408), (s <? 4211712); lia). lia.
Qed.

Theorem gap_filled fh dc others : 0 <= fh -> 0 <= dc ->
  exists mins off, group_data_offset fh dc (1 + zlen others) = Some (mins, off) /\ dc <= mins /\
    (off < 2 ^ 64 ->
     let pad := dc_global_padding dc others fh off mins in
     0 <= pad /\ fh + toc_size ((dc + pad) :: others) + dc + pad = off /\
     (sizes_ok ((dc + pad) :: others) -> forall pos, pos mod 8 = 0 ->
       exists fs, write_toc_sizes pos ((dc + pad) :: others) = Some fs /\ zlen (fields_bits fs) = 8 * toc_size ((dc + pad) :: others))).
Proof.
  intros Hf Hd. pose proof (zlen_nonneg others) as Hn. unfold group_data_offset. cbv zeta. replace (1 + zlen others - 1) with (zlen others) by lia.
  set (maxpad := (zlen others * 32 - zlen others * 12 + 7) / 8). assert (Hp : 20 * zlen others <= 8 * maxpad < 20 * zlen others + 8) by (unfold maxpad; pose proof (ceil8 (zlen others * 32 - zlen others * 12)); lia).
  destruct (raise_spec maxpad ltac:(lia) 4 dc (toc_bucket dc) eq_refl) as (m & b & -> & Lm & B1 & B2). { pose proof (bucket_range dc). lia. } { exact Hd. }
  rewrite B1, B2, Z.eqb_refl. cbn [negb]. eexists m, _. split; [reflexivity|]. split; [exact Lm|]. intros Ho.
  rewrite <- B1 in *. rewrite bucket_bits in *. set (off := fh + (zlen others * 32 + entry_bits m + 7) / 8 + m) in *. set (pad := dc_global_padding dc others fh off m).
  assert (T : toc_size (m :: others) = (entry_bits m + total_of (map entry_bits others) + 7) / 8) by (rewrite toc_size_eq; cbn [map]; now rewrite total_cons).
  pose proof (bits_between others) as Bb. pose proof (ceil8 (entry_bits m + total_of (map entry_bits others))) as C1. pose proof (ceil8 (zlen others * 32 + entry_bits m)) as C2. rewrite <- T in C1.
  assert (Em : 12 <= entry_bits m) by apply entry_min.
  assert (Hpad : pad = off - (fh + toc_size (m :: others) + dc)). { unfold pad, dc_global_padding. cbv zeta. unfold w64. apply Z.mod_small. unfold off in *. lia. }
  assert (D1 : m <= dc + pad <= m + maxpad) by (rewrite Hpad; unfold off; lia).
  assert (Bk : entry_bits (dc + pad) = entry_bits m).
  { rewrite <- !bucket_bits. do 2 f_equal. pose proof (bucket_mono m (dc + pad) ltac:(lia)). pose proof (bucket_mono (dc + pad) (m + maxpad) ltac:(lia)). lia. }
  assert (T2 : toc_size ((dc + pad) :: others) = toc_size (m :: others)) by (rewrite T, toc_size_eq; cbn [map]; now rewrite total_cons, Bk).
  split; [rewrite Hpad; unfold off; lia|]. split; [rewrite T2, Hpad; lia|]. intros Hok pos Hpos.
  destruct (sizes_code _ Hok) as (ws & Ew & Fw & _ & Lw). unfold write_toc_sizes. rewrite Ew. eexists. split; [reflexivity|]. rewrite fields_bits_app, zlen_app, zlen_pad, Lw.
  rewrite toc_size_eq. assert (W : width_sum ws = total_of (map entry_bits ((dc + pad) :: others))) by (rewrite <- Lw; symmetry; apply zlen_fields_bits; exact Fw). rewrite W. generalize (total_of (map entry_bits ((dc + pad) :: others))) as t. intros t.
  clear -Hpos. pose proof (ceil8 t) as C. pose proof (Z.mod_pos_bound (- (pos + t)) 8 ltac:(lia)). pose proof (Z.div_mod (- (pos + t)) 8 ltac:(lia)). pose proof (Z.div_mod pos 8 ltac:(lia)). lia.
Qed.
