(** * C54, C55, C56: patches
    The statements use PatchSpec and the functions of PatchModel; PatchTree, PatchDraw
    and PatchCode hold the proofs. *)
From Coq Require Import ZArith List Bool Lia Arith Permutation Sorted.
From Verif Require Import Base PatchModel PatchSpec PatchTree PatchDraw PatchCode.
Import ListNotations.
Local Open Scope Z_scope.
Ltac Zify.zify_post_hook ::= idtac.

(** C54: whatever the sorting functions do with equal keys, drawing a segment of a row
    succeeds, and each of its pixels gets the patches that touch it, in the order of
    the codestream, each once, with the right pixel of the reference frame and the
    blending of that patch.  So it does not matter how rows are cut in segments. *)
Theorem C54_every_pixel sort0 sort1 sortn d y x0 xs :
  sorts i_y0 sort0 -> sorts i_y1 sort1 -> sorts Z.of_nat sortn -> sound d -> 0 <= y ->
  exists ds, add_one_row sort0 sort1 sortn d y x0 xs = Some ds /\
    forall x, x0 <= x < x0 + xs -> over_pixel ds x0 x = drawn_over (patches d) x y.
Proof.
  intros H0 H1 Hn HS Hy. destruct (row_drawn sort0 sort1 sortn H0 H1 Hn d y x0 xs HS Hy) as (ds & E & K & _). exists ds. split; assumption.
Qed.
Print Assumptions C54_every_pixel.

(* ---- C55 ---- *)

Lemma fits_number frames xsize ysize d ps : Forall (settled frames xsize ysize d) ps -> forall i, Forall (fits frames xsize ysize) (number (patch_of d) i ps).
Proof.
  induction 1 as [|p ps (rp & En & Hi & _ & Hp) F IH]; intros i; cbn [number]; [constructor|]. constructor; [|apply IH].
  unfold fits. cbn [patch_of k_rect k_x k_y]. rewrite (nth_error_nth _ _ _ En). split; assumption.
Qed.

Lemma settled_sound frames xsize ysize d : Forall (settled frames xsize ysize d) (positions d) -> (length (positions d) * stride d <= length (blends d))%nat -> sound d.
Proof.
  intros F L. split; [|split; [|exact L]]; revert F; apply Forall_impl; intros p (rp & En & (f & _ & _ & _ & I) & _ & Q); [|lia]. exists rp. split; [exact En|lia].
Qed.

(** C55: whatever the bits are, and whatever the dictionary was before, a dictionary
    that the decoder accepts has all its patches inside of the frame and all their
    sources inside of reference frames that exist and are in XYB; the number of patches
    is bounded by the size of the frame. *)
Theorem C55_accepted (S : Type) (read : S -> Z -> Z * S) frames xsize ysize nec d st d' st' :
  (forall st c, 0 <= fst (read st c) < 2 ^ 32) -> 0 <= xsize -> 0 <= ysize -> Forall (blend_ok nec) (blends d) ->
  decode S read frames xsize ysize nec d st = Some (d', st') ->
  Forall (fits frames xsize ysize) (patches d') /\ sound d' /\ Forall (blend_ok nec) (blends d') /\ stride d' = (nec + 1)%nat /\
  zlen (patches d') <= 4 * (1024 + xsize * ysize / 4).
Proof.
  intros Hr Hx Hy HB E. destruct (decode_ok S read Hr frames xsize ysize nec d st d' st' Hx Hy HB E) as (G1 & G2 & G3 & G4 & _ & G6).
  split; [apply fits_number; exact G1|]. split; [eapply settled_sound; eassumption|]. split; [exact G3|]. split; [exact G4|].
  replace (zlen (patches d')) with (zlen (positions d')); [unfold max_patches, max_ref_patches in G2; lia|]. unfold patches, zlen. f_equal. generalize (positions d'), 0%nat. induction l as [|p l IH]; intros i; [reflexivity|]. cbn. f_equal. apply IH.
Qed.
Print Assumptions C55_accepted.

(** Drawing any segment of any row with it never fails, and reads only pixels of the
    reference frames and writes only pixels of the segment. *)
Theorem C55_no_stray_access (S : Type) (read : S -> Z -> Z * S) frames xsize ysize nec d st d' st' sort0 sort1 sortn y x0 xs :
  (forall st c, 0 <= fst (read st c) < 2 ^ 32) -> 0 <= xsize -> 0 <= ysize -> Forall (blend_ok nec) (blends d) ->
  decode S read frames xsize ysize nec d st = Some (d', st') ->
  sorts i_y0 sort0 -> sorts i_y1 sort1 -> sorts Z.of_nat sortn -> 0 <= y ->
  exists ds, add_one_row sort0 sort1 sortn d' y x0 xs = Some ds /\
    Forall (fun w => length (d_blends w) = (nec + 1)%nat /\ (0 <= xs -> 0 <= d_from w /\ 0 <= d_count w) /\ exists f, nth_error frames (Z.to_nat (d_ref w)) = Some f /\ 0 <= d_row w < f_ys f /\
      forall k, d_from w <= k < d_from w + d_count w -> 0 <= k < xs /\ 0 <= d_base w + k < f_xs f) ds.
Proof.
  intros Hr Hx Hy HB E H0 H1 Hn Hy0. destruct (decode_ok S read Hr frames xsize ysize nec d st d' st' Hx Hy HB E) as (G1 & G2 & G3 & G4 & _ & G6).
  destruct (row_drawn sort0 sort1 sortn H0 H1 Hn d' y x0 xs (settled_sound _ _ _ _ G1 G6) Hy0) as (ds & Ed & _ & K). exists ds. split; [exact Ed|].
  apply Forall_forall. intros w Hw. destruct (K w Hw) as (p & Hp & K1 & KB & KC & K2 & K3 & K5). rewrite Forall_forall in G1. destruct (G1 p Hp) as (rp & En & (f & I1 & I2 & I3 & I) & _).
  unfold rect_of in *. rewrite (nth_error_nth _ _ _ En) in *. split; [congruence|]. split; [exact KC|]. exists f. rewrite K1. split; [exact I2|]. split; [lia|]. intros k Hk. specialize (K5 k Hk). lia.
Qed.
Print Assumptions C55_no_stray_access.

(* ---- C56 ---- *)

(** A frame and a dictionary that the encoder can write for it. *)
Definition can_write (frames : list rframe) (xsize ysize : Z) (nec : nat) (d : dict) : Prop :=
  0 <= xsize <= 2 ^ 30 /\ 0 <= ysize <= 2 ^ 30 /\ Forall (fun f => f_xs f <= 2 ^ 30 /\ f_ys f <= 2 ^ 30) frames /\ Z.of_nat nec < 2 ^ 32 /\
  sound d /\ Forall (fits frames xsize ysize) (patches d) /\ Forall (blend_ok nec) (blends d) /\
  stride d = (nec + 1)%nat /\ length (blends d) = (length (positions d) * stride d)%nat /\
  zlen (positions d) < 2 ^ 32 /\ zlen (positions d) <= 1024 + xsize * ysize / 4 /\
  2 * zlen (positions d) * Z.of_nat (nec + 1) <= max_blending_infos xsize ysize.

Lemma settled_back frames xsize ysize d ps : Forall (fun p => exists rp, nth_error (refs d) (p_idx p) = Some rp /\ 1 <= r_xs rp /\ 1 <= r_ys rp) ps ->
  forall i, Forall (fits frames xsize ysize) (number (patch_of d) i ps) -> Forall (settled frames xsize ysize d) ps.
Proof.
  induction 1 as [|p ps (rp & En & _) F IH]; intros i HF; cbn [number] in HF; [constructor|]. inversion HF as [|? ? (A & B) HF']; subst. constructor; [|apply (IH (S i)); exact HF'].
  cbn [patch_of k_rect k_x k_y] in *. rewrite (nth_error_nth _ _ _ En) in *. exists rp. split; [exact En|]. split; [exact A|]. split; [reflexivity|exact B].
Qed.

Lemma tok_id ts : Forall tok_ok ts -> map (fun t : token => (fst t, w32 (snd t))) ts = ts.
Proof. induction 1 as [|[c v] ts H F IH]; [reflexivity|]. cbn [map fst snd]. rewrite IH. unfold w32. rewrite Z.mod_small by exact H. reflexivity. Qed.

Lemma written frames xsize ysize nec d : can_write frames xsize ysize nec d -> exists ts, encode d = Some ts /\
  forall d0, exists ps' rs, decode _ read_token frames xsize ysize nec d0 ts = Some (Dict ps' (refs d0 ++ rs) (blends d0 ++ blends d) (nec + 1), []) /\ Forall2 (alike d (refs d0 ++ rs)) (positions d) ps'.
Proof.
  intros (Hx & Hy & Hf & Hnec & (S1 & S2 & S3) & HF & HB & Es & El & Hz & Hm & Hbi).
  destruct (groups_back frames xsize ysize nec Hx Hy Hf Hnec d Es (length (positions d) + 1) (positions d) (blends d)) as (n & ts & E & Hn & Ht & K); [lia|eapply settled_back; eassumption|lia|exact HB|exact Hz|].
  unfold encode. rewrite E. eexists. split; [reflexivity|]. intros d0. rewrite tok_id by (constructor; [unfold tok_ok; cbn [snd]; lia|exact Ht]). unfold decode. cbn [read_token]. rewrite Z.eqb_refl, Z.gtb_ltb.
  assert (Hmp : 0 <= xsize * ysize / 4) by (apply Z.div_pos; [apply Z.mul_nonneg_nonneg; lia|lia]).
  replace (max_ref_patches xsize ysize <? n) with false by (symmetry; apply Z.ltb_ge; unfold max_ref_patches; lia).
  destruct (K (Dict [] (refs d0) (blends d0) (nec + 1)) 0 1 []) as (ps' & rs & ER & F2); [cbn; lia|lia|unfold max_patches, max_ref_patches; lia|lia|rewrite Es; exact Hbi|].
  rewrite app_nil_r in ER. rewrite ER. cbn [positions refs blends stride app] in *. exists ps', rs. split; [|exact F2]. rewrite firstn_all2 by lia. reflexivity.
Qed.

Lemma alike_patch d rs bs ps ps' : Forall2 (alike d rs) ps ps' -> forall q i, bs = blends d ->
  number (patch_of (Dict q rs bs (stride d))) i ps' = number (patch_of d) i ps.
Proof.
  intros F q. induction F as [|p p' ps ps' (A1 & A2 & A3) F IH]; intros i Eb; [reflexivity|]. cbn [number]. rewrite IH by exact Eb. f_equal.
  unfold patch_of. cbn [refs blends stride]. rewrite A1, A2, Eb. f_equal. rewrite <- !nth_default_eq. unfold nth_default. rewrite A3. reflexivity.
Qed.

(** C56 for the first frame with patches: what the encoder writes, the decoder reads
    back as the same patches, and nothing is left over.  Missing: later frames of the
    same image, for which it is false (below). *)
Theorem C56_first_frame_partial frames xsize ysize nec d : can_write frames xsize ysize nec d ->
  exists ts, encode d = Some ts /\ exists d', decode _ read_token frames xsize ysize nec fresh ts = Some (d', []) /\ patches d' = patches d.
Proof.
  intros H. destruct (written _ _ _ _ _ H) as (ts & E & K). exists ts. split; [exact E|]. destruct (K fresh) as (ps' & rs & ED & F). eexists. split; [exact ED|].
  cbn [fresh refs blends app] in *. destruct H as (_ & _ & _ & _ & _ & _ & _ & Es & _). unfold patches. cbn [positions]. rewrite <- Es. apply alike_patch; [exact F|reflexivity].
Qed.
Print Assumptions C56_first_frame_partial.

(** For later frames the places and the rectangles are right; only the blendings can
    be wrong. *)
Theorem C56_places_partial frames xsize ysize nec d d0 : can_write frames xsize ysize nec d ->
  exists ts, encode d = Some ts /\ exists d', decode _ read_token frames xsize ysize nec d0 ts = Some (d', []) /\
  map (fun p => (k_rect p, k_x p, k_y p)) (patches d') = map (fun p => (k_rect p, k_x p, k_y p)) (patches d).
Proof.
  intros H. destruct (written _ _ _ _ _ H) as (ts & E & K). exists ts. split; [exact E|]. destruct (K d0) as (ps' & rs & ED & F). eexists. split; [exact ED|].
  unfold patches. cbn [positions]. assert (G : forall d1 i, refs d1 = refs d0 ++ rs -> map (fun p => (k_rect p, k_x p, k_y p)) (number (patch_of d1) i ps') = map (fun p => (k_rect p, k_x p, k_y p)) (number (patch_of d) i (positions d))); [|apply G; reflexivity].
  clear - F. intros d1 i Er. rewrite <- Er in F. revert i.
  induction F as [|p p' ps ps' (A1 & A2 & A3) F IH]; intros i; [reflexivity|]. cbn [number map]. rewrite IH. f_equal. cbn [patch_of k_rect k_x k_y]. rewrite A1, A2. f_equal. f_equal.
  rewrite <- !nth_default_eq. unfold nth_default. rewrite A3. reflexivity.
Qed.
Print Assumptions C56_places_partial.

(* ---- concrete dictionaries ---- *)

(** Insertion sort, to have some sorting function. *)
Fixpoint insert {A} (key : A -> Z) (a : A) (l : list A) : list A :=
  match l with [] => [a] | b :: r => if key a <=? key b then a :: l else b :: insert key a r end.
Definition isort {A} (key : A -> Z) (l : list A) : list A := fold_right (insert key) [] l.
Lemma isort_sorts {A} (key : A -> Z) : sorts key (isort key).
Proof.
  assert (P : forall a l, Permutation (a :: l) (insert key a l)).
  { intros a l. induction l as [|b l IH]; [reflexivity|]. cbn [insert]. destruct (key a <=? key b); [reflexivity|]. rewrite perm_swap. constructor. exact IH. }
  assert (Q : forall a l, StronglySorted (fun a b => key a <= key b) l -> StronglySorted (fun a b => key a <= key b) (insert key a l)).
  { intros a l. induction 1 as [|b l HS IH HF]; [repeat constructor|]. cbn [insert]. destruct (Z.leb_spec (key a) (key b)).
    - constructor; [constructor; assumption|]. constructor; [assumption|]. revert HF. apply Forall_impl. intros c Hc. lia.
    - constructor; [exact IH|]. apply (Permutation_Forall (P a l)). constructor; [lia|exact HF]. }
  intros l. induction l as [|a l [IP IS]]; [split; [reflexivity|constructor]|]. cbn [isort fold_right]. split; [rewrite <- P; constructor; exact IP|apply Q; exact IS].
Qed.

(** Two frames of 16 x 16 pixels and one extra channel.  In the first, a patch is added
    twice; in the second, a patch of another reference frame replaces what is there. *)
Definition ex_frames : list rframe := [RFrame 8 8 true; RFrame 4 4 true; RFrame 0 0 false; RFrame 0 0 false].
Definition ex_add : dict :=
  Dict [PPos 2 3 0; PPos 5 4 0; PPos 0 10 1] [RefPos 0 1 1 4 3; RefPos 1 0 0 2 2]
       [Blend 2 0 false; Blend 0 0 false; Blend 2 0 false; Blend 4 0 true; Blend 3 0 true; Blend 0 0 false] 2.
Definition ex_replace : dict := Dict [PPos 1 1 0] [RefPos 1 0 0 3 3] [Blend 1 0 false; Blend 1 0 false] 2.

Lemma ex_ok d : d = ex_add \/ d = ex_replace -> can_write ex_frames 16 16 1 d.
Proof.
  assert (I1 : inside ex_frames (RefPos 0 1 1 4 3)) by (exists (RFrame 8 8 true); cbn; repeat match goal with |- _ /\ _ => split end; try reflexivity; lia).
  assert (I2 : inside ex_frames (RefPos 1 0 0 2 2)) by (exists (RFrame 4 4 true); cbn; repeat match goal with |- _ /\ _ => split end; try reflexivity; lia).
  assert (I3 : inside ex_frames (RefPos 1 0 0 3 3)) by (exists (RFrame 4 4 true); cbn; repeat match goal with |- _ /\ _ => split end; try reflexivity; lia).
  unfold can_write, sound, fits, max_blending_infos, max_patches, max_ref_patches, zlen. intros [->| ->]; cbn [ex_add ex_replace positions refs blends stride length].
  - repeat match goal with |- _ /\ _ => split end; try (cbn; lia).
    + repeat constructor; cbn; lia.
    + repeat constructor; eexists; (split; [reflexivity|]); cbn; lia.
    + repeat constructor; cbn; lia.
    + repeat constructor; cbn; try assumption; try lia.
    + repeat constructor; cbn; try lia.
  - repeat match goal with |- _ /\ _ => split end; try (cbn; lia).
    + repeat constructor; cbn; lia.
    + repeat constructor; eexists; (split; [reflexivity|]); cbn; lia.
    + repeat constructor; cbn; lia.
    + repeat constructor; cbn; try assumption; try lia.
    + repeat constructor; cbn; try lia.
Qed.

Definition ex_row := add_one_row (isort i_y0) (isort i_y1) (isort Z.of_nat) ex_add.

(** Row 5 has both copies of the first patch; a segment that starts at column 4. *)
Example C54_case : sound ex_add /\
  (exists ds, ex_row 5 4 8 = Some ds /\ ds <> []) /\
  drawn_over (patches ex_add) 5 5 = [(0, 4, 3, [Blend 2 0 false; Blend 0 0 false]); (0, 1, 2, [Blend 2 0 false; Blend 4 0 true])] /\
  drawn_over (patches ex_add) 9 5 = [].
Proof. split; [apply (ex_ok ex_add); left; reflexivity|]. split; [|split; reflexivity]. eexists. split; [vm_compute; reflexivity|discriminate]. Qed.

(** A reader of 32-bit numbers, and bits for which the decoder accepts a dictionary with
    three patches, after another. *)
Definition read_u32 (st : list token) (c : Z) : Z * list token := let '(v, st') := read_token st c in (w32 v, st').
Example C55_case : (forall st c, 0 <= fst (read_u32 st c) < 2 ^ 32) /\ Forall (blend_ok 1) (blends ex_replace) /\
  exists ts d', decode _ read_u32 ex_frames 16 16 1 ex_replace ts = Some (d', []) /\ length (patches d') = 3%nat.
Proof.
  split; [intros st c; unfold read_u32; destruct (read_token st c); apply Z.mod_pos_bound; reflexivity|]. split; [apply (ex_ok ex_replace); right; reflexivity|].
  exists [(0, 2); (1, 0); (3, 1); (3, 1); (2, 3); (2, 2); (7, 1); (4, 2); (4, 3); (5, 2); (5, 0); (6, 6); (6, 2); (5, 2); (5, 4); (9, 1); (1, 1); (3, 0); (3, 0); (2, 1); (2, 1); (7, 0); (4, 0); (4, 10); (5, 3); (9, 1); (5, 0)].
  eexists. split; [vm_compute; reflexivity|reflexivity].
Qed.

(** C56 does not hold for the second frame: Decode keeps the blendings of the frames
    before, and the patches use those. *)
Theorem C56_second_frame_refuted : exists frames xsize ysize nec a b ta tb d1 d2,
  can_write frames xsize ysize nec a /\ can_write frames xsize ysize nec b /\ encode a = Some ta /\ encode b = Some tb /\
  decode _ read_token frames xsize ysize nec fresh ta = Some (d1, []) /\
  decode _ read_token frames xsize ysize nec d1 tb = Some (d2, []) /\
  map k_blends (patches b) = [[Blend 1 0 false; Blend 1 0 false]] /\ map k_blends (patches d2) = [[Blend 2 0 false; Blend 0 0 false]].
Proof.
  exists ex_frames, 16, 16, 1%nat, ex_add, ex_replace. eexists. eexists. eexists. eexists.
  split; [apply ex_ok; left; reflexivity|]. split; [apply ex_ok; right; reflexivity|]. split; [vm_compute; reflexivity|]. split; [vm_compute; reflexivity|]. split; [vm_compute; reflexivity|]. split; [vm_compute; reflexivity|]. split; reflexivity.
Qed.
Print Assumptions C56_second_frame_refuted.

(** Nor are the references that are reported those of the frame: frame 0 is reported
    although only the frame before used it, even with a frame without patches (Clear)
    in between. *)
Theorem C56_references_refuted : exists frames xsize ysize nec a b ta tb d1 d2,
  can_write frames xsize ysize nec a /\ can_write frames xsize ysize nec b /\ encode a = Some ta /\ encode b = Some tb /\
  decode _ read_token frames xsize ysize nec fresh ta = Some (d1, []) /\
  decode _ read_token frames xsize ysize nec (clear d1) tb = Some (d2, []) /\
  In 0 (get_references d2) /\ Forall (fun p => r_ref (k_rect p) = 1) (patches d2).
Proof.
  exists ex_frames, 16, 16, 1%nat, ex_add, ex_replace. eexists. eexists. eexists. eexists.
  split; [apply ex_ok; left; reflexivity|]. split; [apply ex_ok; right; reflexivity|]. split; [vm_compute; reflexivity|]. split; [vm_compute; reflexivity|]. split; [vm_compute; reflexivity|]. split; [vm_compute; reflexivity|].
  split; [left; reflexivity|repeat constructor].
Qed.
Print Assumptions C56_references_refuted.

(** Beside C56_first_frame_partial and C56_places_partial. *)
Example C56_case : can_write ex_frames 16 16 1 ex_add /\ length (patches ex_add) = 3%nat.
Proof. split; [apply ex_ok; left|]; reflexivity. Qed.

(** The dictionary of the n-th frame, when each frame of the image has the bits [ts]. *)
Fixpoint frames_later (frames : list rframe) (xsize ysize : Z) (nec : nat) (ts : list token) (n : nat) : option dict :=
  match n with
  | O => Some fresh
  | S m =>
      match frames_later frames xsize ysize nec ts m with
      | None => None
      | Some d => match decode _ read_token frames xsize ysize nec d ts with Some (d', []) => Some d' | _ => None end
      end
  end.

(** So the memory is not bounded by the size of the frame, which is what the limits in
    Decode are for: it grows with the number of frames. *)
Theorem C55_memory_refuted frames xsize ysize nec d : can_write frames xsize ysize nec d ->
  exists ts, encode d = Some ts /\ forall n, exists d', frames_later frames xsize ysize nec ts n = Some d' /\
  length (blends d') = (n * length (blends d))%nat.
Proof.
  intros H. destruct (written _ _ _ _ _ H) as (ts & E & K). exists ts. split; [exact E|]. induction n as [|n (d' & Ed & El)]; [exists fresh; split; reflexivity|].
  cbn [frames_later]. rewrite Ed. destruct (K d') as (ps' & rs & ED & _). rewrite ED. eexists. split; [reflexivity|]. cbn [blends]. rewrite app_length, El. cbn [Nat.mul]. apply Nat.add_comm.
Qed.
Print Assumptions C55_memory_refuted.
