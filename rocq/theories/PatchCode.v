(* Patches: the tokens of the encoder, read back. *)
From Coq Require Import ZArith List Bool Lia Arith.
From Verif Require Import Base FieldsModel FieldsProofs PatchModel PatchSpec PatchTree PatchDraw.
Import ListNotations.
Local Open Scope Z_scope.
Ltac Zify.zify_post_hook ::= idtac.

Section C.
Variable frames : list rframe.
Variables xsize ysize : Z.
Variable nec : nat.
Hypothesis Hx : 0 <= xsize <= 2 ^ 30.
Hypothesis Hy : 0 <= ysize <= 2 ^ 30.
Hypothesis Hf : Forall (fun f => f_xs f <= 2 ^ 30 /\ f_ys f <= 2 ^ 30) frames.
Hypothesis Hnec : Z.of_nat nec < 2 ^ 32.

Definition tok_ok (t : token) : Prop := 0 <= snd t < 2 ^ 32.

Lemma firstn_two {A} (a b : nat) : forall l : list A, firstn (a + b) l = firstn a l ++ firstn b (skipn a l).
Proof. induction a as [|a IH]; intros [|x l]; cbn; try reflexivity; [destruct b; reflexivity|]. rewrite IH. reflexivity. Qed.

Lemma blends_back bs rest : Forall (blend_ok nec) bs ->
  read_blends _ read_token nec (length bs) (concat (map (encode_blend nec) bs) ++ rest) = Some (bs, rest).
Proof.
  induction 1 as [|[mode alpha clamp] bs B F IH]; [reflexivity|]. apply blend_ok_is in B as (B1 & B2 & B3). cbn [b_mode b_alpha b_clamp] in *. cbn [length map concat read_blends]. unfold encode_blend at 1. cbn [b_mode b_alpha b_clamp app].
  rewrite <- !app_assoc. cbn [read_token app]. rewrite Z.eqb_refl. replace (8 <=? mode) with false by (symmetry; apply Z.leb_gt; lia). cbv zeta.
  destruct (uses_alpha mode && (1 <? nec)%nat) eqn:Ea.
  - cbn [app read_token]. rewrite Z.eqb_refl. replace (Z.of_nat nec <=? alpha) with false by (symmetry; apply Z.leb_gt; lia). cbn [andb].
    assert (Ek : uses_clamp mode = true) by (unfold uses_clamp; apply andb_prop in Ea as [-> _]; reflexivity). rewrite Ek. cbn [app read_token]. rewrite Z.eqb_refl, IH. destruct clamp; reflexivity.
  - cbn [app andb]. subst alpha. destruct (uses_clamp mode) eqn:Ek; cbn [app read_token].
    + rewrite Z.eqb_refl, IH. destruct clamp; reflexivity.
    + rewrite IH, B3 by reflexivity. reflexivity.
Qed.

Lemma offset_back p q rest : 0 <= p <= 2 ^ 30 -> 0 <= q <= 2 ^ 30 -> read_offset _ read_token q ((ctx_offset, pack_signed (p - q)) :: rest) = Some (p, rest).
Proof.
  intros Hp Hq. unfold read_offset. cbn [read_token]. rewrite Z.eqb_refl, unpack_pack by (unfold is_i32; lia). rewrite Z.gtb_ltb.
  destruct (Z.ltb_spec (p - q) 0), (Z.ltb_spec q (- (p - q))); cbn [andb]; try lia; f_equal; f_equal; lia.
Qed.

Lemma group_back rp : 1 <= r_xs rp -> 1 <= r_ys rp -> forall ps d prev bs rest, stride d = (nec + 1)%nat ->
  Forall (fun p => 0 <= p_x p /\ p_x p + r_xs rp <= xsize /\ 0 <= p_y p /\ p_y p + r_ys rp <= ysize) ps ->
  (length ps * stride d <= length bs)%nat -> Forall (blend_ok nec) bs ->
  match prev with
  | None => True
  | Some q => p_x (last (positions d) (PPos 0 0 0)) = p_x q /\ p_y (last (positions d) (PPos 0 0 0)) = p_y q /\ 0 <= p_x q <= 2 ^ 30 /\ 0 <= p_y q <= 2 ^ 30
  end ->
  read_group _ read_token xsize ysize nec (length ps) (match prev with None => true | Some _ => false end) rp d (encode_positions (stride d) prev ps bs ++ rest) =
  Some (Dict (positions d ++ map (fun p => PPos (p_x p) (p_y p) (length (refs d))) ps) (refs d) (blends d ++ firstn (length ps * stride d) bs) (stride d), rest).
Proof.
  intros R1 R2. induction ps as [|p ps IH]; intros d prev bs rest Es HF Hl HB Hprev.
  - cbn. rewrite !app_nil_r. destruct d; reflexivity.
  - inversion HF as [|? ? (A1 & A2 & A3 & A4) HF']; subst. cbn [length encode_positions read_group map]. rewrite <- !app_assoc.
    assert (Ep : forall tl, read_position _ read_token (match prev with None => true | Some _ => false end) (positions d) (length (refs d))
      ((match prev with None => [(ctx_pos, p_x p); (ctx_pos, p_y p)] | Some q => [(ctx_offset, pack_signed (p_x p - p_x q)); (ctx_offset, pack_signed (p_y p - p_y q))] end) ++ tl) = Some (PPos (p_x p) (p_y p) (length (refs d)), tl)).
    { intros tl. destruct prev as [q|]; unfold read_position.
      - destruct Hprev as (Q1 & Q2 & Q3 & Q4). cbv zeta. rewrite Q1, Q2. cbn [app]. rewrite offset_back by lia. rewrite offset_back by lia. reflexivity.
      - reflexivity. }
    rewrite Ep. cbn [p_x p_y]. rewrite !Z.gtb_ltb. replace (xsize <? p_x p + r_xs rp) with false by (symmetry; apply Z.ltb_ge; lia). replace (ysize <? p_y p + r_ys rp) with false by (symmetry; apply Z.ltb_ge; lia).
    assert (Lb : length (firstn (stride d) bs) = stride d) by (rewrite firstn_length; cbn [length] in Hl; lia).
    replace (stride d - 1)%nat with nec by lia. rewrite <- Lb at 1. rewrite blends_back by (rewrite <- (firstn_skipn (stride d) bs) in HB; apply Forall_app in HB; apply HB).
    set (d1 := Dict _ _ _ _). specialize (IH d1 (Some p) (skipn (stride d) bs) rest Es HF'). cbn [d1 stride refs positions blends] in IH. rewrite IH; clear IH.
    + f_equal. f_equal. f_equal; [rewrite <- app_assoc; reflexivity|]. rewrite <- app_assoc. f_equal. cbn [Nat.mul]. symmetry. apply firstn_two.
    + rewrite skipn_length. cbn [length] in Hl. lia.
    + rewrite <- (firstn_skipn (stride d) bs) in HB. apply Forall_app in HB. apply HB.
    + rewrite last_last. cbn. lia.
Qed.

Lemma same_ref_ok idx ps : let '(g, r) := same_ref idx ps in ps = g ++ r /\ Forall (fun p => p_idx p = idx) g.
Proof.
  induction ps as [|p ps IH]; cbn [same_ref]; [split; [reflexivity|constructor]|]. destruct (Nat.eqb_spec (p_idx p) idx); [|split; [reflexivity|constructor]].
  destruct (same_ref idx ps) as [g r]. destruct IH as [-> F]. split; [reflexivity|]. constructor; assumption.
Qed.

Definition alike (e : dict) (rs : list refpos) (p p' : ppos) : Prop :=
  p_x p' = p_x p /\ p_y p' = p_y p /\ nth_error rs (p_idx p') = nth_error (refs e) (p_idx p).

Lemma enc_tok_ok ps : forall st prev bs, Forall (fun p => 0 <= p_x p <= 2 ^ 30 /\ 0 <= p_y p <= 2 ^ 30) ps -> Forall (blend_ok nec) bs -> st = (nec + 1)%nat ->
  match prev with None => True | Some q => 0 <= p_x q <= 2 ^ 30 /\ 0 <= p_y q <= 2 ^ 30 end -> Forall tok_ok (encode_positions st prev ps bs).
Proof.
  induction ps as [|p ps IH]; intros st prev bs HF HB Es Hq; cbn [encode_positions]; [constructor|]. inversion HF as [|? ? A HF']; subst. apply Forall_app. split.
  - destruct prev as [q|]; (constructor; [|constructor; [|constructor]]); unfold tok_ok; cbn [snd]; try lia; apply pack_signed_range; unfold is_i32; lia.
  - apply Forall_app. rewrite <- (firstn_skipn (nec + 1) bs) in HB. apply Forall_app in HB as [HB1 HB2]. split; [|apply IH; auto].
    replace (nec + 1 - 1)%nat with nec by lia. revert HB1. generalize (firstn (nec + 1) bs). clear - Hnec. induction 1 as [|b l B F IH]; [constructor|]. apply blend_ok_is in B as (B1 & B2 & B3). cbn [map concat]. apply Forall_app. split; [|exact IH].
    unfold encode_blend. apply Forall_app. split; [constructor; [unfold tok_ok; cbn [snd]; lia|constructor]|]. apply Forall_app. split.
    + revert B2. destruct (uses_alpha (b_mode b) && (1 <? nec)%nat); intros B2; [|constructor]. constructor; [|constructor]. unfold tok_ok. cbn [snd]. lia.
    + destruct (uses_clamp _); [|constructor]. constructor; [|constructor]. unfold tok_ok. cbn [snd]. destruct (b_clamp b); lia.
Qed.

Lemma groups_back e : stride e = (nec + 1)%nat -> forall fuel ps bs, (length ps < fuel)%nat -> Forall (settled frames xsize ysize e) ps ->
  (length ps * stride e <= length bs)%nat -> Forall (blend_ok nec) bs -> zlen ps < 2 ^ 32 ->
  exists n ts, encode_groups fuel e ps bs = Some (n, ts) /\ 0 <= n <= zlen ps /\ Forall tok_ok ts /\
  forall d total next rest, stride d = stride e -> 0 <= total -> total + zlen ps <= max_patches xsize ysize -> next <= Z.max 1 (2 * total) ->
  2 * (total + zlen ps) * Z.of_nat (stride e) <= max_blending_infos xsize ysize ->
  exists ps' rs, read_refs _ read_token frames xsize ysize nec (Z.to_nat n) total next d (ts ++ rest) =
    Some (Dict (positions d ++ ps') (refs d ++ rs) (blends d ++ firstn (length ps * stride e) bs) (stride d), rest) /\
  Forall2 (alike e (refs d ++ rs)) ps ps'.
Proof.
  intros Es. induction fuel as [|fuel IH]; intros ps bs Hfu HS Hl HB Hz; [lia|]. cbn [encode_groups]. destruct ps as [|p ps0].
  { exists 0, []. split; [reflexivity|]. split; [cbn; lia|]. split; [constructor|]. intros d total next rest Ed _ _ _ _. exists [], []. cbn. rewrite !app_nil_r. split; [destruct d; reflexivity|constructor]. }
  set (ps := p :: ps0) in *. assert (HSp : settled frames xsize ysize e p) by (inversion HS; assumption). destruct HSp as (rp & En & (f & I1 & I2 & I3 & I4) & PL). rewrite En.
  pose proof (same_ref_ok (p_idx p) ps) as SR. assert (Eg : exists g0, fst (same_ref (p_idx p) ps) = p :: g0) by (unfold ps; cbn [same_ref]; rewrite Nat.eqb_refl; destruct (same_ref (p_idx p) ps0) as [a b]; exists a; reflexivity).
  destruct (same_ref (p_idx p) ps) as [g r]. destruct SR as [Eps Fg]. destruct Eg as [g0 Eg]. cbn [fst] in Eg.
  assert (Lps : length ps = (length g + length r)%nat) by (rewrite Eps, app_length; reflexivity).
  assert (Lg : (1 <= length g)%nat) by (rewrite Eg; cbn; lia).
  assert (HSg : Forall (settled frames xsize ysize e) g /\ Forall (settled frames xsize ysize e) r) by (rewrite Eps in HS; apply Forall_app in HS; exact HS). destruct HSg as [HSg HSr].
  assert (Pg : Forall (fun q => 0 <= p_x q /\ p_x q + r_xs rp <= xsize /\ 0 <= p_y q /\ p_y q + r_ys rp <= ysize) g).
  { rewrite Forall_forall in *. intros q Hq. destruct (HSg q Hq) as (rq & Eq & _ & (_ & Q)). rewrite (Fg q Hq), En in Eq. injection Eq as <-. exact Q. }
  rewrite Forall_forall in Hf. pose proof (Hf f (nth_error_In _ _ I2)) as [Hf1 Hf2].
  assert (Bs : Forall (blend_ok nec) (firstn (length g * stride e) bs) /\ Forall (blend_ok nec) (skipn (length g * stride e) bs)) by (rewrite <- (firstn_skipn (length g * stride e) bs) in HB; apply Forall_app in HB; exact HB).
  destruct (IH r (skipn (length g * stride e) bs)) as (n & ts & Ee & Hn & Tn & K); [lia|exact HSr|rewrite skipn_length; nia|apply Bs|unfold zlen in *; lia|].
  rewrite Ee. eexists _, _. split; [reflexivity|]. split; [unfold zlen in *; lia|]. split.
  { cbn [app]. repeat (constructor; [unfold tok_ok; cbn [snd]; unfold zlen in *; lia|]). apply Forall_app. split; [|exact Tn]. apply enc_tok_ok; auto. revert Pg. apply Forall_impl. intros q Q. lia. }
  intros d total next rest Ed Ht Hm Hnx Hbl. replace (Z.to_nat (n + 1)) with (S (Z.to_nat n)) by lia. cbn [read_refs].
  assert (Er : forall tl, read_ref _ read_token frames ([(ctx_ref_frame, r_ref rp); (ctx_ref_pos, r_x0 rp); (ctx_ref_pos, r_y0 rp); (ctx_size, r_xs rp - 1); (ctx_size, r_ys rp - 1)] ++ tl) = Some (rp, tl)).
  { intros tl. unfold read_ref. cbn [app read_token]. rewrite !Z.eqb_refl. replace (4 <=? r_ref rp) with false by (symmetry; apply Z.leb_gt; lia). rewrite I2. replace (f_xs f =? 0) with false by (symmetry; apply Z.eqb_neq; lia). rewrite I3. cbn [negb].
    rewrite !Z.sub_add, !Z.gtb_ltb. replace (f_xs f <? r_x0 rp + r_xs rp) with false by (symmetry; apply Z.ltb_ge; lia). replace (f_ys f <? r_y0 rp + r_ys rp) with false by (symmetry; apply Z.ltb_ge; lia). destruct rp; reflexivity. }
  set (tl := (ctx_count, zlen g - 1) :: encode_positions (stride e) None g bs ++ ts ++ rest).
  match goal with |- context [read_ref _ _ _ ?x] => replace x with ([(ctx_ref_frame, r_ref rp); (ctx_ref_pos, r_x0 rp); (ctx_ref_pos, r_y0 rp); (ctx_size, r_xs rp - 1); (ctx_size, r_ys rp - 1)] ++ tl) by (unfold tl; cbn [app]; rewrite <- !app_assoc; reflexivity) end.
  rewrite Er. unfold tl. cbn [read_token]. rewrite Z.eqb_refl. cbv zeta. rewrite Z.sub_add, !Z.gtb_ltb.
  assert (Zl : zlen ps = zlen g + zlen r) by (unfold zlen; lia). assert (Zr : 0 <= zlen r) by (unfold zlen; lia). assert (Zg : 1 <= zlen g) by (unfold zlen; lia).
  replace (max_patches xsize ysize <? zlen g - 1) with false by (symmetry; apply Z.ltb_ge; lia). replace (max_patches xsize ysize <? total + zlen g) with false by (symmetry; apply Z.ltb_ge; lia).
  set (next' := if next <? total + zlen g then _ else _). assert (Hn' : next' <= 2 * (total + zlen g)) by (unfold next'; destruct (Z.ltb_spec next (total + zlen g)); lia).
  replace (max_blending_infos xsize ysize <? next' * Z.of_nat (stride d)) with false by (symmetry; apply Z.ltb_ge; rewrite Ed; nia).
  replace (Z.to_nat (zlen g)) with (length g) by (unfold zlen; lia).
  pose proof (group_back rp ltac:(lia) ltac:(lia) g d None bs (ts ++ rest) ltac:(congruence) Pg ltac:(rewrite Ed; nia) HB I) as G. rewrite Ed in G. rewrite G.
  cbn [positions refs blends stride]. set (d1 := Dict _ _ _ _).
  destruct (K d1 (total + zlen g) next' rest) as (ps' & rs & ER & F2); [exact eq_refl|lia|lia|lia|rewrite <- Z.add_assoc, <- Zl; exact Hbl|]. rewrite ER. cbn [d1 positions refs blends stride] in *.
  exists (map (fun q => PPos (p_x q) (p_y q) (length (refs d))) g ++ ps'), (rp :: rs). split.
  - f_equal. f_equal. f_equal; [rewrite <- app_assoc; reflexivity|rewrite <- app_assoc; reflexivity| |symmetry; exact Ed]. rewrite <- app_assoc. f_equal. rewrite Lps, Nat.mul_add_distr_r.
    symmetry. apply firstn_two.
  - rewrite Eps. apply Forall2_app.
    + clear - Fg En. induction Fg as [|q g Hq F IH]; [constructor|]. cbn [map]. constructor; [|exact IH]. split; [reflexivity|]. split; [reflexivity|]. cbn [p_idx]. rewrite nth_error_app2, Nat.sub_diag by lia. rewrite Hq, En. reflexivity.
    + rewrite <- app_assoc in F2. exact F2.
Qed.
End C.
