(* C36: two decoders that agree in all but what is written before it is read *)
From Verif Require Import Base ResetModel ResetSpec.
Ltac Zify.zify_post_hook ::= idtac.

Definition icc_rel {V} (a b : option (icc V)) : Prop :=
  match a, b with
  | None, None => True
  | None, Some i | Some i, None => i_skip i = 0
  | Some i, Some j => i_skip i = i_skip j /\ (i_skip i <> 0 -> i_rest i = i_rest j)
  end.
Definition jpeg_rel {V} (a b : jpegdec V) : Prop :=
  j_inside a = j_inside b /\ j_data a = j_data b /\ j_next_out a = j_next_out b /\ j_avail a = j_avail b /\ j_eof a = j_eof b /\
  (j_inside a = true -> j_buffer a = j_buffer b /\ (j_eof a = false -> j_size a = j_size b)).
Definition lrel {V} (g : guards) (a b : left V) : Prop :=
  l_prog_detail a = l_prog_detail b /\
  (g_frame_stage g = FFull -> l_frame_prog_detail a = l_frame_prog_detail b /\ l_dc_done a = l_dc_done b) /\
  (g_image_out_set g = true -> l_format a = l_format b) /\
  (g_simple g = true -> l_simple a = l_simple b) /\
  (g_custom_depth g = true -> l_depth a = l_depth b) /\
  (g_box_event g = true \/ g_current_box g = true -> l_box a = l_box b) /\
  (g_store_exif g = 1 \/ g_store_xmp g = 1 -> l_meta a = l_meta b) /\
  jpeg_rel (l_jpeg a) (l_jpeg b) /\ icc_rel (l_icc a) (l_icc b).
Definition rel {V} (a b : dec V) : Prop :=
  d_rest a = d_rest b /\ d_guards a = d_guards b /\ d_settings a = d_settings b /\ lrel (d_guards a) (d_left a) (d_left b).

Lemma jpeg_process_rel V (L : library V) a b input : jpeg_rel a b -> j_inside a = true ->
  let '(a1, s1, u1) := jpeg_process L a input in let '(b1, s2, u2) := jpeg_process L b input in
  jpeg_rel a1 b1 /\ s1 = s2 /\ u1 = u2.
Proof.
  intros (Hi & Hd & Hn & Ha & He & Hb) H. destruct (Hb H) as [Hbuf Hsz]. rewrite H in Hi. unfold jpeg_process. rewrite H, <- Hi, <- He, <- Hbuf. cbn [negb].
  destruct (j_eof a) eqn:E.
  - cbn [negb andb orb]. destruct (k_jpeg_decode L _) as [data [[|]|]]; cbn; repeat split; auto; try discriminate; try congruence.
  - specialize (Hsz eq_refl). rewrite <- Hsz. cbn [negb andb orb].
    destruct (_ <? _); [cbn; repeat split; auto; congruence|]. destruct (_ =? j_size a); [|cbn; repeat split; auto; congruence].
    destruct (k_jpeg_decode L _) as [data [[|]|]]; cbn; repeat split; auto; try discriminate; try congruence.
Qed.

Lemma jpeg_start_rel V (a b : jpegdec V) u size : jpeg_rel a b -> jpeg_rel (jpeg_start a u size) (jpeg_start b u size).
Proof.
  intros (Hi & Hd & Hn & Ha & He & Hb). unfold jpeg_start, jpeg_rel. destruct u; cbn; repeat split; auto; discriminate.
Qed.

Ltac fin := repeat match goal with |- _ /\ _ => split | |- _ -> _ => intro end; cbn in *; auto; try congruence; try discriminate; try tauto.

Lemma micro_rel V (L : library V) r s g a b m : lrel g a b ->
  let '(g1, a1, n1) := micro_step L r s g a m in let '(g2, b1, n2) := micro_step L r s g b m in
  g1 = g2 /\ lrel g1 a1 b1 /\ n1 = n2.
Proof.
  intros H. pose proof H as (Hp & Hf & Hfmt & Hs & Hd & Hb & Hm & Hj & Hi).
  destruct m; cbn [micro_step].
  - split; [reflexivity|split; [exact H|reflexivity]].
  - set (i := match l_icc a with None => _ | Some i => i end). set (j := match l_icc b with None => _ | Some i => i end).
    assert (Hij : i_skip i = i_skip j /\ (i_skip i <> 0 -> i_rest i = i_rest j)).
    { subst i j. unfold icc_rel in Hi. destruct (l_icc a), (l_icc b); cbn; try tauto; split; try congruence; intros; congruence. }
    destruct Hij as [E1 E2]. rewrite <- E1. destruct (Z.eqb_spec (i_skip i) 0) as [Z0|Z0].
    + destruct (k_icc_init L r) as [i1|v].
      * destruct (k_icc_process L r (i_rest i1)) as [[i' ok] v]. split; [reflexivity|]. split; [|reflexivity]. unfold lrel, with_icc in *; cbn. fin.
      * split; [reflexivity|]. split; [|reflexivity]. unfold lrel, with_icc in *; cbn. fin.
    + rewrite <- (E2 Z0). destruct (k_icc_process L r (i_rest i)) as [[i' ok] v]. split; [reflexivity|]. split; [|reflexivity]. unfold lrel, with_icc in *; cbn. fin.
  - split; [reflexivity|]. split; [|reflexivity].
    set (boxes := has _ JXL_DEC_BOX). set (wants := has _ _). set (e1 := if wants && _ && exif then 1 else _). set (x1 := if wants && _ && xmp then 1 else _).
    unfold lrel; cbn [g_frame_stage g_image_out_set g_simple g_custom_depth g_box_event g_current_box g_store_exif g_store_xmp].
    assert (HM : (e1 =? 1) || (x1 =? 1) = false -> e1 = 1 \/ x1 = 1 -> False).
    { intros Q [W|W]; rewrite W in Q; cbn in Q; [discriminate|rewrite orb_true_r in Q; discriminate]. }
    destruct boxes, ((e1 =? 1) || (x1 =? 1)); cbn; fin; exfalso; auto.
  - split; [reflexivity|]. split; [|reflexivity]. unfold lrel; cbn. fin.
  - split; [reflexivity|]. split; [|reflexivity]. unfold lrel; cbn. fin. apply Hb. destruct (has _ _ && negb _); intuition congruence.
  - destruct (has _ _ && g_current_box g) eqn:E.
    + apply andb_prop in E. destruct E as [_ E]. rewrite <- (Hb (or_intror E)). destruct (k_box_process L r (l_box a)) as [bd v]. split; [reflexivity|]. split; [|reflexivity]. unfold lrel; cbn. fin.
    + split; [reflexivity|split; [exact H|reflexivity]].
  - destruct ((g_store_exif g =? 1) || (g_store_xmp g =? 1)) eqn:E.
    + assert (Q : g_store_exif g = 1 \/ g_store_xmp g = 1) by (apply orb_prop in E; destruct E as [E|E]; apply Z.eqb_eq in E; auto).
      rewrite <- (Hm Q). destruct (k_box_process L r (l_meta a)) as [bd v]. split; [reflexivity|]. split; [|reflexivity]. unfold lrel; cbn. fin.
    + split; [reflexivity|split; [exact H|reflexivity]].
  - split; [reflexivity|]. split; [|reflexivity]. unfold lrel; cbn [g_frame_stage g_image_out_set g_simple g_custom_depth g_box_event g_current_box g_store_exif g_store_xmp].
    repeat (split; [assumption|]). split; [|split; assumption]. intros [Q|Q].
    + destruct (Z.eqb_spec (g_store_exif g) 1); [discriminate|contradiction].
    + destruct (Z.eqb_spec (g_store_xmp g) 1); [discriminate|contradiction].
  - destruct (g_box_stage g); try (split; [reflexivity|split; [exact H|reflexivity]]).
    assert (J : jpeg_rel (if j_inside (l_jpeg a) then l_jpeg a else jpeg_start (l_jpeg a) (r_box_contents_unbounded V r) (r_box_contents_size V r))
                         (if j_inside (l_jpeg b) then l_jpeg b else jpeg_start (l_jpeg b) (r_box_contents_unbounded V r) (r_box_contents_size V r)) /\
                j_inside (if j_inside (l_jpeg a) then l_jpeg a else jpeg_start (l_jpeg a) (r_box_contents_unbounded V r) (r_box_contents_size V r)) = true).
    { pose proof Hj as [Q _]. rewrite <- Q. destruct (j_inside (l_jpeg a)) eqn:Ei; [split; [exact Hj|exact Ei]|]. split; [|reflexivity]. apply jpeg_start_rel, Hj. }
    destruct J as [J Ji]. pose proof (jpeg_process_rel V L _ _ input J Ji) as P.
    destruct (jpeg_process L (if j_inside (l_jpeg a) then _ else _) input) as [[a2 s1] u1]. destruct (jpeg_process L _ input) as [[b2 s2] u2].
    destruct P as (P & <- & <-). split; [reflexivity|]. split; [unfold lrel; cbn; fin|]. destruct P as (_ & P & _). rewrite P. reflexivity.
  - destruct (g_frame_stage g) eqn:Eg; try (split; [reflexivity|split; [exact H|reflexivity]]).
    destruct Hj as (J1 & J2 & J3 & J4 & J5 & J6). assert (O : output_set (l_jpeg b) = output_set (l_jpeg a)) by (unfold output_set; rewrite J3; reflexivity). rewrite O, J2.
    split; [reflexivity|]. split; [|reflexivity].
    destruct (if output_set (l_jpeg a) then j_data (l_jpeg b) else None); unfold lrel; cbn; fin; unfold jpeg_rel; cbn; repeat split; auto; apply J6; assumption.
  - destruct (g_frame_stage g) eqn:Eg; try (split; [reflexivity|split; [exact H|reflexivity]]).
    rewrite Hp. split; [reflexivity|]. split; [|reflexivity]. destruct full; unfold lrel; cbn; fin.
  - destruct (g_frame_stage g) eqn:Eg; try (split; [reflexivity|split; [exact H|reflexivity]]).
    split; [reflexivity|]. split; [exact H|]. destruct Hj as (J1 & J2 & J3 & _). unfold output_set. rewrite J3. f_equal.
    destruct (g_image_out_set g); [|reflexivity]. rewrite (Hfmt eq_refl). f_equal. f_equal.
    + destruct (g_custom_depth g); [|reflexivity]. rewrite (Hd eq_refl). reflexivity.
    + destruct (g_simple g); [|reflexivity]. rewrite (Hs eq_refl). reflexivity.
  - destruct (g_frame_stage g) eqn:Eg; try (split; [reflexivity|split; [exact H|reflexivity]]).
    split; [reflexivity|]. split; [exact H|]. destruct (Hf eq_refl) as [-> ->]. reflexivity.
  - destruct (g_frame_stage g) eqn:Eg; try (split; [reflexivity|split; [exact H|reflexivity]]).
    split; [reflexivity|]. split; [|reflexivity]. destruct (Hf eq_refl) as [F1 F2]. unfold lrel; cbn. fin.
  - split; [reflexivity|]. destruct Hj as (J1 & J2 & J3 & J4). split; [|unfold output_set; rewrite J3; reflexivity]. unfold lrel; cbn. fin.
    + apply Hfmt. destruct out; [discriminate|assumption].
    + unfold jpeg_rel. auto.
  - destruct Hj as (J1 & J2 & J3 & J4 & J5 & J6). rewrite J3, J4. split; [reflexivity|]. split; [|reflexivity].
    destruct ((0 <=? size) && _); unfold lrel; cbn; fin; unfold jpeg_rel; cbn; repeat split; auto; try apply J6; auto.
Qed.

Lemma process_rel V (L : library V) steps : forall a b log, rel a b ->
  let '(a1, l1, v1) := process L steps a log in let '(b1, l2, v2) := process L steps b log in rel a1 b1 /\ l1 = l2 /\ v1 = v2.
Proof.
  induction steps as [|steps IH]; intros a b log H; cbn [process]; [auto|].
  pose proof H as (Hr & Hg & Hs & Hl). rewrite <- Hr, <- Hg, <- Hs.
  destruct (k_next L (d_rest a) (d_settings a) (d_guards a) log) as [[r s] m].
  pose proof (micro_rel V L r s (d_guards a) _ _ m Hl) as P.
  destruct (micro_step L r s (d_guards a) (d_left a) m) as [[g1 a1] n1]. destruct (micro_step L r s (d_guards a) (d_left b) m) as [[g2 b1] n2].
  destruct P as (<- & P & <-). assert (R : rel (mkDec r g1 s a1) (mkDec r g1 s b1)) by (split; [|split; [|split]]; auto).
  destruct m; try (apply IH; exact R). auto.
Qed.

Lemma reset_left V (L : library V) (a b : dec V) : l_prog_detail (d_left a) = l_prog_detail (d_left b) -> jpeg_rel (l_jpeg (d_left a)) (l_jpeg (d_left b)) ->
  rel (reset L a) (reset L b).
Proof.
  intros Hp Hj. unfold rel, reset, rewind; cbn. repeat (split; [reflexivity|]). unfold lrel; cbn. fin; try solve [exfalso; intuition discriminate].
  unfold icc_reset. destruct (l_icc (d_left a)), (l_icc (d_left b)); cbn; auto. split; [reflexivity|congruence].
Qed.

Ltac parts := split; [reflexivity|split; [reflexivity|split; [reflexivity|]]]; unfold lrel in *; cbn in *; fin.

Lemma api_yes V (L : library V) a b c log log' yes yes' : rel a b -> log = log' ->
  (forall r s, rel (yes r s (d_guards a) (d_left a)) (yes' r s (d_guards a) (d_left b))) ->
  let '(a1, o1) := api L a c log yes in let '(b1, o2) := api L b c log' yes' in rel a1 b1 /\ o1 = o2.
Proof.
  intros (Hr & Hg & Hs & Hl) <- HY. unfold api. rewrite <- Hr, <- Hg, <- Hs. destruct (k_api L c _ _ _ log) as [[[ok v] r] s].
  split; [|reflexivity]. destruct ok; [apply HY|]. split; [|split; [|split]]; auto.
Qed.

Lemma step_rel V (L : library V) a b c : rel a b ->
  let '(a1, o1) := step L a c in let '(b1, o2) := step L b c in rel a1 b1 /\ o1 = o2.
Proof.
  intros H. pose proof H as (Hr & Hg & Hs & Hl). pose proof Hl as (Lp & Lf & Lfmt & Ls & Ld & Lb & Lm & Lj & Li).
  assert (HF : (if g_image_out_set (d_guards a) then [VFormat (l_format (d_left a))] else []) = (if g_image_out_set (d_guards b) then [VFormat (l_format (d_left b))] else [])).
  { rewrite <- Hg. destruct (g_image_out_set (d_guards a)); [|reflexivity]. rewrite (Lfmt eq_refl). reflexivity. }
  destruct c; cbn [step].
  - pose proof (process_rel V L steps a b [] H) as P. destruct (process L steps a []) as [[a1 l1] v1]. destruct (process L steps b []) as [[b1 l2] v2].
    destruct P as (P & <- & <-). auto.
  - apply api_yes; [exact H|reflexivity|]. intros. unfold set_out. parts.
  - apply api_yes; [|reflexivity|].
    + split; [exact Hr|split; [exact Hg|split; [exact Hs|]]]. unfold lrel in *; cbn. fin.
    + intros. unfold set_out. parts.
  - apply api_yes; [exact H|reflexivity|]. intros. unfold set_out. parts.
  - apply api_yes; [exact H|exact HF|]. intros. parts.
  - apply api_yes; [exact H|exact HF|]. intros. parts.
  - rewrite <- Hg. destruct (g_box_event (d_guards a)) eqn:E; [|auto]. rewrite <- ?Hg. apply api_yes; [exact H|reflexivity|]. intros. parts.
  - apply api_yes; [exact H|reflexivity|]. intros. parts. apply Lb. intuition congruence.
  - destruct Lj as (J1 & J2 & J3 & J4 & J5 & J6). assert (O : output_set (l_jpeg (d_left b)) = output_set (l_jpeg (d_left a))) by (unfold output_set; rewrite J3; reflexivity). rewrite O, <- Hr.
    destruct (_ || _); [split; [exact H|reflexivity]|]. split; [|reflexivity]. split; [reflexivity|split; [exact Hg|split; [exact Hs|]]]. unfold lrel; cbn; fin; unfold jpeg_rel; cbn; repeat split; auto; apply J6; auto.
  - destruct Lj as (J1 & J2 & J3 & J4 & J5 & J6). rewrite J4. split; [|reflexivity]. split; [exact Hr|split; [exact Hg|split; [exact Hs|]]]. unfold lrel; cbn; fin; unfold jpeg_rel; cbn; repeat split; auto; apply J6; auto.
  - rewrite <- Hg, <- Hr, <- Hs. destruct (g_frame_stage (d_guards a)) eqn:E; try (split; [exact H|reflexivity]).
    destruct (k_api L CSkipCurrentFrame _ _ _ []) as [[[ok v] r] s]. split; [|reflexivity]. parts. apply Lfmt. destruct ok; [discriminate|assumption].
  - destruct (_ && _); [|auto]. split; [|reflexivity]. split; [exact Hr|split; [exact Hg|split; [exact Hs|]]]. unfold lrel; cbn; fin.
  - apply api_yes; [exact H|reflexivity|]. intros. parts.
  - apply api_yes; [exact H|reflexivity|]. intros. parts.
  - split; [|reflexivity]. unfold rewind. rewrite <- Hg, <- Hs. parts; try solve [exfalso; intuition discriminate].
    unfold icc_reset, icc_rel in *. destruct (l_icc (d_left a)), (l_icc (d_left b)); cbn; auto. split; [reflexivity|congruence].
  - split; [|reflexivity]. apply reset_left; assumption.
Qed.

Lemma run_rel V (L : library V) cs : forall a b, rel a b -> snd (run L a cs) = snd (run L b cs) /\ rel (fst (run L a cs)) (fst (run L b cs)).
Proof.
  induction cs as [|c cs IH]; intros a b H; cbn [run]; [auto|].
  pose proof (step_rel V L a b c H) as P. destruct (step L a c) as [a1 o1]. destruct (step L b c) as [b1 o2]. destruct P as [P <-].
  destruct (IH a1 b1 P) as [I1 I2]. destruct (run L a1 cs) as [a2 os1]. destruct (run L b1 cs) as [b2 os2]. cbn in *. split; [congruence|exact I2].
Qed.

(** ** Histories. *)
Lemma micro_detail V (L : library V) r s g l m : l_prog_detail (snd (fst (micro_step L r s g l m))) = l_prog_detail l.
Proof.
  destruct m; cbn [micro_step]; repeat (match goal with |- context [match ?x with _ => _ end] => destruct x end; cbn); reflexivity.
Qed.
Lemma process_detail V (L : library V) steps : forall d log, l_prog_detail (d_left (fst (fst (process L steps d log)))) = l_prog_detail (d_left d).
Proof.
  induction steps as [|steps IH]; intros d log; cbn [process]; [reflexivity|].
  destruct (k_next L (d_rest d) (d_settings d) (d_guards d) log) as [[r s] m]. pose proof (micro_detail V L r s (d_guards d) (d_left d) m) as P.
  destruct (micro_step L r s (d_guards d) (d_left d) m) as [[g l] new]. cbn in P. destruct m; try (rewrite IH; exact P). exact P.
Qed.
Lemma step_detail V (L : library V) d c : l_prog_detail (d_left (fst (step L d c))) = choice (l_prog_detail (d_left d)) c.
Proof.
  destruct c; cbn [step choice]; try (unfold api; destruct (k_api L _ _ _ _ _) as [[[ok v] r] s]; destruct ok; reflexivity); try reflexivity.
  - pose proof (process_detail V L steps d []) as P. destruct (process L steps d []) as [[d1 log] v]. exact P.
  - destruct (g_box_event _); [|reflexivity]. unfold api; destruct (k_api L _ _ _ _ _) as [[[ok v] r] s]; destruct ok; reflexivity.
  - destruct (_ || _); reflexivity.
  - destruct (g_frame_stage _); try reflexivity. destruct (k_api L _ _ _ _ _) as [[[ok v] r] s]; destruct ok; reflexivity.
  - destruct (_ && _); reflexivity.
Qed.
Lemma run_detail V (L : library V) cs : forall d, l_prog_detail (d_left (fst (run L d cs))) = fold_left choice cs (l_prog_detail (d_left d)).
Proof.
  induction cs as [|c cs IH]; intros d; cbn [run fold_left]; [reflexivity|]. pose proof (step_detail V L d c) as P. destruct (step L d c) as [d1 o].
  specialize (IH d1). destruct (run L d1 cs) as [d2 os]. cbn in *. rewrite IH, P. reflexivity.
Qed.

(* the JPEG decoder is untouched *)
Definition jpeg0 {V} : jpegdec V := mkJpeg [] None false false 0 None 0.
Definition untouched {V} (g : guards) (l : left V) : Prop :=
  l_jpeg l = jpeg0 /\ has (g_orig_events g) JXL_DEC_JPEG_RECONSTRUCTION = false /\ g_box_stage g <> SRecon.
Lemma micro_untouched V (L : library V) r s g l m : untouched g l ->
  untouched (fst (fst (micro_step L r s g l m))) (snd (fst (micro_step L r s g l m))).
Proof.
  intros (H1 & H2 & H3). destruct m; cbn [micro_step].
  all: try (lazymatch goal with |- context [jpeg_process] => fail | |- context [MBoxHeader] => fail | _ => idtac end; unfold untouched; repeat (match goal with |- context [match ?x with _ => _ end] => destruct x eqn:? end; cbn); auto; fail).
  - unfold untouched. rewrite H2. cbn [andb]. destruct (has _ JXL_DEC_BOX), ((_ =? 1) || (_ =? 1)); cbn; repeat split; auto; discriminate.
  - unfold untouched; cbn. repeat split; auto. destruct header; discriminate.
  - destruct (g_box_stage g) eqn:E; try contradiction; (split; [exact H1|split; [exact H2|cbn; rewrite E; discriminate]]).
  - unfold untouched. rewrite H1. cbn. destruct (g_frame_stage g); cbn; auto.
  - unfold untouched. rewrite H1. cbn. destruct (Z.leb_spec 0 size), (Z.leb_spec size 0); cbn; auto. repeat split; auto. assert (size = 0) by lia. subst. reflexivity.
Qed.
Lemma process_untouched V (L : library V) steps : forall d log, untouched (d_guards d) (d_left d) ->
  untouched (d_guards (fst (fst (process L steps d log)))) (d_left (fst (fst (process L steps d log)))).
Proof.
  induction steps as [|steps IH]; intros d log H; cbn [process]; [exact H|].
  destruct (k_next L (d_rest d) (d_settings d) (d_guards d) log) as [[r s] m]. pose proof (micro_untouched V L r s (d_guards d) (d_left d) m H) as P.
  destruct (micro_step L r s (d_guards d) (d_left d) m) as [[g l] new]. cbn in P. destruct m; try (apply IH; exact P). exact P.
Qed.
Lemma step_untouched V (L : library V) d c : no_jpeg c -> untouched (d_guards d) (d_left d) ->
  untouched (d_guards (fst (step L d c))) (d_left (fst (step L d c))).
Proof.
  intros Hc H. pose proof H as (H1 & H2 & H3). destruct c; cbn [step no_jpeg] in *; try contradiction;
    try (unfold api; destruct (k_api L _ _ _ _ _) as [[[ok v] r] s]; destruct ok; unfold untouched; cbn; auto; fail).
  - pose proof (process_untouched V L steps d [] H) as P. destruct (process L steps d []) as [[d1 log] v]. exact P.
  - destruct (g_box_event _); [|exact H]. unfold api; destruct (k_api L _ _ _ _ _) as [[[ok v] r] s]; destruct ok; unfold untouched; cbn; auto.
  - unfold untouched. rewrite H1. cbn. auto.
  - destruct (g_frame_stage _); try exact H. destruct (k_api L _ _ _ _ _) as [[[ok v] r] s]; destruct ok; unfold untouched; cbn; auto.
  - destruct (_ && _); [|exact H]. unfold untouched; cbn; auto.
  - unfold api; destruct (k_api L _ _ _ _ _) as [[[ok v] r] s]; destruct ok; unfold untouched; cbn; auto. repeat split; auto.
    unfold has, JXL_DEC_JPEG_RECONSTRUCTION. rewrite Hc. reflexivity.
  - unfold untouched, rewind; cbn. repeat split; auto. discriminate.
  - unfold untouched, reset, rewind; cbn. repeat split; auto. discriminate.
Qed.
Lemma run_untouched V (L : library V) cs : forall d, Forall no_jpeg cs -> untouched (d_guards d) (d_left d) ->
  untouched (d_guards (fst (run L d cs))) (d_left (fst (run L d cs))).
Proof.
  induction cs as [|c cs IH]; intros d F H; cbn [run]; [exact H|]. inversion F; subst. pose proof (step_untouched V L d c ltac:(assumption) H) as P.
  destruct (step L d c) as [d1 o]. specialize (IH d1 ltac:(assumption) P). destruct (run L d1 cs) as [d2 os]. exact IH.
Qed.
