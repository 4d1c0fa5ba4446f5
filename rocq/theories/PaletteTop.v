From Verif Require Import Base Arr ListAux Wrap PaletteModel PaletteSpec PaletteProofs PaletteChan PaletteColors.
From Coq Require Import Permutation.
Ltac Zify.zify_post_hook ::= idtac.

Lemma Ret_eq {A} (a b : A) : Ret a = Ret b -> a = b.
Proof. congruence. Qed.

(* ---- the decoder on any image ---- *)
Definition row_ok (w : Z) (row : list Z) : Prop := zlen row = w /\ Forall is_i32 row.

Lemma Forall2_right {A B} (Q : A -> B -> Prop) (P : B -> Prop) l r : Forall2 Q l r -> (forall a b, In a l -> Q a b -> P b) -> Forall P r.
Proof. induction 1 as [|a b l r K _ IH]; intros H; [constructor|]. constructor; [apply (H a); [left; reflexivity|exact K]|]. apply IH. intros x y Hx. apply H. right. exact Hx. Qed.

Lemma map_rows_ok f w rows : (forall i, exists v, f i = Some v /\ is_i32 v) -> Forall (row_ok w) rows ->
  exists r, omap (omap f) rows = Some r /\ zlen r = zlen rows /\ Forall (row_ok w) r.
Proof.
  intros F R. rewrite Forall_forall in R. destruct (omap_ok (omap f) (fun _ b => row_ok w b) rows) as (r & E & K).
  - intros a Ha. destruct (R a Ha) as (L & _). destruct (omap_ok f (fun _ v => is_i32 v) a) as (b & E & K); [intros; apply F|]. exists b. split; [exact E|].
    split; [rewrite (Forall2_zlen _ _ _ K); exact L|]. apply (Forall2_right _ _ _ _ K). auto.
  - exists r. split; [exact E|]. split; [apply (Forall2_zlen _ _ _ K)|]. apply (Forall2_right _ _ _ _ K). auto.
Qed.

Lemma delta_row_ok guess f w n above row : (forall i, exists v, f i = Some v /\ is_i32 v) -> forall left, Forall is_i32 left -> zlen left + zlen row = w ->
  exists r, delta_row guess f w n above left row = Some r /\ row_ok w r.
Proof.
  intros F. induction row as [|i row IH]; intros left L W; cbn [delta_row].
  - exists (rev left). split; [reflexivity|]. split; [unfold zlen in *; rewrite rev_length; cbn [length] in W; lia|apply Forall_rev; exact L].
  - destruct (F i) as (v & E & _). rewrite E. apply IH; [constructor; [apply s32_range|exact L]|]. rewrite zlen_cons in *. lia.
Qed.
Lemma delta_rows_ok guess f w n rows : (forall i, exists v, f i = Some v /\ is_i32 v) -> Forall (row_ok w) rows -> forall above, Forall (row_ok w) above ->
  exists r, delta_rows guess f w n above rows = Some r /\ zlen r = zlen above + zlen rows /\ Forall (row_ok w) r.
Proof.
  intros F. induction rows as [|row rows IH]; intros R above A; cbn [delta_rows].
  - exists (rev above). split; [reflexivity|]. split; [unfold zlen; rewrite rev_length; cbn [length]; lia|apply Forall_rev; exact A].
  - inversion R as [|? ? R1 R2]; subst. destruct (delta_row_ok guess f w n above row F []) as (r & E & K); [constructor|rewrite zlen_nil; destruct R1 as [L _]; lia|].
    rewrite E. destruct (IH R2 (r :: above)) as (r' & E' & L & K'); [constructor; assumption|]. exists r'. split; [exact E'|]. split; [|exact K']. rewrite !zlen_cons in *. lia.
Qed.

Lemma inv_rows_ok guess pal idx n z d c : channel_ok pal -> channel_ok idx -> 0 <= c < ch pal -> 0 <= d <= 24 ->
  exists r, inv_rows guess pal idx n z d c = Some r /\ zlen r = ch idx /\ Forall (row_ok (cw idx)) r.
Proof.
  intros (PL & PW & PR) (IL & IW & IR) Hc Hd. unfold inv_rows. cbv zeta.
  assert (F : forall i, exists v, get_palette_value (crows pal) i c (cw pal) d = Some v /\ is_i32 v) by (intros i; apply value_total; [lia|lia|exact PR|exact Hd]).
  destruct (Z.eqb_spec (cw idx) 0) as [E|N].
  - eexists. split; [reflexivity|]. destruct (c =? 0); [split; [exact IL|exact IR]|]. pose proof (zlen_nonneg (crows idx)). split; [unfold zlen; rewrite repeat_length; lia|].
    apply Forall_forall. intros x Hx. apply repeat_spec in Hx. subst x. split; [rewrite E; reflexivity|constructor].
  - destruct (_ && _).
    + rewrite <- IL. destruct (ch pal =? 1); apply map_rows_ok; try exact IR; [intros i; apply F|exact F].
    + destruct (delta_rows_ok guess _ (cw idx) n (crows idx) F IR []) as (r & E & L & K); [constructor|]. exists r. split; [exact E|]. split; [change (zlen (@nil (list Z))) with 0 in L; lia|exact K].
Qed.

Lemma zlen_firstn {A} (l : list A) i : 0 <= i <= zlen l -> zlen (firstn (Z.to_nat i) l) = i.
Proof. intros H. unfold zlen in *. rewrite firstn_length. lia. Qed.

Lemma tl_firstn_app {A} (a : A) l n r : tl (firstn (S n) (a :: l) ++ r) = firstn n l ++ r.
Proof. reflexivity. Qed.

Theorem inv_palette_total guess img b n z : image_ok img -> 0 <= b -> 0 <= depth img ->
  inv_palette guess img b n z <> Bad /\
  forall img', inv_palette guess img b n z = Ret img' -> image_ok img' /\ depth img' = depth img.
Proof.
  intros (F & M) Hb Hd. unfold inv_palette. destruct (Z.ltb_spec (nb_meta img) 1); [split; [discriminate|intros; discriminate]|].
  destruct (chans img) as [|pal l] eqn:EC; rewrite ?EC in F, M; [change (zlen (@nil channel)) with 0 in M; lia|]. rewrite znth_0. destruct (znth (pal :: l) (b + 1)) as [idx|] eqn:EI; [|split; [discriminate|intros; discriminate]].
  destruct (Z.ltb_spec (ch pal) 1); [split; [discriminate|intros; discriminate]|].
  rewrite Forall_forall in F. assert (P := F pal (or_introl eq_refl)).
  assert (BI := znth_some_inv _ _ _ EI).
  assert (Q : channel_ok idx) by (apply F; apply (nth_error_In _ (Z.to_nat (b + 1))); unfold znth in EI; destruct (Z.ltb_spec (b + 1) 0); [lia|exact EI]).
  destruct (omap_ok (inv_rows guess pal idx n z (Z.min (depth img) 24)) (fun _ r => zlen r = ch idx /\ Forall (row_ok (cw idx)) r) (zseq 0 (Z.to_nat (ch pal)))) as (rows & E & K).
  { intros c Hc. apply zseq_in in Hc. destruct (inv_rows_ok guess pal idx n z (Z.min (depth img) 24) c P Q ltac:(lia) ltac:(lia)) as (r & Er & Kr). exists r. split; assumption. }
  rewrite E. cbv zeta. replace (Z.to_nat (b + 1)) with (S (Z.to_nat b)) by lia. rewrite tl_firstn_app.
  set (new := map (Chan (cw idx) (ch idx) (chs idx) (cvs idx)) rows). set (out := firstn (Z.to_nat b) l ++ new ++ skipn (S (S (Z.to_nat b))) (pal :: l)).
  assert (FO : Forall channel_ok out).
  { apply Forall_forall. intros x Hx. unfold out in Hx. apply in_app_or in Hx. destruct Hx as [Hx|Hx].
    - apply F. right. rewrite <- (firstn_skipn (Z.to_nat b) l). apply in_or_app. left. exact Hx.
    - apply in_app_or in Hx. destruct Hx as [Hx|Hx].
      + unfold new in Hx. apply in_map_iff in Hx. destruct Hx as (r & <- & Hr). assert (G : Forall (fun r => zlen r = ch idx /\ Forall (row_ok (cw idx)) r) rows) by (apply (Forall2_right _ _ _ _ K); auto).
        rewrite Forall_forall in G. destruct (G r Hr) as (G1 & G2). split; [exact G1|]. cbn [cw ch crows]. destruct Q as (_ & QW & _). split; [exact QW|exact G2].
      + apply F. rewrite <- (firstn_skipn (S (S (Z.to_nat b))) (pal :: l)). apply in_or_app. right. exact Hx. }
  assert (LO : zlen out = zlen l + ch pal - 1).
  { unfold out, new. rewrite !zlen_app. rewrite zlen_cons in BI. rewrite zlen_firstn by lia.
    assert (LR := Forall2_len _ _ _ K). rewrite zseq_length in LR. unfold zlen in *. rewrite map_length, skipn_length, LR. cbn [length]. lia. }
  rewrite zlen_cons in M. pose proof (zlen_nonneg l).
  destruct (Z.leb_spec (nb_meta img) (b + 1)).
  - split; [discriminate|]. intros img' EQ. apply Ret_eq in EQ; subst img'. split; [|reflexivity]. split; [exact FO|]. cbn [chans nb_meta]. lia.
  - destruct (Z.leb_spec (2 - ch pal) (nb_meta img)); [|split; [discriminate|intros; discriminate]].
    destruct (Z.ltb_spec (b + ch pal - 1) (nb_meta img - (2 - ch pal))); [|split; [discriminate|intros; discriminate]].
    split; [discriminate|]. intros img' EQ. apply Ret_eq in EQ; subst img'. split; [|reflexivity]. split; [exact FO|]. cbn [chans nb_meta]. lia.
Qed.

(* ---- the encoder and back ---- *)
Lemma same_size_shape a b : same_size a b = true <-> shape b = shape a.
Proof.
  unfold same_size, shape. rewrite !andb_true_iff, !Z.eqb_eq. split; [intros (((-> & ->) & ->) & ->); reflexivity|intros E; injection E as E1 E2 E3 E4; repeat split; congruence].
Qed.

Lemma check_equal_spec img b e : 0 <= b -> check_equal_channels img b e = true ->
  b <= e < zlen (chans img) /\ exists c, znth (chans img) b = Some c /\
  exists rest, firstn (Z.to_nat (e - b + 1)) (skipn (Z.to_nat b) (chans img)) = c :: rest /\ Forall (fun d => shape d = shape c) (c :: rest).
Proof.
  intros Hb H. unfold check_equal_channels in H. destruct (_ || _) eqn:E1 in H; [discriminate|]. destruct (_ && _) in H; [discriminate|].
  destruct (znth (chans img) b) as [c|] eqn:Ec; [|discriminate]. split; [lia|]. exists c. split; [reflexivity|].
  replace (Z.to_nat (e - b + 1)) with (S (Z.to_nat (e - b))) by lia. replace (Z.to_nat (b + 1)) with (S (Z.to_nat b)) in H by lia.
  unfold znth in Ec. destruct (Z.ltb_spec b 0); [lia|].
  assert (SK : skipn (Z.to_nat b) (chans img) = c :: skipn (S (Z.to_nat b)) (chans img)).
  { clear -Ec. revert Ec. generalize (Z.to_nat b) (chans img). induction n as [|n IH]; intros [|a l] E; try discriminate; [injection E as ->; reflexivity|]. cbn [skipn]. rewrite IH by exact E. reflexivity. }
  rewrite SK. cbn [firstn]. eexists. split; [reflexivity|]. constructor; [reflexivity|]. rewrite forallb_forall in H. apply Forall_forall. intros d Hd. apply same_size_shape, H, Hd.
Qed.

Lemma omap_zseq {B} (f : Z -> option B) (e : B) : forall (r : list B) z, (forall i, (i < length r)%nat -> f (z + Z.of_nat i) = Some (nth i r e)) -> omap f (zseq z (length r)) = Some r.
Proof.
  induction r as [|a r IH]; intros z H; [reflexivity|]. cbn [length zseq omap]. assert (H0 := H O ltac:(cbn [length]; lia)). replace (z + Z.of_nat 0) with z in H0 by lia. rewrite H0. cbn [nth].
  rewrite IH; [reflexivity|]. intros i Hi. replace (z + 1 + Z.of_nat i) with (z + Z.of_nat (S i)) by lia. apply (H (S i)). cbn [length]. lia.
Qed.

(* InvPalette undoes put_palette as soon as the rows are the right ones *)
Lemma inv_put guess img b e pal idx B : 0 <= b -> b <= e < zlen (chans img) -> nb_meta img <= b -> 0 <= nb_meta img ->
  firstn (Z.to_nat (e - b + 1)) (skipn (Z.to_nat b) (chans img)) = B -> ch pal = e - b + 1 -> Forall (fun d => shape d = shape idx) B ->
  (forall i, (i < length B)%nat -> inv_rows guess pal idx 0 true (Z.min (depth img) 24) (Z.of_nat i) = Some (crows (nth i B (Chan 0 0 0 0 [])))) ->
  inv_palette guess (Img (put_palette pal idx b e (chans img)) (nb_meta img + 1) (depth img)) b 0 true = Ret img.
Proof.
  intros Hb He Hm H0 EB EP ES HR. unfold inv_palette, put_palette. cbn [chans nb_meta depth]. replace (nb_meta img + 1 <? 1) with false by lia. rewrite znth_0.
  assert (LA : length (firstn (Z.to_nat b) (chans img)) = Z.to_nat b) by (rewrite firstn_length; unfold zlen in He; lia).
  assert (LB : length B = Z.to_nat (e - b + 1)) by (rewrite <- EB, firstn_length, skipn_length; unfold zlen in He; lia).
  set (A := firstn (Z.to_nat b) (chans img)) in *. set (C := skipn (Z.to_nat (e + 1)) (chans img)).
  assert (EI : znth (pal :: A ++ idx :: C) (b + 1) = Some idx).
  { rewrite znth_succ by lia. replace (b + 1 - 1) with b by lia. unfold znth. destruct (Z.ltb_spec b 0); [lia|]. rewrite nth_error_app2 by lia. rewrite LA, Nat.sub_diag. reflexivity. }
  rewrite EI. replace (ch pal <? 1) with false by lia.
  assert (EO : omap (inv_rows guess pal idx 0 true (Z.min (depth img) 24)) (zseq 0 (Z.to_nat (ch pal))) = Some (map crows B)).
  { rewrite EP, <- LB, <- (map_length crows B). apply (omap_zseq _ []). intros i Hi. rewrite map_length in Hi. rewrite Z.add_0_l, HR by exact Hi. f_equal.
    change [] with (crows (Chan 0 0 0 0 [])). rewrite map_nth. reflexivity. }
  rewrite EO. cbv zeta. replace (Z.to_nat (b + 1)) with (S (Z.to_nat b)) by lia. rewrite tl_firstn_app. replace (nb_meta img + 1 <=? b + 1) with true by lia.
  assert (EB2 : map (Chan (cw idx) (ch idx) (chs idx) (cvs idx)) (map crows B) = B).
  { clear -ES. induction B as [|x B IH]; [reflexivity|]. inversion ES as [|? ? E1 E2]; subst. cbn [map]. rewrite IH by exact E2. f_equal. destruct x as [w h hs vs r]. unfold shape in E1. cbn [cw ch chs cvs] in E1. injection E1 as -> -> -> ->. reflexivity. }
  rewrite EB2. change (skipn (S (S (Z.to_nat b))) (pal :: A ++ idx :: C)) with (skipn (S (Z.to_nat b)) (A ++ idx :: C)).
  assert (E1 : firstn (Z.to_nat b) (A ++ idx :: C) = A) by (rewrite <- LA, firstn_app, Nat.sub_diag, firstn_all; cbn [firstn]; apply app_nil_r).
  assert (E2 : skipn (S (Z.to_nat b)) (A ++ idx :: C) = C) by (rewrite skipn_app, LA, skipn_all2 by lia; replace (S (Z.to_nat b) - Z.to_nat b)%nat with 1%nat by lia; reflexivity).
  rewrite E1, E2. assert (E3 : A ++ B ++ C = chans img).
  { unfold A, C. rewrite <- EB. rewrite <- (firstn_skipn (Z.to_nat b) (chans img)) at 4. f_equal. rewrite <- (firstn_skipn (Z.to_nat (e - b + 1)) (skipn (Z.to_nat b) (chans img))) at 2. f_equal.
    rewrite skipn_skipn. f_equal. lia. }
  rewrite E3. replace (nb_meta img + 1 - 1) with (nb_meta img) by lia. destruct img; reflexivity.
Qed.

Lemma empty_rows rows n : zlen rows = Z.of_nat n -> Forall (fun row : list Z => zlen row = 0 /\ Forall is_i32 row) rows -> rows = repeat [] n.
Proof.
  revert n. induction rows as [|r rows IH]; intros n L F.
  - change (zlen []) with 0 in L. replace n with O by lia. reflexivity.
  - rewrite zlen_cons in L. pose proof (zlen_nonneg rows). destruct n as [|n]; [lia|]. inversion F as [|? ? (F1 & _) F2]; subst. cbn [repeat]. rewrite (IH n) by (try assumption; lia).
    destruct r as [|x r]; [reflexivity|]. rewrite zlen_cons in F1. pose proof (zlen_nonneg r). lia.
Qed.

Lemma znth_map {A B} (f : A -> B) l i v : znth l i = Some v -> znth (map f l) i = Some (f v).
Proof. unfold znth. destruct (i <? 0); [discriminate|]. intros E. apply map_nth_error. exact E. Qed.

Theorem palette_lossless guess sort img b e n img' n' : (forall l, Permutation (sort l) l) -> image_ok img -> 0 <= b -> n < 2 ^ 31 -> depth img <= 24 ->
  fwd_palette sort img b e n = Ret (img', n') -> inv_palette guess img' b 0 true = Ret img.
Proof.
  intros PS (OK & M) Hb Hn Hd H. unfold fwd_palette in H. destruct (check_equal_channels img b e) eqn:EC; cbn [negb] in H; [|discriminate].
  destruct (Z.ltb_spec b (nb_meta img)); [discriminate|]. apply check_equal_spec in EC; [|exact Hb]. destruct EC as (He & c & Ec & rest & EB & SH). rewrite Ec in H.
  destruct (32 <=? depth img) eqn:E32; [lia|]. destruct (Z.ltb_spec n 2); [discriminate|].
  assert (OKB : Forall channel_ok (c :: rest)).
  { rewrite <- EB. apply Forall_forall. intros x Hx. rewrite Forall_forall in OK. apply OK. rewrite <- (firstn_skipn (Z.to_nat b) (chans img)). apply in_or_app. right.
    rewrite <- (firstn_skipn (Z.to_nat (e - b + 1)) (skipn _ _)). apply in_or_app. left. exact Hx. }
  assert (LB : length (c :: rest) = Z.to_nat (e - b + 1)) by (rewrite <- EB, firstn_length, skipn_length; unfold zlen in He; lia).
  destruct (Z.eqb_spec (e - b + 1) 1) as [E1|N1].
  - rewrite E1 in LB. destruct rest; [|cbn [length] in LB; lia]. inversion OKB as [|? ? (CL & CW & CR) _]; subst.
    destruct (channel_palette n (crows c)) as [[pal idx]| |] eqn:ECP; try discriminate. injection H as <- <-.
    destruct (channel_palette_ok n (crows c)) as (_ & K); [lia| |].
    { apply Forall_forall. intros v Hv. apply in_concat in Hv. destruct Hv as (row & Hr & Hv). rewrite Forall_forall in CR. destruct (CR row Hr) as (_ & R). rewrite Forall_forall in R. apply R, Hv. }
    destruct (K pal idx ECP) as (LP & f & EF & BK).
    apply (inv_put guess img b e _ _ [c]); try assumption; try lia.
    + cbn [ch]. lia.
    + intros i Hi. cbn [length] in Hi. replace i with O by lia. cbn [nth Z.of_nat]. unfold inv_rows. cbn [cw ch crows]. cbv zeta.
      destruct (Z.eqb_spec (cw c) 0) as [W0|W0].
      * rewrite W0 in CR. assert (CE := empty_rows (crows c) (Z.to_nat (ch c)) ltac:(pose proof (zlen_nonneg (crows c)); lia) CR). cbn [Z.eqb]. f_equal. rewrite CE in EF |- *.
        clear -EF. revert idx EF. induction (Z.to_nat (ch c)) as [|k IH]; intros idx EF; cbn [repeat omap] in EF; [injection EF as <-; reflexivity|].
        destruct (omap (omap f) (repeat [] k)) as [r|] eqn:E; [|discriminate]. injection EF as <-. cbn [repeat]. f_equal. apply IH. reflexivity.
      * cbn [Z.eqb andb Pos.eqb]. apply (omap_back2 f); [exact EF|]. intros v i0 Hv Ef. assert (G := BK v i0 Hv Ef). assert (Bi := znth_some_inv _ _ _ G).
        rewrite s32_id by (unfold is_i32; lia). unfold clamp1. replace (i0 <? 0) with false by lia. replace (zlen pal - 1 <? i0) with false by lia.
        rewrite value_explicit by lia. unfold palette_at. rewrite znth_0. exact G.
  - rewrite EB in H.
    assert (FB : Forall (fun d => channel_ok d /\ cw d = cw c /\ ch d = ch c) (c :: rest)).
    { apply Forall_forall. intros x Hx. rewrite Forall_forall in OKB, SH. split; [apply OKB, Hx|]. assert (S1 := SH x Hx). unfold shape in S1. injection S1 as S1 S2 S3 S4. split; assumption. }
    destruct (color_rows (c :: rest) (cw c) (ch c)) as [px|] eqn:EP; [|discriminate].
    destruct (colors_palette sort n (e - b + 1) (depth img) px) as [[pal idx]| |] eqn:ECP; try discriminate. injection H as <- <-.
    apply colors_palette_ok in ECP; [|exact PS|lia]. destruct ECP as (implicit & f & EI & EX & LP & _ & K).
    apply (inv_put guess img b e _ _ (c :: rest)); try assumption; try lia; [reflexivity|].
    intros i Hi. rewrite <- (color_rows_channel _ _ _ _ i EP FB Hi). unfold inv_rows. cbn [cw ch crows]. cbv zeta. rewrite EX.
    destruct (Z.eqb_spec (cw c) 0) as [W0|W0].
    + f_equal. assert (EPX : px = repeat [] (Z.to_nat (ch c))).
      { clear -EP W0. unfold color_rows in EP. rewrite W0 in EP. change (zseq 0 (Z.to_nat 0)) with (@nil Z) in EP. cbn [omap] in EP. revert px EP. generalize 0. induction (Z.to_nat (ch c)) as [|k IH]; intros z px EP; cbn [zseq omap] in EP; [injection EP as <-; reflexivity|].
        destruct (omap _ (zseq (z + 1) k)) as [r|] eqn:E; [|discriminate]. injection EP as <-. cbn [repeat]. f_equal. apply (IH _ _ E). }
      rewrite EPX. destruct (Z.of_nat i =? 0); [|]; clear; induction (Z.to_nat (ch c)) as [|k IH]; cbn [repeat map]; try reflexivity; f_equal; exact IH.
    + replace (0 =? 0) with true by reflexivity. cbn [andb]. destruct (Z.eqb_spec (e - b + 1) 1) as [?|_]; [lia|].
      assert (G : forall col, In col (concat px) -> get_palette_value (map (fun j => map (fun color => nth j color 0) pal) (seq 0 (Z.to_nat (e - b + 1)))) (f col) (Z.of_nat i) (zlen pal) (Z.min (depth img) 24) = Some (nth i col 0)).
      { intros col Hcol. rewrite LB in Hi. destruct (K col Hcol) as [(B1 & Z1)|(B1 & Z1)].
        - rewrite value_explicit by exact B1. unfold palette_at.
          assert (ZS : znth (seq 0 (Z.to_nat (e - b + 1))) (Z.of_nat i) = Some i) by (rewrite (znth_some _ _ O) by (unfold zlen; rewrite seq_length; lia); rewrite Nat2Z.id, seq_nth by lia; reflexivity).
          rewrite (znth_map _ _ _ _ ZS). apply (znth_map (fun color => nth i color 0)). exact Z1.
        - replace (f col) with (zlen pal + (f col - zlen pal)) by lia. rewrite value_implicit by (try lia; apply zlen_nonneg). replace (Z.min (depth img) 24) with (depth img) by lia.
          assert (Bk := znth_some_inv _ _ _ Z1). unfold implicit_colors in EI. apply omap_inv in EI.
          assert (LI := Forall2_len _ _ _ EI). rewrite zseq_length in LI. assert (LI2 : zlen implicit = 189) by (unfold zlen; rewrite LI; reflexivity). rewrite LI2 in Bk.
          assert (G1 := Forall2_nth _ _ _ 0 [] (Z.to_nat (f col - zlen pal)) EI ltac:(rewrite zseq_length; lia)).
          rewrite <- LI2 in Bk. rewrite (znth_some _ _ [] Bk) in Z1. rewrite LI2 in Bk. injection Z1 as Z1. rewrite Z1 in G1.
          assert (ZQ : nth (Z.to_nat (f col - zlen pal)) (zseq 0 189) 0 = f col - zlen pal).
          { assert (Q := znth_list0 0 (zseq 0 189) 189 ltac:(unfold zlen; rewrite zseq_length; reflexivity)).
            assert (NQ : forall k z j, (j < k)%nat -> nth j (zseq z k) 0 = z + Z.of_nat j).
            { clear. induction k as [|k IH]; intros z j Hj; [lia|]. destruct j; cbn [zseq nth]; [lia|]. rewrite IH by lia. lia. }
            rewrite NQ; [lia|]. lia. }
          rewrite ZQ in G1. unfold implicit_color in G1. apply omap_inv in G1.
          assert (G2 := Forall2_nth _ _ _ 0 0 i G1 ltac:(rewrite zseq_length; exact Hi)).
          assert (NQ : forall k z j, (j < k)%nat -> nth j (zseq z k) 0 = z + Z.of_nat j).
          { clear. induction k as [|k IH]; intros z j Hj; [lia|]. destruct j; cbn [zseq nth]; [lia|]. rewrite IH by lia. lia. }
          rewrite NQ in G2 by exact Hi. exact G2. }
      clear -G. apply omap_intro. induction px as [|row px IH]; cbn [map]; [constructor|]. constructor.
      * apply omap_intro. assert (G' : forall col, In col row -> get_palette_value (map (fun j => map (fun color => nth j color 0) pal) (seq 0 (Z.to_nat (e - b + 1)))) (f col) (Z.of_nat i) (zlen pal) (Z.min (depth img) 24) = Some (nth i col 0)) by (intros col Hc; apply G; cbn [concat]; apply in_or_app; left; exact Hc).
        clear -G'. induction row as [|col row IH]; cbn [map]; constructor; [apply G'; left; reflexivity|]. apply IH. intros. apply G'. right. assumption.
      * apply IH. intros col Hc. apply G. cbn [concat]. apply in_or_app. right. exact Hc.
Qed.

(* the decoder, which knows the shape of the image only, expects the channels the encoder has made *)
Theorem palette_shape sort img b e n img' n' : 0 <= b -> fwd_palette sort img b e n = Ret (img', n') ->
  exists m, meta_palette img b e n' 0 = Ret m /\ image_shape m = image_shape img'.
Proof.
  intros Hb H. unfold fwd_palette in H. destruct (check_equal_channels img b e) eqn:EC; cbn [negb] in H; [|discriminate].
  destruct (Z.ltb_spec b (nb_meta img)); [discriminate|]. unfold meta_palette. rewrite EC. destruct (znth (chans img) b) as [c|] eqn:Ec; [|discriminate].
  destruct (32 <=? depth img); [discriminate|]. destruct (n <? 2); [discriminate|]. cbv zeta in H |- *. replace (nb_meta img <=? b) with true by lia. eexists. split; [reflexivity|].
  destruct (Z.eqb_spec (e - b + 1) 1) as [E1|N1].
  - destruct (channel_palette n (crows c)) as [[pal idx]| |]; try discriminate. injection H as <- <-. rewrite E1.
    unfold image_shape, put_palette. cbn [chans nb_meta depth map]. rewrite !map_app. cbn [map]. unfold shape at 1 3 4 6. cbn [cw ch chs cvs]. rewrite Z.add_0_r. reflexivity.
  - destruct (color_rows _ _ _); [|discriminate]. destruct (colors_palette _ _ _ _ _) as [[pal idx]| |]; try discriminate. injection H as <- <-.
    unfold image_shape, put_palette. cbn [chans nb_meta depth map]. rewrite !map_app. cbn [map]. unfold shape at 1 3 4 6. cbn [cw ch chs cvs]. rewrite Z.add_0_r. reflexivity.
Qed.

(* ---- the encoder accepts or refuses ---- *)
Lemma implicit_total d nb : 0 <= d <= 31 -> exists l, implicit_colors nb d = Some l.
Proof.
  intros Hd. unfold implicit_colors. destruct (omap_ok (implicit_color nb d) (fun _ _ => True) (zseq 0 189)) as (l & E & _); [|eauto].
  intros k Hk. apply zseq_in in Hk. unfold implicit_color. destruct (omap_ok (fun i => get_palette_value [] k i 0 d) (fun _ _ => True) (zseq 0 (Z.to_nat nb))) as (r & E & _); [|eauto].
  intros c Hc. apply zseq_in in Hc. unfold get_palette_value. replace (k <? 0) with false by lia. destruct (_ && _) eqn:E1.
  - destruct (3 <=? c); [eauto|]. cbv zeta. set (j := _ mod 4). assert (Hj : 0 <= j < 4) by (apply Z.mod_pos_bound; lia).
    assert (P : 1 <= 2 ^ d <= 2 ^ 31) by (split; [apply (Z.pow_le_mono_r 2 0); lia|apply Z.pow_le_mono_r; lia]).
    assert (P2 : 1 <= 2 ^ Z.max 0 (d - 3) <= 2 ^ 28) by (split; [apply (Z.pow_le_mono_r 2 0); lia|apply Z.pow_le_mono_r; lia]).
    assert (SR : 0 <= scale j d <= 3 * 2 ^ 29).
    { unfold scale. assert (E : w64 (2 ^ d - 1) = 2 ^ d - 1) by (unfold w64; apply Z.mod_small; lia). rewrite E.
      assert (E2 : w64 (j * (2 ^ d - 1)) = j * (2 ^ d - 1)) by (unfold w64; apply Z.mod_small; nia). rewrite E2.
      rewrite Z.shiftr_div_pow2 by lia. change (2 ^ 2) with 4.
      assert (B : 0 <= j * (2 ^ d - 1) / 4 < 3 * 2 ^ 29) by (split; [apply Z.div_pos; nia|apply Z.div_lt_upper_bound; nia]).
      rewrite s32_id; [lia|]. unfold is_i32. lia. }
    rewrite i32_some by (unfold is_i32; lia). eauto.
  - replace (0 + 64 <=? k) with true by lia. destruct (3 <=? c); eauto.
Qed.

Theorem fwd_palette_total sort img b e n : image_ok img -> 0 <= b -> 0 <= depth img -> fwd_palette sort img b e n <> Bad.
Proof.
  intros (OK & M) Hb Hd. unfold fwd_palette. destruct (check_equal_channels img b e) eqn:EC; cbn [negb]; [|discriminate].
  destruct (b <? nb_meta img); [discriminate|]. apply check_equal_spec in EC; [|exact Hb]. destruct EC as (He & c & Ec & rest & EB & SH). rewrite Ec.
  destruct (Z.leb_spec 32 (depth img)); [discriminate|]. destruct (Z.ltb_spec n 2); [discriminate|].
  assert (OKB : Forall channel_ok (c :: rest)).
  { rewrite <- EB. apply Forall_forall. intros x Hx. rewrite Forall_forall in OK. apply OK. rewrite <- (firstn_skipn (Z.to_nat b) (chans img)). apply in_or_app. right.
    rewrite <- (firstn_skipn (Z.to_nat (e - b + 1)) (skipn _ _)). apply in_or_app. left. exact Hx. }
  destruct (e - b + 1 =? 1).
  - inversion OKB as [|? ? (CL & CW & CR) _]; subst. destruct (channel_palette_ok n (crows c)) as (K & _); [lia| |].
    { apply Forall_forall. intros v Hv. apply in_concat in Hv. destruct Hv as (row & Hr & Hv). rewrite Forall_forall in CR. destruct (CR row Hr) as (_ & R). rewrite Forall_forall in R. apply R, Hv. }
    destruct (channel_palette n (crows c)) as [[pal idx]| |]; [discriminate|discriminate|contradiction].
  - rewrite EB. inversion OKB as [|? ? (CL & CW & CR) _]; subst.
    assert (FB : Forall (fun d => channel_ok d /\ cw d = cw c /\ ch d = ch c) (c :: rest)).
    { apply Forall_forall. intros x Hx. rewrite Forall_forall in OKB, SH. split; [apply OKB, Hx|]. assert (S1 := SH x Hx). unfold shape in S1. injection S1 as S1 S2 S3 S4. split; assumption. }
    destruct (color_rows_total (c :: rest) (cw c) (ch c)) as (px & EP); [lia|pose proof (zlen_nonneg (crows c)); lia|exact FB|]. rewrite EP.
    unfold colors_palette. destruct (implicit_total (depth img) (e - b + 1)) as (l & EI); [lia|]. rewrite EI.
    destruct (scan _ _ _ _ _ _) as [[order used]|]; [|discriminate]. destruct (_ =? 1); discriminate.
Qed.
