(** * What the encoder's calls do with an output processor. *)
From Coq Require Import ZArith List Bool Lia Sorted.
From Verif Require Import Base ListAux OMap OutModel OutSpec OutInv OutRuns OutTop XOutModel XOutSpec XOutInv XOutStep XOutPiece XOutPlan.
Import ListNotations.
Local Open Scope Z_scope.
Ltac Zify.zify_post_hook ::= idtac.

Definition Good P F f p (r : xres xst) : Prop :=
  (exists s a, r = XOk s /\ XInv P F f s a /\ x_position s = p) \/ Halted P (trace_of x_trace r).

(** Flushing to a processor that cannot seek. *)
Lemma xflush_ok P F (Sk : can_seek P = false) : forall fuel s a, (Z.to_nat (x_finalized s - x_outpos s) < fuel)%nat ->
  XC P s a -> 0 <= x_outpos s <= x_finalized s -> x_finalized s <= x_position s -> p_finalized a = x_outpos s ->
  (forall x, p_file a x = if x <? x_outpos s then F x else None) ->
  (forall x, 0 <= x < x_finalized s -> F x <> None) ->
  (forall k b, In (k, b) (x_bufs s) -> x_outpos s < k + written b /\ written b <= zlen (owned b)
    /\ forall p, k <= p < k + written b -> F p = znth (owned b) (p - k)) ->
  (forall x, x_outpos s <= x -> F x <> None -> covered x (x_bufs s)) ->
  (exists s' a', xflush_loop P fuel s = XOk s' /\ XN P F (x_finalized s) s' a' /\ x_position s' = x_position s)
  \/ Halted P (trace_of x_trace (xflush_loop P fuel s)).
Proof.
  induction fuel as [|fuel IH]; intros s a Hf C Ho Hp Pf Fl Full Bufs Cov; [lia|]. cbn [xflush_loop].
  destruct (Z.ltb_spec (x_outpos s) (x_finalized s)) as [L|L].
  2: { left. exists s, a. split; [reflexivity|]. split; [|reflexivity]. constructor; try assumption; [repeat split; lia|]. intros x Hx. apply Full. lia. }
  destruct (Cov (x_outpos s) ltac:(lia) (Full (x_outpos s) ltac:(lia))) as (k0 & b0 & Hin0 & R0).
  destruct (x_bufs s) as [|[k b] rest] eqn:Eb; [contradiction|].
  assert (Hs := c_sorted _ _ _ C). rewrite Eb in Hs. apply StronglySorted_inv in Hs. destruct Hs as [Hs1 Hs2]. rewrite Forall_forall in Hs2.
  assert (Wr : forall k' b', In (k', b') ((k, b) :: rest) -> 0 < written b') by (intros k' b' Hi; apply (c_written _ _ _ C k' b'); rewrite Eb; exact Hi).
  assert (Kle : k <= x_outpos s).
  { destruct Hin0 as [Hin0|Hin0]; [inversion Hin0; subst; lia|]. specialize (Hs2 _ Hin0). unfold before in Hs2. cbn in Hs2.
    pose proof (Wr k b (or_introl eq_refl)). lia. }
  destruct (Bufs k b (or_introl eq_refl)) as (B1 & B2 & B3). pose proof (Wr k b (or_introl eq_refl)) as Wb.
  unfold xensure at 1 2. destruct (Z.leb_spec k (x_outpos s)); [|lia]. cbn [xbind]. destruct (Z.eqb_spec (written b) 0); [lia|]. cbn [negb xbind].
  destruct (owned b) as [|o os] eqn:Eo; [rewrite zlen_nil in B2; lia|]. rewrite <- Eo in *.
  unfold xensure. destruct (Z.ltb_spec (x_outpos s) (k + written b)); [|lia]. cbn [xbind].
  set (num := Z.min (k + written b) (x_finalized s) - x_outpos s).
  destruct (external_ok P s a (skipn (Z.to_nat (x_outpos s - k)) (owned b)) num (c_obeys _ _ _ C) (c_active _ _ _ C) (c_pos _ _ _ C)) as [(g & m & M & E & O')|(s' & E & H')].
  - lia.
  - rewrite zlen_skipn by lia. unfold num. lia.
  - rewrite E. cbn [xbind]. rewrite Sk. set (dm := firstn (Z.to_nat m) (skipn (Z.to_nat (x_outpos s - k)) (owned b))) in *.
    assert (Ld : zlen dm = m) by (unfold dm; rewrite zlen_firstn, zlen_skipn by lia; unfold num in M; lia).
    set (s1 := set_xout _ _).
    set (s2 := if k + written b =? x_outpos s1 then set_xbufs s1 rest else s1).
    set (s3 := emit s2 (XFinal (x_outpos s2))).
    assert (T2 : x_trace s2 = x_trace s1 /\ x_outpos s2 = x_outpos s + m /\ x_finalized s2 = x_finalized s /\ x_position s2 = x_position s /\ x_stop s2 = x_stop s /\ x_has s2 = x_has s)
      by (unfold s2, s1; destruct (_ =? _); flds; repeat split).
    destruct T2 as (T2 & O2 & F2 & P2 & S2 & H2).
    assert (Bin : forall x, In x (x_bufs s2) -> In x ((k, b) :: rest) /\ x_outpos s + m < fst x + written (snd x)).
    { intros [k' b'] Hi. cbn [fst snd]. assert (Hrest : In (k', b') rest -> x_outpos s + m < k' + written b').
      { intros Hr. specialize (Hs2 _ Hr). unfold before in Hs2. cbn in Hs2. pose proof (c_written _ _ _ C k' b' ltac:(rewrite Eb; right; exact Hr)). unfold num in M. lia. }
      unfold s2 in Hi. destruct (Z.eqb_spec (k + written b) (x_outpos s1)) as [El|El]; unfold s1 in *; flds.
      - split; [right; exact Hi|apply Hrest; exact Hi].
      - rewrite Eb in Hi. split; [exact Hi|]. destruct Hi as [Hi|Hi]; [injection Hi as <- <-; unfold num in M; lia|apply Hrest; exact Hi]. }
    assert (FillF : forall x, fill (p_file a) (x_outpos s) dm x = if x <? x_outpos s + m then F x else None).
    { intros x. destruct (Z_lt_dec x (x_outpos s)) as [Lx|Lx].
      - rewrite fill_out by lia. rewrite Fl. destruct (Z.ltb_spec x (x_outpos s)); [|lia]. destruct (Z.ltb_spec x (x_outpos s + m)); [reflexivity|lia].
      - destruct (Z.ltb_spec x (x_outpos s + m)) as [Ly|Ly].
        + rewrite fill_in by lia. unfold dm. rewrite znth_firstn by lia. rewrite znth_skipn by lia. rewrite B3 by (unfold num in M; lia). f_equal. lia.
        + rewrite fill_out by lia. rewrite Fl. destruct (Z.ltb_spec x (x_outpos s)); [lia|reflexivity]. }
    set (a3 := Pst (x_outpos s + m) (x_outpos s + m) None (fill (p_file a) (x_outpos s) dm)).
    destruct (IH s3 a3) as [(s' & a' & R & X & Px)|R]; unfold s3; flds; unfold a3; cbn [p_finalized p_file]; rewrite ?O2, ?F2, ?P2; try lia.
    + constructor; flds; cbn [p_active p_position]; try reflexivity.
      * rewrite T2. eapply obeys_app; [exact O'|]. rewrite ?O2. apply ob_final; [lia| |apply ob_nil].
        intros x Hx. rewrite FillF. destruct (Z.ltb_spec x (x_outpos s + m)); [|lia]. apply Full. unfold num in M. lia.
      * rewrite ?O2. reflexivity.
      * rewrite S2. apply (c_stop _ _ _ C).
      * rewrite H2. apply (c_has _ _ _ C).
      * unfold s2. destruct (_ =? _); [exact Hs1|]. unfold s1. flds. apply (c_sorted _ _ _ C).
      * intros k' b' Hi. destruct (Bin _ Hi) as [Hi' _]. apply (c_written _ _ _ C k' b'). rewrite Eb. exact Hi'.
    + exact FillF.
    + exact Full.
    + intros k' b' Hi. destruct (Bin _ Hi) as [Hi' Lt]. cbn in Lt. destruct (Bufs k' b' Hi') as (Q1 & Q2 & Q3). auto.
    + intros x Hx Hn. destruct (Cov x ltac:(lia) Hn) as (k' & b' & Hi & R). unfold s2.
      destruct (Z.eqb_spec (k + written b) (x_outpos s1)) as [El|El]; unfold s1 in *; flds.
      * destruct Hi as [Hi|Hi]; [injection Hi as <- <-; lia|]. exists k', b'. split; assumption.
      * exists k', b'. rewrite Eb. split; assumption.
    + left. exists s', a'. unfold s3 in R, X, Px. cbn [x_finalized x_position emit] in X, Px. rewrite O2 in R. rewrite F2 in X. split; [exact R|]. split; [exact X|]. rewrite Px. exact P2.
    + right. unfold s3 in R. rewrite O2 in R. exact R.
  - rewrite E. cbn [xbind]. right. exact H'.
Qed.

Lemma good_ext P F F' f p r : (forall x, F x = F' x) -> Good P F f p r -> Good P F' f p r.
Proof. intros E [(s & a & R & I & Q)|H]; [left; exists s, a; split; [exact R|]; split; [apply (xinv_ext P F); assumption|exact Q]|right; exact H]. Qed.

Lemma loop_good P min_size pick f : 1 <= min_size ->
  (forall left size, 0 < left -> min_size <= size -> 1 <= pick left size <= Z.min left size) ->
  forall fuel data F s a, (length data < fuel)%nat -> XInv P F f s a ->
  (data <> [] -> empty F (x_position s) (x_position s + zlen data + (min_size - 1))) ->
  Good P (fill F (x_position s) data) f (x_position s + zlen data) (xappend_loop P fuel s min_size pick data).
Proof.
  intros Hm Hp. induction fuel as [|fuel IH]; intros data F s a Hf I E; [lia|]. destruct data as [|x data].
  - left. exists s, a. split; [reflexivity|]. split; [apply (xinv_ext P F); [intros y; symmetry; apply fill_nil|exact I]|]. rewrite zlen_nil. lia.
  - cbn [xappend_loop]. set (D := x :: data) in *. assert (Dn : D <> []) by discriminate. pose proof (zlen_pos D Dn) as Dp.
    destruct (piece_ok P F f s a min_size (zlen D) (pick (zlen D)) D I Dn) as [(n & s1 & a1 & N & W & I1 & P1)|H]; try lia.
    + intros y Hy. apply (E Dn). lia.
    + intros size Hs. apply Hp; lia.
    + rewrite W. cbn [xbind]. assert (L1 : zlen (firstn (Z.to_nat n) D) = n) by (rewrite zlen_firstn by lia; lia).
      replace (x_position s + zlen D) with (x_position s1 + zlen (skipn (Z.to_nat n) D)) by (rewrite zlen_skipn by lia; lia).
      apply (good_ext P (fill (fill F (x_position s) (firstn (Z.to_nat n) D)) (x_position s1) (skipn (Z.to_nat n) D))).
      { intros y. rewrite P1. rewrite <- L1 at 2. rewrite fill_app, firstn_skipn. reflexivity. }
      apply (IH _ _ s1 a1); [rewrite skipn_length; unfold zlen in N; lia|exact I1|].
      intros _ y Hy. rewrite P1, zlen_skipn in Hy by lia. rewrite fill_out by lia. apply (E Dn). lia.
    + right. apply (halted_bind P tr2); [|exact H]. intros [s' rest]. apply ext_loop.
Qed.

Lemma xexec_all_app P s os1 os2 : xexec_all P s (os1 ++ os2) = (let? s' := xexec_all P s os1 in xexec_all P s' os2).
Proof.
  revert s. induction os1 as [|o t IH]; intros s; [reflexivity|]. cbn [app xexec_all].
  destruct (xexec P s o); cbn [xbind]; [apply IH|reflexivity].
Qed.

Lemma one P s o : xexec_all P s [o] = xexec P s o.
Proof. cbn [xexec_all]. destruct (xexec P s o); reflexivity. Qed.

Lemma plan_good P F p f os F' p' f' : Plan F p f os F' p' f' ->
  forall s a, XInv P F f s a -> x_position s = p -> Good P F' f' p' (xexec_all P s os).
Proof.
  intros H. induction H as [F p f|F p f p' H1 H2|F p f|F p f H1|F p f d H1|F p f pick d H1 H2|F p f d H1 H2|F p f os1 F1 p1 f1 os2 F2 p2 f2 Q1 IH1 Q2 IH2|F p f os F1 F2 p' f' H1 Q IH];
    intros s a I Ep; rewrite ?one; cbn [xexec].
  - left. exists s, a. split; [reflexivity|]. split; assumption.
  - unfold XInv in I. unfold xseek, xensure. destruct (can_seek P) eqn:Sk.
    + destruct I as [C Out (Fi1 & Fi2 & Fi3) Fl Cov]. destruct C. rewrite c_has. cbn [negb xbind]. flds.
      destruct (Z.leb_spec (x_finalized s) p'); [|lia]. cbn [xbind]. left. destruct a as [ap af aa aF]. cbn in *. subst aa.
      eexists _, (Pst p' af None aF). split; [reflexivity|]. flds. split; [|reflexivity]. unfold XInv. rewrite Sk.
      constructor; flds; cbn [p_finalized p_file]; try assumption; try reflexivity; try lia.
      constructor; flds; cbn [p_active p_position]; try assumption; try reflexivity.
      rewrite Sk in *. eapply obeys_app; [exact c_obeys|]. apply ob_seek; [reflexivity|lia|apply ob_nil].
    + destruct I as [C (Fi1 & Fi2 & Fi3 & Fi4) Fl Full Bufs Cov]. destruct C. rewrite c_has. cbn [negb xbind].
      assert (Hle : x_outpos s <= p') by (destruct (Z_le_dec (x_outpos s) p') as [|N]; [assumption|]; exfalso; apply (Full p'); [lia|exact H2]).
      destruct (Z.leb_spec (x_finalized s) p'); [|lia]. cbn [xbind]. left. eexists _, a. split; [reflexivity|]. flds. split; [|reflexivity].
      unfold XInv. rewrite Sk. constructor; flds; try assumption; [|repeat split; lia].
      constructor; flds; assumption.
  - unfold xensure. rewrite Ep, Z.eqb_refl. cbn [xbind]. left. exists s, a. split; [reflexivity|]. split; assumption.
  - unfold XInv in I. unfold xset_finalized, xflush_output. unfold xensure at 1 2. destruct (can_seek P) eqn:Sk.
    + destruct I as [C Out (Fi1 & Fi2 & Fi3) Fl Cov]. destruct C. rewrite c_has. cbn [negb xbind]. flds. rewrite c_has. cbn [negb xbind].
      cbn [xflush_loop]. flds. rewrite Out, Z.ltb_irrefl. left. destruct a as [ap af aa aF]. cbn in *. subst aa.
      eexists _, (Pst ap p None aF). split; [reflexivity|]. flds. split; [|exact Ep]. unfold XInv. rewrite Sk.
      constructor; flds; cbn [p_finalized p_file]; try assumption; try congruence; try lia.
      constructor; flds; cbn [p_active p_position]; try assumption; try reflexivity.
      rewrite Sk in *. eapply obeys_app; [exact c_obeys|]. rewrite Ep. apply ob_final; [lia| |apply ob_nil].
      intros x Hx. rewrite Fl. apply H1. exact Hx.
    + assert (C := xn_c _ _ _ _ _ I). rewrite (c_has _ _ _ C). cbn [negb xbind]. flds. rewrite (c_has _ _ _ C). cbn [negb xbind].
      destruct (xn_fin _ _ _ _ _ I) as (Fi1 & Fi2 & Fi3 & Fi4).
      set (s1 := set_xfin s (x_position s)).
      destruct (xflush_ok P F Sk (S (Z.to_nat (x_position s) + Z.to_nat (x_position s))) s1 a) as [(s' & a' & R & X & Px)|R]; unfold s1; flds; try lia.
      * destruct C. constructor; flds; assumption.
      * apply (xn_file _ _ _ _ _ I).
      * rewrite Ep. exact H1.
      * apply (xn_bufs _ _ _ _ _ I).
      * apply (xn_cov _ _ _ _ _ I).
      * left. exists s', a'. split; [exact R|]. split; [unfold XInv; rewrite Sk; unfold s1 in X; flds; rewrite Ep in X; exact X|]. unfold s1 in Px. flds. congruence.
      * right. exact R.
  - subst p. apply (loop_good P 1 Z.min f ltac:(lia) ltac:(intros; lia) (S (length d)) d F s a); [lia|exact I|].
    intros _ x Hx. apply H1. lia.
  - subst p. apply (loop_good P 32 pick f ltac:(lia) H1 (S (length d)) d F s a); [lia|exact I|]. intros _ x Hx. apply H2. lia.
  - subst p. pose proof (zlen_pos d H1).
    destruct (piece_ok P F f s a (zlen d) 0 (fun _ => zlen d) d I H1) as [(n & s1 & a1 & N & W & I1 & P1)|Hh]; try lia.
    + intros x Hx. apply H2. lia.
    + assert (En : n = zlen d).
      { unfold xwrite_piece in W. destruct (xget_buffer P s (zlen d) 0) as [[[? ?] ?]|]; try discriminate. cbn [xbind] in W.
        destruct (xbuffer_append _ _ _ _); try discriminate. cbn [xbind] in W. destruct (xrelease_buffer _ _ _); try discriminate. cbn [xbind] in W.
        assert (X : skipn (Z.to_nat (zlen d)) d = skipn (Z.to_nat n) d) by congruence.
        apply (f_equal zlen) in X. rewrite !zlen_skipn in X by lia. lia. }
      subst n. rewrite W. cbn [xbind]. left. exists s1, a1. split; [reflexivity|].
      assert (X : firstn (Z.to_nat (zlen d)) d = d) by (unfold zlen; rewrite Nat2Z.id; apply firstn_all). rewrite X in *. split; assumption.
    + right. apply (halted_bind P tr2); [|exact Hh]. intros [s' rest]. apply ext_ok. reflexivity.
  - rewrite xexec_all_app. destruct (IH1 s a I Ep) as [(s1 & a1 & R & I1 & P1)|Hh].
    + rewrite R. cbn [xbind]. exact (IH2 s1 a1 I1 P1).
    + right. apply (halted_bind P x_trace); [|exact Hh]. intros s'. apply ext_exec_all.
  - apply (good_ext P F1); [exact H1|]. exact (IH s a I Ep).
Qed.
