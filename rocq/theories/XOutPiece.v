(** * One piece written through an output processor. *)
From Coq Require Import ZArith List Bool Lia Sorted.
From Verif Require Import Base ListAux OMap OutModel OutSpec OutInv OutRuns XOutModel XOutSpec XOutInv XOutStep.
Import ListNotations.
Local Open Scope Z_scope.
Ltac Zify.zify_post_hook ::= idtac.

Lemma insert_sorted (A B : imap) p nb n : StronglySorted before (A ++ B) ->
  (forall k b, In (k, b) A -> k + written b <= p) -> (forall k b, In (k, b) B -> p + n <= k) -> written nb = n ->
  StronglySorted before (A ++ (p, nb) :: B).
Proof.
  intros Hs HA HB Wn. apply ss_insert; [exact Hs| |].
  - intros [k b] H. unfold before. cbn. apply (HA k b H).
  - intros [k b] H. unfold before. cbn. rewrite Wn. apply (HB k b H).
Qed.
Lemma in_mid {X} (A B : list X) x y : In y (A ++ x :: B) -> y = x \/ In y (A ++ B).
Proof.
  intros H. apply in_app_or in H. destruct H as [H|[H|H]]; [right; apply in_or_app; left; exact H|left; congruence|right; apply in_or_app; right; exact H].
Qed.
Lemma mid_in {X} (A B : list X) x y : In y (A ++ B) -> In y (A ++ x :: B).
Proof. intros H. apply in_app_or in H. apply in_or_app. destruct H; [left; assumption|right; right; assumption]. Qed.

Lemma xs_insert P F f s a A B nb s' a' d : XS P F f s a -> x_bufs s = A ++ B ->
  (forall k b, In (k, b) A -> k + written b <= x_position s) ->
  (forall k b, In (k, b) B -> x_position s + zlen d <= k) ->
  x_bufs s' = A ++ (x_position s, nb) :: B -> written nb = zlen d -> 0 < zlen d ->
  x_position s' = x_position s + zlen d -> x_outpos s' = x_position s + zlen d -> x_finalized s' = x_finalized s ->
  x_stop s' = false -> x_has s' = false -> obeys (can_seek P) p_init (x_trace s') a' -> p_active a' = None ->
  p_position a' = x_position s + zlen d -> p_finalized a' = p_finalized a ->
  (forall x, p_file a' x = fill F (x_position s) d x) ->
  XS P (fill F (x_position s) d) f s' a'.
Proof.
  intros [C Out Fin Fl Cov] E HA HB E' Wn Dp P' O' F' S' H' Ob Ac Po Pf Pl. constructor.
  - constructor; try assumption; try congruence.
    + rewrite E'. apply (insert_sorted A B _ _ (zlen d)); try assumption. rewrite <- E. apply (c_sorted _ _ _ C).
    + intros k b Hin. rewrite E' in Hin. apply in_mid in Hin. destruct Hin as [Hin|Hin]; [injection Hin as -> ->; lia|].
      rewrite <- E in Hin. apply (c_written _ _ _ C k b Hin).
  - congruence.
  - rewrite F', Pf, P'. destruct Fin as (F1 & F2 & F3). split; [exact F1|]. split; [exact F2|]. lia.
  - exact Pl.
  - intros x (k & b & Hin & R). rewrite E' in Hin. apply in_mid in Hin. destruct Hin as [Hin|Hin].
    + injection Hin as -> ->. rewrite fill_in by lia. destruct (znth_ex d (x - x_position s)) as [v ->]; [lia|discriminate].
    + apply in_app_or in Hin. rewrite fill_out.
      * apply Cov. exists k, b. split; [rewrite E; apply in_or_app; exact Hin|exact R].
      * destruct Hin as [Hin|Hin]; [pose proof (HA k b Hin); lia|pose proof (HB k b Hin); lia].
Qed.

Definition Piece P F f (s : xst) (data : list Z) (r : xres (xst * list Z)) : Prop :=
  (exists n s' a', 1 <= n <= zlen data /\ r = XOk (s', skipn (Z.to_nat n) data)
     /\ XInv P (fill F (x_position s) (firstn (Z.to_nat n) data)) f s' a' /\ x_position s' = x_position s + n)
  \/ Halted P (trace_of tr2 r).

Lemma next_ok B p n need : (forall k (b : ibuf), In (k, b) B -> p + need <= k) -> n <= need ->
  (match (match B with [] => None | (k, _) :: _ => Some k end) with Some k => p + n <=? k | None => true end) = true.
Proof. intros HB L. destruct B as [|[k b] B]; [reflexivity|]. pose proof (HB k b (or_introl eq_refl)). apply Z.leb_le. lia. Qed.

(** Releasing a buffer of the library. *)
Lemma release_own P s A B w ow n need :
  x_bufs s = A ++ (x_position s, IBuf w ow) :: B -> x_has s = true ->
  (forall k b, In (k, b) A -> k < x_position s) -> (forall k b, In (k, b) B -> x_position s + need <= k) -> 0 < n <= need -> ow <> [] ->
  xrelease_buffer P s n =
  let s1 := set_xpos (set_xbufs (set_xhas s false) (A ++ (x_position s, IBuf n ow) :: B)) (x_position s + n) in
  if can_seek P then
    let? (s2, all) := write_out P (S (Z.to_nat n)) (set_xout (emit s1 (XSeek (x_position s))) (x_position s)) ow n in
    XOk (if all then set_xbufs s2 (assign (x_position s) (IBuf n []) (x_bufs s2)) else s2)
  else XOk s1.
Proof.
  intros E Hh HA HB Hn Ho. unfold xrelease_buffer. rewrite Hh. cbn [xensure xbind]. unfold xensure. flds. rewrite E. rewrite find_mid by exact HA.
  destruct (Z.eqb_spec n 0); [lia|]. cbn [owned]. rewrite assign_mid by exact HA. rewrite next_mid; [|exact HA|intros k b H; pose proof (HB k b H); lia].
  rewrite (next_ok B (x_position s) n need HB) by lia. cbn [xbind]. destruct ow as [|o os]; [congruence|]. destruct (can_seek P); [|reflexivity].
  flds. replace (x_position s + n - n) with (x_position s) by lia. reflexivity.
Qed.

(** Releasing the processor's buffer, which has the bytes [d] in it. *)
Lemma release_user P s A B w n need :
  x_bufs s = A ++ (x_position s, IBuf w []) :: B -> x_has s = true ->
  (forall k b, In (k, b) A -> k < x_position s) -> (forall k b, In (k, b) B -> x_position s + need <= k) -> 0 < n <= need ->
  xrelease_buffer P s n =
  let s1 := set_xpos (set_xbufs (set_xhas s false) (A ++ (x_position s, IBuf n []) :: B)) (x_position s + n) in
  let s2 := set_xuser (emit s1 (XRelease (firstn (Z.to_nat n) (x_user s)))) [] in
  if can_seek P then
    let s3 := set_xout s2 (x_outpos s + n) in
    let? _ := xensure s3 (x_finalized s3 <=? x_outpos s3) in
    let? _ := xensure s3 (x_outpos s3 =? x_position s3) in
    XOk s3
  else
    let? s3 := xset_finalized P s2 in
    let? _ := xensure s3 (x_outpos s3 =? x_finalized s3) in
    let? _ := xensure s3 (x_outpos s3 =? x_position s3) in
    XOk s3.
Proof.
  intros E Hh HA HB Hn. unfold xrelease_buffer. rewrite Hh. cbn [xbind]. unfold xensure at 1 2. flds. rewrite E. rewrite find_mid by exact HA.
  destruct (Z.eqb_spec n 0); [lia|]. cbn [owned]. rewrite assign_mid by exact HA. rewrite next_mid; [|exact HA|intros k b H; pose proof (HB k b H); lia].
  rewrite (next_ok B (x_position s) n need HB) by lia. cbn [xbind]. reflexivity.
Qed.

Lemma piece_ok P F f s a min_size requested pick data :
  XInv P F f s a -> data <> [] -> 1 <= min_size -> requested <= zlen data -> Z.max min_size requested >= zlen data ->
  (forall x, x_position s <= x < x_position s + Z.max min_size (zlen data) -> F x = None) ->
  (forall size, min_size <= size -> 1 <= pick size <= Z.min (zlen data) size) ->
  Piece P F f s data (xwrite_piece P s min_size requested pick data).
Proof.
  intros I D Hmin Hreq Hreq' Hno Hpick. pose proof (zlen_pos data D) as Dp.
  set (need := Z.max min_size (zlen data)) in *. assert (Hneed : 0 < need) by (unfold need; lia).
  assert (C : XC P s a) by (unfold XInv in I; destruct (can_seek P); apply I).
  assert (Ole : x_outpos s <= x_position s).
  { unfold XInv in I. destruct (can_seek P); [rewrite (xs_out _ _ _ _ _ I); lia|apply (xn_fin _ _ _ _ _ I)]. }
  assert (NC : forall x, x_position s <= x < x_position s + need -> ~ covered x (x_bufs s)).
  { intros x Hx Cv. specialize (Hno x Hx). unfold XInv in I. destruct (can_seek P).
    - exact (xs_cov _ _ _ _ _ I x Cv Hno).
    - destruct Cv as (k & b & Hin & R). destruct (xn_bufs _ _ _ _ _ I k b Hin) as (_ & B2 & B3). rewrite B3 in Hno by lia.
      destruct (znth_ex (owned b) (x - k)) as [v Ev]; [lia|congruence]. }
  destruct (place P s a need C Hneed NC) as (A & B & E & HA & HA' & HB & HE).
  set (r := Z.max min_size requested) in *.
  (* what is common to the ways a buffer of the library is used: [s1] is the state it is asked for in *)
  assert (Own : forall s1 a1, x_bufs s1 = x_bufs s -> x_position s1 = x_position s -> x_outpos s1 = x_outpos s -> x_finalized s1 = x_finalized s ->
    x_stop s1 = false -> obeys (can_seek P) p_init (x_trace s1) a1 -> p_active a1 = None -> p_position a1 = x_outpos s -> p_finalized a1 = p_finalized a ->
    (forall x, p_file a1 x = p_file a x) ->
    Piece P F f s data
      (let? (s1, rf, size) := xget_own s1 min_size r in
       let? s2 := xbuffer_append s1 rf size (firstn (Z.to_nat (pick size)) data) in
       let? s3 := xrelease_buffer P s2 (pick size) in
       XOk (s3, skipn (Z.to_nat (pick size)) data))).
  { intros s1 a1 E1 P1 O1 F1 S1 Ob1 A1 Po1 Pf1 Fl1.
    rewrite (get_own_ok s1 A B min_size r need); rewrite ?P1, ?E1; try assumption; try (unfold r, need; lia). cbn [xbind].
    destruct (Hpick r) as [N1 N2]; [unfold r; lia|]. set (n := pick r) in *. set (d := firstn (Z.to_nat n) data).
    assert (Ld : zlen d = n) by (unfold d; rewrite zlen_firstn by lia; lia).
    set (s2 := set_xhas _ true).
    rewrite (append_own_ok s2 A B r d); unfold s2; flds; rewrite ?P1; [|reflexivity|exact HA'|lia]. cbn [xbind].
    set (ow := overwrite (repeat 0 (Z.to_nat r)) 0 d).
    assert (Lo : zlen ow = r) by (unfold ow; rewrite overwrite_len; [apply zlen_repeat; lia|lia|rewrite zlen_repeat; lia]).
    assert (On : ow <> []) by (intros Eo; rewrite Eo, zlen_nil in Lo; lia).
    assert (Of : firstn (Z.to_nat n) ow = d) by (unfold ow; rewrite <- Ld; apply overwrite_start; lia).
    rewrite (release_own P _ A B 0 ow n need); flds; rewrite ?P1; try reflexivity; try assumption; [|unfold need; lia].
    cbn zeta. destruct (can_seek P) eqn:Sk.
    - unfold XInv in I. rewrite Sk in I. destruct (xs_fin _ _ _ _ _ I) as (Fi1 & Fi2 & Fi3).
      assert (Oe := xs_out _ _ _ _ _ I).
      set (s3 := set_xout _ _). destruct a1 as [ap af aa aF]. cbn in A1, Po1, Pf1, Fl1. subst aa.
      destruct (write_out_ok P F (x_position s) ow n Sk ltac:(lia) (S (Z.to_nat n)) s3 (Pst (x_position s) af None aF)) as [(s' & a' & W)|(s' & W & Hh)];
        unfold s3; flds; cbn [p_active p_position p_finalized p_file]; try lia; try reflexivity.
      + rewrite Sk. eapply obeys_app; [exact Ob1|]. apply ob_seek; [reflexivity|lia|apply ob_nil].
      + intros x. rewrite Fl1, Z.sub_diag. cbn [Z.to_nat firstn]. rewrite fill_nil. apply (xs_file _ _ _ _ _ I).
      + destruct W as (W & W1 & W2 & W3 & W4 & W5 & W6 & W7 & W8 & W9 & W10 & W11). unfold s3 in *. flds. rewrite W. cbn [xbind].
        left. exists n, (set_xbufs s' (A ++ (x_position s, IBuf n []) :: B)), a'. split; [lia|].
        split; [rewrite W1, assign_mid by exact HA'; reflexivity|]. flds. split; [|lia]. unfold XInv. rewrite Sk. fold d.
        assert (W11' : forall x, p_file a' x = fill F (x_position s) d x) by (intros x; rewrite W11, Of; reflexivity).
        rewrite <- Ld in *. apply (xs_insert P F f s a A B (IBuf (zlen d) [])); flds; try assumption; try reflexivity; try lia; try congruence.
        * intros k b Hin. pose proof (HB k b Hin). lia.
        * rewrite W10. exact Pf1.
      + unfold s3 in *. flds. right. rewrite W. cbn [xbind trace_of]. exact Hh.
    - unfold XInv in I. rewrite Sk in I. destruct (xn_fin _ _ _ _ _ I) as (Fi1 & Fi2 & Fi3 & Fi4).
      cbn [xbind]. left. eexists n, _, a1. split; [lia|]. split; [reflexivity|]. flds. split; [|reflexivity]. unfold XInv. rewrite Sk. fold d.
      constructor; flds.
      + constructor; flds; try assumption; try congruence.
        * apply (insert_sorted A B _ _ n); try reflexivity; [rewrite <- E; apply (c_sorted _ _ _ C)|exact HA|]. intros k b Hin. pose proof (HB k b Hin). lia.
        * intros k b Hin. apply in_mid in Hin. destruct Hin as [Hin|Hin]; [injection Hin as -> ->; cbn; lia|].
          rewrite <- E in Hin. apply (c_written _ _ _ C k b Hin).
      + rewrite F1, O1, Pf1. repeat split; try assumption; lia.
      + intros x. rewrite O1, Fl1, (xn_file _ _ _ _ _ I). destruct (Z.ltb_spec x (x_outpos s)); [|reflexivity]. rewrite fill_out by lia. reflexivity.
      + intros x Hx. rewrite O1 in Hx. rewrite fill_out by lia. apply (xn_full _ _ _ _ _ I). exact Hx.
      + intros k b Hin. rewrite O1. apply in_mid in Hin. destruct Hin as [Hin|Hin].
        * injection Hin as -> ->. cbn [written owned]. split; [lia|]. split; [lia|]. intros p Hp. rewrite fill_in by lia.
          unfold ow. rewrite overwrite_in; [f_equal; lia|lia|rewrite zlen_repeat; lia|lia].
        * assert (Hin' : In (k, b) (x_bufs s)) by (rewrite E; exact Hin). destruct (xn_bufs _ _ _ _ _ I k b Hin') as (B1 & B2 & B3).
          split; [exact B1|]. split; [exact B2|]. intros p Hp. rewrite fill_out; [apply B3; exact Hp|].
          apply in_app_or in Hin. destruct Hin as [Hin|Hin]; [pose proof (HA k b Hin); lia|pose proof (HB k b Hin); lia].
      + intros x Hx Hf. rewrite O1 in Hx. destruct (Z_lt_dec x (x_position s)) as [L|L]; [|destruct (Z_lt_dec x (x_position s + n)) as [L2|L2]].
        * rewrite fill_out in Hf by lia. destruct (xn_cov _ _ _ _ _ I x Hx Hf) as (k & b & Hin & R). exists k, b. split; [|exact R].
          apply mid_in. rewrite <- E. exact Hin.
        * exists (x_position s), (IBuf n ow). split; [apply in_or_app; right; left; reflexivity|cbn; lia].
        * rewrite fill_out in Hf by lia. destruct (xn_cov _ _ _ _ _ I x Hx Hf) as (k & b & Hin & R). exists k, b. split; [|exact R].
          apply mid_in. rewrite <- E. exact Hin. }
  unfold xwrite_piece, xget_buffer. unfold xensure at 1 2 3 4. destruct (Z.ltb_spec 0 min_size); [|lia]. cbn [xbind].
  rewrite (c_has _ _ _ C). cbn [negb xbind]. rewrite (c_stop _ _ _ C).
  assert (Es : (if can_seek P then x_outpos s =? x_position s else true) = true).
  { unfold XInv in I. destruct (can_seek P); [|reflexivity]. apply Z.eqb_eq. apply (xs_out _ _ _ _ _ I). }
  rewrite Es. cbn [xbind]. destruct (Z.leb_spec (x_outpos s) (x_position s)); [|lia]. cbn [xbind]. fold r.
  assert (Ob := c_obeys _ _ _ C). assert (Ac := c_active _ _ _ C). assert (Po := c_pos _ _ _ C).
  destruct (Z.eqb_spec (x_position s - x_outpos s) 0) as [Z0|Z0].
  2: { apply (Own s a); try reflexivity; try assumption. apply (c_stop _ _ _ C). }
  cbn zeta. destruct (Z.leb_spec (give P (x_trace s) r) 0) as [Hg|Hg].
  { right. cbn [xbind trace_of]. exists (x_trace s), r, [], a. auto. }
  set (g := give P (x_trace s) r) in *. destruct a as [ap af aa aF]. cbn in Ac, Po. subst aa ap.
  assert (Hfin : af <= x_outpos s).
  { unfold XInv in I. destruct (can_seek P); [destruct (xs_fin _ _ _ _ _ I) as (? & Q & ?)|destruct (xn_fin _ _ _ _ _ I) as (? & Q & ?)]; cbn in Q; lia. }
  destruct (Z.ltb_spec g min_size) as [Hs|Hs].
  { apply (Own (emit (emit s (XGet r g)) (XRelease [])) (Pst (x_outpos s) af None (put aF (x_outpos s) []))); try reflexivity.
    - apply (c_stop _ _ _ C).
    - flds. rewrite <- app_assoc. eapply obeys_app; [exact Ob|]. cbn [app]. apply ob_get; [unfold r; lia|lia|].
      apply ob_release; [rewrite zlen_nil; lia|lia|]. rewrite zlen_nil, Z.add_0_r. apply ob_nil.
    - intros x. cbn [p_file]. apply fill_nil. }
  (* the processor's buffer *)
  cbn [xbind]. destruct (Hpick g) as [N1 N2]; [lia|]. set (n := pick g) in *. set (d := firstn (Z.to_nat n) data).
  assert (Ld : zlen d = n) by (unfold d; rewrite zlen_firstn by lia; lia).
  rewrite HE. set (s1 := set_xuser _ _).
  assert (Ea : xbuffer_append s1 XUser g d = XOk (set_xuser s1 (overwrite (repeat 0 (Z.to_nat g)) 0 d))).
  { unfold xbuffer_append, s1. flds. rewrite zlen_repeat by lia. unfold xensure. destruct (Z.leb_spec (zlen d) g); [reflexivity|lia]. }
  rewrite Ea. cbn [xbind]. unfold s1. clear Ea s1.
  rewrite (release_user P _ A B 0 n need); flds; try reflexivity; try assumption; [|unfold need; lia].
  assert (Ov : firstn (Z.to_nat n) (overwrite (repeat 0 (Z.to_nat g)) 0 d) = d) by (rewrite <- Ld; apply overwrite_start; lia).
  rewrite Ov. cbn zeta. assert (Pe : x_position s = x_outpos s) by lia.
  assert (Ob2 : obeys (can_seek P) p_init ((x_trace s ++ [XGet r g]) ++ [XRelease d]) (Pst (x_outpos s + n) af None (fill aF (x_outpos s) d))).
  { rewrite <- app_assoc. eapply obeys_app; [exact Ob|]. cbn [app]. apply ob_get; [unfold r; lia|lia|]. apply ob_release; [lia|lia|].
    rewrite Ld. apply ob_nil. }
  destruct (can_seek P) eqn:Sk.
  - unfold XInv in I. rewrite Sk in I. destruct (xs_fin _ _ _ _ _ I) as (Fi1 & Fi2 & Fi3). cbn in Fi2.
    unfold xensure. flds. destruct (Z.leb_spec (x_finalized s) (x_outpos s + n)); [|lia]. cbn [xbind].
    destruct (Z.eqb_spec (x_outpos s + n) (x_position s + n)); [|lia]. cbn [xbind].
    left. eexists n, _, (Pst (x_outpos s + n) af None (fill aF (x_outpos s) d)). split; [lia|]. split; [reflexivity|]. flds. split; [|reflexivity]. unfold XInv. rewrite Sk. fold d.
    assert (HB2 : forall k b, In (k, b) B -> x_position s + zlen d <= k) by (intros k b Hin; pose proof (HB k b Hin); lia).
    rewrite <- Ld in *. eapply (xs_insert P F f s _ A B (IBuf (zlen d) [])); flds; try eassumption; try reflexivity; try lia; try (cbn; lia).
    + apply (c_stop _ _ _ C).
    + rewrite Sk. exact Ob2.
    + intros x. cbn [p_file]. rewrite <- Pe. apply fill_cong. apply (xs_file _ _ _ _ _ I).
  - unfold XInv in I. rewrite Sk in I. destruct (xn_fin _ _ _ _ _ I) as (Fi1 & Fi2 & Fi3 & Fi4). cbn in Fi2.
    assert (An : A = []).
    { destruct A as [|[k b] A]; [reflexivity|]. exfalso. pose proof (HA k b (or_introl eq_refl)) as Q.
      destruct (xn_bufs _ _ _ _ _ I k b) as (B1 & _); [rewrite E; left; reflexivity|]. lia. }
    subst A. cbn [app] in *.
    unfold xset_finalized, xflush_output. unfold xensure at 1 2. flds. cbn [negb xbind]. rewrite Sk. flds.
    destruct (Z.to_nat (x_position s + n)) as [|q] eqn:Eq; [lia|]. cbn [Nat.add xflush_loop]. flds.
    destruct (Z.ltb_spec (x_outpos s) (x_position s + n)); [|lia]. unfold xensure at 1 2. flds.
    destruct (Z.leb_spec (x_position s) (x_outpos s)); [|lia]. cbn [written owned xbind].
    destruct (Z.eqb_spec n 0); [lia|]. cbn [negb xbind]. flds. rewrite Z.min_id, Z.eqb_refl. rewrite Sk. flds.
    replace (q + S q)%nat with (S (q + q)) by lia. cbn [xflush_loop]. flds. rewrite Z.ltb_irrefl. cbn [xbind]. unfold xensure. flds. rewrite !Z.eqb_refl. cbn [xbind].
    left. eexists n, _, (Pst (x_position s + n) (x_position s + n) None (fill aF (x_outpos s) d)). split; [lia|]. split; [reflexivity|]. flds. split; [|reflexivity].
    unfold XInv. rewrite Sk. fold d. assert (Xf := xn_file _ _ _ _ _ I). cbn in Xf.
    assert (Nf : forall x, x_outpos s <= x -> x < x_outpos s + n -> fill F (x_position s) d x <> None).
    { intros x L1 L2. rewrite Pe, fill_in by lia. destruct (znth_ex d (x - x_outpos s)) as [v ->]; [lia|discriminate]. }
    constructor; flds; cbn [p_finalized p_file p_position].
    + constructor; flds; try reflexivity.
      * rewrite Sk. eapply obeys_app; [exact Ob2|]. rewrite <- Pe. apply ob_final; [lia| |apply ob_nil].
        intros x Hx. rewrite Pe. destruct (Z_lt_dec x (x_outpos s)).
        -- rewrite fill_out by lia. rewrite Xf. destruct (Z.ltb_spec x (x_outpos s)); [|lia]. apply (xn_full _ _ _ _ _ I). cbn. lia.
        -- rewrite fill_in by lia. destruct (znth_ex d (x - x_outpos s)) as [v ->]; [lia|discriminate].
      * apply (c_stop _ _ _ C).
      * assert (Ss := c_sorted _ _ _ C). rewrite E in Ss. exact Ss.
      * intros k b Hin. apply (c_written _ _ _ C k b). rewrite E. exact Hin.
    + repeat split; lia.
    + intros x. destruct (Z.ltb_spec x (x_position s + n)) as [L|L].
      * rewrite Pe. destruct (Z_lt_dec x (x_outpos s)).
        -- rewrite !fill_out by lia. rewrite Xf. destruct (Z.ltb_spec x (x_outpos s)); [reflexivity|lia].
        -- rewrite !fill_in by lia. reflexivity.
      * rewrite fill_out by lia. rewrite Xf. destruct (Z.ltb_spec x (x_outpos s)); [lia|reflexivity].
    + intros x Hx. destruct (Z_lt_dec x (x_outpos s)); [|apply Nf; lia]. rewrite fill_out by lia. apply (xn_full _ _ _ _ _ I). lia.
    + intros k b Hin. pose proof (HB k b Hin). destruct (xn_bufs _ _ _ _ _ I k b) as (B1 & B2 & B3); [rewrite E; exact Hin|].
      pose proof (c_written _ _ _ C k b ltac:(rewrite E; exact Hin)).
      split; [lia|]. split; [exact B2|]. intros p Hp. rewrite fill_out by lia. apply B3. exact Hp.
    + intros x Hx Hf. rewrite fill_out in Hf by lia. destruct (xn_cov _ _ _ _ _ I x ltac:(lia) Hf) as (k & b & Hin & R).
      rewrite E in Hin. exists k, b. split; assumption.
Qed.
