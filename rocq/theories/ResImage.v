(* Images come back, and the encoder's outcomes. *)
From Verif Require Import Base ListAux OMap Wrap FieldsModel FieldsProofs RctModel MaModel MaSpec MaFlat MaLut ResModel ResSpec ResWp ResLoop ResPaths ResTree ResTop.
Ltac Zify.zify_post_hook ::= idtac.

Lemma small_pix w data x y b : 0 <= b -> Forall (fun p => - b <= p <= b) data -> - b <= pix w data x y <= b.
Proof.
  intros Hb F. unfold pix, pixel. destruct ((0 <=? x) && (x <? w) && (0 <=? y)); [|lia]. destruct (znth data (y * w + x)) as [v|] eqn:E; [|lia].
  rewrite Forall_forall in F. apply F. unfold znth in E. destruct (_ <? 0); [discriminate|]. eapply nth_error_In, E.
Qed.
Lemma small_gradp w data x y : Forall (fun p => - 2 ^ 29 <= p <= 2 ^ 29) data -> s32 (gradp w data x y) = gradp w data x y.
Proof.
  intros F. assert (S : forall a b, - 2 ^ 29 <= pix w data a b <= 2 ^ 29) by (intros; apply small_pix; [lia|exact F]).
  assert (C : forall (b : bool) u v, - 2 ^ 29 <= u <= 2 ^ 29 -> - 2 ^ 29 <= v <= 2 ^ 29 -> - 2 ^ 29 <= (if b then u else v) <= 2 ^ 29) by (intros []; auto).
  apply s32_id. unfold gradp, nbref. cbn [left top topleft]. set (l := if 0 <? x then _ else _). assert (L : - 2 ^ 29 <= l <= 2 ^ 29) by (apply C; [apply S|apply C; [apply S|lia]]). clearbody l.
  set (tp := if 0 <? y then _ else _). assert (Tp : - 2 ^ 29 <= tp <= 2 ^ 29) by (apply C; [apply S|exact L]). clearbody tp.
  set (tl := if _ && _ then _ else _). assert (Tl : - 2 ^ 29 <= tl <= 2 ^ 29) by (apply C; [apply S|exact L]). clearbody tl. unfold is_i32. lia.
Qed.

Section Image.
Variables (t : list node) (T : mtree) (cm : list Z) (hd : wp_header) (lut0 lut0' : Z -> Z) (gid nb_meta max : Z) (skip : bool) (R : reader).
Hypothesis Ht : tree_ok t T cm.
Hypothesis Hh : header_ok hd.
Hypothesis H16 : zlen cm <= 65536.
Hypothesis Ho : honest R.

Lemma image_rt cs : forall blank before i ts, Forall channel_ok cs -> Forall channel_ok blank -> Forall2 same_shape cs blank -> Forall channel_ok before ->
  (has_split T 15 (-8193) -> skip = false /\ lz77 R = false /\ Forall (fun c => 8 < cw c) cs) ->
  (skip = true -> ~ has_split T 9 (-8193) /\ Forall (fun c => Forall (fun p => - 2 ^ 29 <= p <= 2 ^ 29) (cdata c)) cs) ->
  enc_channels skip hd t lut0 gid nb_meta max before cs i = Good ts ->
  exists us, clustered cm ts us /\ forall rest, dec_channels R cm hd t lut0' gid nb_meta max before blank i (us ++ rest) = Some (firstn (coded nb_meta max i cs) cs ++ skipn (coded nb_meta max i cs) blank, rest).
Proof.
  induction cs as [|c cs IH]; intros blank before i ts Hcs Hbl Hsh Hbf C1 C2 E; inversion Hsh as [|? d ? ds Hs Hsh']; subst; cbn [enc_channels coded] in *.
  - injection E as <-. exists []. split; [constructor|]. reflexivity.
  - pose proof Hs as (S1 & S2 & S3 & S4). inversion Hcs; subst. inversion Hbl; subst. cbn [dec_channels]. unfold too_large in *. rewrite <- S1, <- S2. destruct ((nb_meta <=? i) && ((max <? cw c) || (max <? ch c))) eqn:Tl.
    { injection E as <-. exists []. split; [constructor|]. reflexivity. }
    assert (C1' : has_split T 15 (-8193) -> skip = false /\ lz77 R = false /\ Forall (fun c => 8 < cw c) cs) by (intros X; destruct (C1 X) as (A & B & D); inversion D; auto).
    assert (C2' : skip = true -> ~ has_split T 9 (-8193) /\ Forall (fun c => Forall (fun p => - 2 ^ 29 <= p <= 2 ^ 29) (cdata c)) cs) by (intros X; destruct (C2 X) as (A & D); inversion D; auto).
    cbn [firstn skipn app]. destruct ((cw c =? 0) || (ch c =? 0)) eqn:Em.
    + assert (Dc : d = c). { destruct c as [w h a b l]. destruct d as [w' h' a' b' l']. unfold channel_ok in *. cbn in *. subst w' h' a' b'. f_equal. assert (w * h = 0) by nia. assert (zlen l = 0) by lia. assert (zlen l' = 0) by lia. destruct l; [|cbn in *; unfold zlen in *; cbn in *; lia]. destruct l'; [reflexivity|unfold zlen in *; cbn in *; lia]. }
      subst d. destruct (IH ds (c :: before) (i + 1) ts ltac:(assumption) ltac:(assumption) Hsh' ltac:(constructor; assumption) C1' C2' E) as (us & A & B). exists us. split; [exact A|]. intros rest. rewrite B. reflexivity.
    + destruct (enc_channel skip hd t lut0 gid before c i) as [t1| | |] eqn:E1; try discriminate E. cbn [bind] in E. destruct (enc_channels skip hd t lut0 gid nb_meta max (c :: before) cs (i + 1)) as [t2| | |] eqn:E2; try discriminate E. cbn [bind] in E. injection E as <-.
      destruct (tree_parts t T cm (static_props i gid) Ht) as (fl & np & uw & wo & g & fc & Ef & Ec & _).
      assert (Hc : channel_ok c) by assumption. assert (Wp : 0 < cw c /\ 0 < ch c) by (destruct Hc as (? & ? & _); lia).
      destruct (channel_rt t T cm hd before c i gid Ht Hh Hbf Hc ltac:(lia) H16 fl np uw wo g fc Ef Ec lut0 lut0' skip R d t1 Hs ltac:(lia) Ho) as (us1 & A1 & _ & B1).
      { intros X. destruct (C1 X) as (A & B & D). inversion D; auto. }
      { intros X. destruct (C2 X) as (A & D). inversion D; subst. split; [exact A|]. intros x y _ _. apply small_gradp. assumption. }
      { exact E1. }
      destruct (IH ds (c :: before) (i + 1) t2 ltac:(assumption) ltac:(assumption) Hsh' ltac:(constructor; assumption) C1' C2' E2) as (us2 & A2 & B2).
      exists (us1 ++ us2). split; [apply Forall2_app; assumption|]. intros rest. rewrite <- app_assoc, B1. rewrite <- S3, <- S4. replace (Channel (cw c) (ch c) (hshift c) (vshift c) (cdata c)) with c by (destruct c; reflexivity). rewrite B2. reflexivity.
Qed.
End Image.

(* ---- outcomes ---- *)
Definition kind {A} (r : res A) : Z := match r with Good _ => 0 | Refused => 1 | Inexact => 2 | Undefined => 3 end.
Lemma kind_bind {A B} (r : res A) (f : A -> res B) (Q : Z -> Prop) : Q (kind r) -> (forall a, r = Good a -> Q (kind (f a))) -> Q (kind (bind r f)).
Proof. destruct r; cbn; auto. Qed.

Section Out.
Variables (w h : Z) (data : list Z) (P : path) (R : Z -> Z -> guessed) (k : how) (Q : Z -> Prop).
Hypothesis Hw : 0 < w.
Hypothesis Hlen : zlen data = w * h.
Hypothesis F : follows w h data P R.
Hypothesis Q0 : Q 0.
Hypothesis HQ : forall x y, 0 <= x < w -> 0 <= y < h -> let '(c, g, m) := R x y in Q (kind (residual k (pix w data x y) g m)).

Lemma rows_kind : 0 <= h -> Q (kind (enc_rows P k (pixel w data) w (Z.to_nat h) 0 start)).
Proof.
  intros Hh. destruct F as (inv & I0 & L & S).
  assert (K1 : forall y, 0 <= y < h -> forall n x s, x + Z.of_nat n = w -> 0 <= x -> inv x y s -> Q (kind (enc_row P k (pixel w data) n x y s)) /\ forall ts s', enc_row P k (pixel w data) n x y s = Good (ts, s') -> inv w y s').
  { intros y Hy. induction n as [|n IH]; intros x s Hn Hx I; cbn [enc_row].
    - split; [exact Q0|]. intros ts s' E. injection E as _ <-. replace w with x by lia. exact I.
    - assert (Hx' : 0 <= x < w) by lia. destruct (S x y s (pixel w data) Hx' Hy (knows_full w h data Hw Hlen x y ltac:(lia) Hy) I) as (s1 & s2 & A & B & C). rewrite A. specialize (HQ x y Hx' Hy). destruct (R x y) as ((c & g) & m). cbn [opt bind]. rewrite (pixel_pix w h data Hw Hlen x y Hx' Hy). cbn [opt bind].
      destruct (residual k (pix w data x y) g m) as [v| | |] eqn:Er; cbn [bind kind] in *; try (split; [exact HQ|discriminate]). rewrite B. cbn [opt bind]. destruct (IH (x + 1) s2 ltac:(lia) ltac:(lia) C) as (D & E).
      destruct (enc_row P k (pixel w data) n (x + 1) y s2) as [(ts & s3)| | |]; cbn [bind kind] in *; try (split; [exact D|discriminate]). split; [exact Q0|]. intros ts' s' X. injection X as _ <-. eapply E. reflexivity. }
  assert (K2 : forall n y s, y + Z.of_nat n = h -> 0 <= y -> inv 0 y (p_row P s) -> Q (kind (enc_rows P k (pixel w data) w n y s))).
  { induction n as [|n IH]; intros y s Hn Hy I; cbn [enc_rows]; [exact Q0|]. destruct (K1 y ltac:(lia) (Z.to_nat w) 0 (p_row P s) ltac:(lia) ltac:(lia) I) as (A & B).
    apply kind_bind. { exact A. } intros (ts & s') E. specialize (B _ _ E). apply kind_bind; [|intros; exact Q0]. apply IH; [lia|lia|]. apply L; [lia|exact B]. }
  apply K2; [lia|lia|exact I0].
Qed.
End Out.

Lemma decide_multiplier U pv c p o m : no_multipliers U -> decide U pv = (c, p, o, m) -> m = 1.
Proof. induction U as [? ? ? ?|? v ? ? ? ?]; cbn; [intros -> E; injection E as _ _ _ <-; reflexivity|]. intros (A & B). destruct (v <? pv p0); auto. Qed.

Lemma channel_kind t T cm hd before c chan gid skip lut0 : tree_ok t T cm -> header_ok hd -> Forall channel_ok before -> channel_ok c -> 0 < cw c ->
  let r := enc_channel skip hd t lut0 gid before c chan in r <> Undefined /\ (no_multipliers T -> r <> Inexact).
Proof.
  intros Ht Hh Hb Hc Hw. cbv zeta. destruct (tree_parts t T cm (static_props chan gid) Ht) as (fl & np & uw & wo & g & fc & Ef & Ec & Sh & N1 & N2 & _).
  enough (K : forall Q : Z -> Prop, Q 0 -> Q 1 -> (Q 2 \/ (no_multipliers T)) -> Q (kind (enc_channel skip hd t lut0 gid before c chan))).
  { split. - intros E. specialize (K (fun z => z <> 3) ltac:(discriminate) ltac:(discriminate) ltac:(left; discriminate)). rewrite E in K. apply K. reflexivity.
    - intros N E. specialize (K (fun z => z <> 2) ltac:(discriminate) ltac:(discriminate) ltac:(auto)). rewrite E in K. apply K. reflexivity. }
  intros Q Q0 Q1 Q2. unfold enc_channel. rewrite Ef. cbn [opt bind].
  pose proof Ht as (Wf & St & Hn & Hz & Nd & Hcm & Hu).
  destruct (lut_meaning t T (static_props chan gid) (zseq 0 (length cm)) w16 lut0 Wf St Hn Hz Nd ltac:(unfold zlen in *; rewrite zseq_length; lia)) as (fl1 & np1 & uw1 & wo1 & g1 & fc1 & r1 & E1 & C1 & M1).
  rewrite Ef in E1. injection E1 as <- <- <- <- <-. apply cluster_id in C1. subst fc1.
  assert (Lw : exists l, maybe_lut w16 wo fl lut0 = Some l) by (destruct wo; [|cbn; eauto]; exists r1; apply (M1 15 6); auto).
  assert (Lg : exists l, maybe_lut w16 g fl lut0 = Some l) by (destruct g; [|cbn; eauto]; exists r1; apply (M1 9 5); auto).
  destruct Lw as (wl & Lw). destruct Lg as (gl & Lg). rewrite Lw, Lg. cbn [opt bind].
  destruct (enc_path skip hd (static_props chan gid) (references (Z.to_nat (np - kNumNonrefProperties)) before c) (cw c) fl np uw wl gl) as (P & k) eqn:Ep.
  destruct (enc_cases t T cm hd before c chan gid Ht Hh Hb Hc Hw fl np uw wo g fc Ef Ec lut0 lut0 skip wl gl P k Lw Lg Ep) as (Re & Fe & Dv & Ke).
  apply (rows_kind (cw c) (ch c) (cdata c) P Re k Q Hw (proj1 (proj2 (proj2 Hc))) Fe Q0); [|apply Hc].
  intros x y Hx Hy. specialize (Dv x y Hx Hy). cbv beta in Dv.
  assert (M : let '(_, _, m) := Re x y in m <> 0 /\ (no_multipliers T -> m = 1)).
  { destruct Ke as [(A & _)|[(_ & le & _ & ->)|(_ & _ & _ & le & _ & ->)]]; [|cbn; split; [discriminate|reflexivity]..].
    specialize (A x y Hx Hy). cbv beta in A. destruct (canon_in t T cm hd before c chan gid Ht np uw x y) as (cx & gx & mx & E & _ & _ & _ & Mx). pose proof E as E'. rewrite E in A. destruct (Re x y) as ((c0 & g0) & m0). destruct A as (_ & <- & _). split; [lia|]. intros N.
    unfold canon, Rtree in E'. destruct (decide T _) as (((c1 & p1) & o1) & m1) eqn:D. injection E' as _ _ <-. eapply decide_multiplier; eauto. }
  destruct (Re x y) as ((c0 & g0) & m0). destruct M as (M0 & M1'). destruct Dv as (_ & Dj). unfold residual. destruct k as [| |j|].
  - destruct (_ =? _); [exact Q0|exact Q1].
  - exact Q0.
  - destruct Q2 as [Q2|Q2]; [destruct (_ =? _); [exact Q0|exact Q2]|]. destruct (Dj j eq_refl) as (J & Ej). rewrite (M1' Q2) in *. assert (j = 0) by (destruct (Z.eq_dec j 0); [assumption|]; pose proof (Z.pow_gt_1 2 j ltac:(lia)); lia). subst j. rewrite Z.shiftr_0_r, Z.mul_1_r, Z.eqb_refl. exact Q0.
  - destruct (Z.eqb_spec m0 0); [contradiction|]. destruct Q2 as [Q2|Q2]; [destruct (_ =? _); [exact Q0|exact Q2]|]. rewrite (M1' Q2), Z.rem_1_r. exact Q0.
Qed.

Lemma image_kind t T cm hd lut0 gid nb_meta max skip : tree_ok t T cm -> header_ok hd -> forall cs before i, Forall channel_ok cs -> Forall channel_ok before ->
  let r := enc_channels skip hd t lut0 gid nb_meta max before cs i in r <> Undefined /\ (no_multipliers T -> r <> Inexact).
Proof.
  intros Ht Hh. cbv zeta. induction cs as [|c cs IH]; intros before i Hcs Hbf; cbn [enc_channels]; [split; [|intros _]; discriminate|]. inversion Hcs as [|? ? Hc Hcs']; subst.
  destruct (too_large nb_meta max i c); [split; [|intros _]; discriminate|]. specialize (IH (c :: before) (i + 1) Hcs' ltac:(constructor; assumption)). destruct ((cw c =? 0) || (ch c =? 0)) eqn:Em; [exact IH|].
  assert (Hw : 0 < cw c) by (destruct Hc as (? & ? & _); lia). pose proof (channel_kind t T cm hd before c i gid skip lut0 Ht Hh Hbf Hc Hw) as K. cbv zeta in K.
  destruct (enc_channel skip hd t lut0 gid before c i); cbn [bind]; [|split; [|intros _]; discriminate|exact K|exact K].
  destruct (enc_channels skip hd t lut0 gid nb_meta max (c :: before) cs (i + 1)); cbn [bind]; [split; [|intros _]; discriminate..|exact IH|exact IH].
Qed.
