(* Channels and images come back. *)
From Verif Require Import Base ListAux OMap Wrap FieldsModel FieldsProofs RctModel MaModel MaSpec MaFlat MaLut ResModel ResSpec ResWp ResLoop ResPaths ResTree.
Ltac Zify.zify_post_hook ::= idtac.

Lemma references_ok before c x y : Forall channel_ok before -> 0 <= x < cw c -> 0 <= y < ch c -> forall k, exists l, references (4 * k) before c x y = Some l /\ length l = (4 * k)%nat.
Proof.
  intros F Hx Hy. induction F as [|b before Hb F IH]; intros k; cbn [references].
  - eexists. split; [reflexivity|apply repeat_length].
  - destruct k as [|k]; [exists []; auto|]. replace (4 * S k)%nat with (S (S (S (S (4 * k))))) by lia. destruct (IH (S k)) as (l0 & E0 & L0). replace (4 * S k)%nat with (S (S (S (S (4 * k))))) in E0, L0 by lia.
    destruct (Z.eqb_spec (cw b) (cw c)) as [Ew|]; [|cbn [andb negb]; eauto]. destruct (Z.eqb_spec (ch b) (ch c)) as [Eh|]; [|cbn [andb negb]; eauto]. cbn [andb negb].
    destruct (hshift b =? hshift c); cbn [negb]; [|eauto]. destruct (vshift b =? vshift c); cbn [negb]; [|eauto].
    destruct Hb as (B1 & B2 & B3 & B4). destruct (IH k) as (l & E & L).
    assert (R : exists r, reference b x y = Some r /\ length r = 4%nat).
    { unfold reference. assert (Px : forall x' y', 0 <= x' < cw b -> 0 <= y' < ch b -> exists v, pixel (cw b) (cdata b) x' y' = Some v). { intros x' y' Hx' Hy'. eexists. apply (pixel_pix (cw b) (ch b) (cdata b)); [lia|assumption..]. }
      destruct (Px x y ltac:(lia) ltac:(lia)) as (v & ->).
      assert (A : exists a, (if 0 <? x then pixel (cw b) (cdata b) (x - 1) y else Some 0) = Some a) by (destruct (Z.ltb_spec 0 x); [apply Px; lia|eauto]). destruct A as (a & ->).
      assert (A : exists d, (if 0 <? y then pixel (cw b) (cdata b) x (y - 1) else Some a) = Some d) by (destruct (Z.ltb_spec 0 y); [apply Px; lia|eauto]). destruct A as (d & ->).
      assert (A : exists e, (if (0 <? x) && (0 <? y) then pixel (cw b) (cdata b) (x - 1) (y - 1) else Some a) = Some e) by (destruct (Z.ltb_spec 0 x); destruct (Z.ltb_spec 0 y); cbn [andb]; eauto; apply Px; lia). destruct A as (e & ->).
      eexists. split; reflexivity. }
    destruct R as (r & -> & Lr). rewrite E. eexists. split; [reflexivity|]. rewrite app_length. lia.
Qed.
Lemma references_shape before c c' x y : same_shape c c' -> forall n, references n before c x y = references n before c' x y.
Proof.
  intros (S1 & S2 & S3 & S4). induction before as [|b before IH]; intros n; cbn [references]; [reflexivity|]. rewrite S1, S2, S3, S4. destruct n as [|[|[|[|n]]]]; try reflexivity. rewrite (IH (S (S (S (S n))))), (IH n). reflexivity.
Qed.

Lemma predict_no_wp p n a b : p <> 6 -> predict_one p n a = predict_one p n b.
Proof.
  intros H. unfold predict_one. destruct p as [|p|p]; try reflexivity. destruct p as [p|p|]; try reflexivity; destruct p as [p|p|]; try reflexivity; destruct p as [p|p|]; try reflexivity; try (destruct p; reflexivity). contradiction.
Qed.

Lemma clustered_fun cm ts us vs : clustered cm ts us -> clustered cm ts vs -> us = vs.
Proof.
  intros A. revert vs. induction A as [|(c & v) (d & u) ts us (E1 & E2) A IH]; intros vs B; inversion B as [|? (d' & u') ? ? (F1 & F2) B']; subst; [reflexivity|]. cbn [fst snd] in *. rewrite E1 in F1. f_equal; [congruence|auto].
Qed.

(* all symbols of one context and value: the channel is filled *)
Lemma zero_row ctx o m w v : forall n x y done s toks d s' rest, (forall t, In t toks -> fst t = ctx -> snd t = v) -> dec_row false (zero_path ctx o m) w n x y done s toks = Some (d, s', rest) ->
  d = done ++ repeat (make_pixel v m o) n /\ (n <= length toks)%nat /\ rest = skipn n toks.
Proof.
  induction n as [|n IH]; intros x y done s toks d s' rest Hv E; cbn [dec_row] in E.
  - injection E as <- <- <-. cbn [repeat]. rewrite app_nil_r. auto with arith.
  - cbn [p_predict zero_path p_update keep] in E. destruct toks as [|(c & u) toks]; [discriminate|]. cbn [read_symbol] in E. destruct (Z.eqb_spec c ctx) as [->|]; [|discriminate].
    assert (u = v) by (apply (Hv (ctx, u)); [left|]; reflexivity). subst u. destruct (IH _ _ _ _ _ _ _ _ ltac:(intros t Ht; apply Hv; right; exact Ht) E) as (A & B & C). rewrite A, <- app_assoc. cbn [repeat app length skipn]. split; [reflexivity|]. split; [lia|exact C].
Qed.
Lemma skipn_in {A} n (l : list A) a : In a (skipn n l) -> In a l.
Proof. revert l. induction n as [|n IH]; intros [|b l]; cbn; auto. Qed.
Lemma zero_rows ctx o m w v : 0 <= w -> forall n y done s toks d rest, (forall t, In t toks -> fst t = ctx -> snd t = v) -> dec_rows false (zero_path ctx o m) w n y done s toks = Some (d, rest) ->
  let k := (n * Z.to_nat w)%nat in d = done ++ repeat (make_pixel v m o) k /\ (k <= length toks)%nat /\ rest = skipn k toks.
Proof.
  intros Hw. induction n as [|n IH]; intros y done s toks d rest Hv E; cbn [dec_rows] in E; cbv zeta.
  - injection E as <- <-. cbn [repeat Nat.mul]. rewrite app_nil_r. split; [reflexivity|]. split; [lia|reflexivity].
  - destruct (dec_row _ _ w (Z.to_nat w) 0 y done _ toks) as [((d1 & s1) & t1)|] eqn:E1; [|discriminate]. destruct (zero_row ctx o m w v _ _ _ _ _ _ _ _ _ Hv E1) as (A & B & C).
    assert (Hv' : forall t, In t t1 -> fst t = ctx -> snd t = v) by (intros t Ht; apply Hv; rewrite C in Ht; apply skipn_in in Ht; exact Ht). destruct (IH _ _ _ _ _ _ Hv' E) as (A' & B' & C'). rewrite A', A, <- app_assoc, <- repeat_app. split; [f_equal|]. rewrite C in B'. rewrite skipn_length in B'. split; [lia|].
    rewrite C', C. rewrite skipn_skipn. reflexivity.
Qed.

Lemma pow2_of m : 1 <= m -> Z.land m (m - 1) = 0 -> m = 2 ^ Z.log2 m.
Proof.
  intros Hm E. destruct (Z.log2_spec m ltac:(lia)) as (L1 & L2). rewrite Z.pow_succ_r in L2 by apply Z.log2_nonneg. destruct (Z.eq_dec m (2 ^ Z.log2 m)) as [|N]; [assumption|exfalso].
  assert (B1 : Z.testbit m (Z.log2 m) = true) by (apply Z.bit_log2; lia).
  assert (L3 : Z.log2 (m - 1) = Z.log2 m). { apply Z.log2_unique; [apply Z.log2_nonneg|]. rewrite Z.pow_succ_r by apply Z.log2_nonneg. lia. }
  assert (B2 : Z.testbit (m - 1) (Z.log2 m) = true) by (rewrite <- L3; apply Z.bit_log2; pose proof (Z.pow_pos_nonneg 2 (Z.log2 m) ltac:(lia) (Z.log2_nonneg m)); lia).
  assert (Z.testbit (Z.land m (m - 1)) (Z.log2 m) = true) by (rewrite Z.land_spec, B1, B2; reflexivity). rewrite E, Z.bits_0 in H. discriminate.
Qed.

Lemma unpack_make v : unpack_signed v = make_pixel v 1 0.
Proof. unfold make_pixel. rewrite Z.add_0_r, Z.mul_1_r. symmetry. apply s32_id. unfold unpack_signed. apply s32_range. Qed.
Lemma plain_row ctx w : forall n x y done s toks, dec_row true (zero_path ctx 0 1) w n x y done s toks = dec_row false (zero_path ctx 0 1) w n x y done s toks.
Proof.
  induction n as [|n IH]; intros; cbn [dec_row]; [reflexivity|]. cbn [zero_path p_predict p_update keep]. destruct (read_symbol ctx toks) as [(v & tk)|]; [|reflexivity]. rewrite unpack_make. unfold keep. apply IH.
Qed.
Lemma plain_rows ctx w : forall n y done s toks, dec_rows true (zero_path ctx 0 1) w n y done s toks = dec_rows false (zero_path ctx 0 1) w n y done s toks.
Proof. induction n as [|n IH]; intros; cbn [dec_rows]; [reflexivity|]. rewrite plain_row. destruct (dec_row _ _ _ _ _ _ _ _ _) as [((? & ?) & ?)|]; [apply IH|reflexivity]. Qed.

Section Channel.
Variables (t : list node) (T : mtree) (cm : list Z) (hd : wp_header) (before : list channel) (c : channel) (chan gid : Z).
Hypothesis Ht : tree_ok t T cm.
Hypothesis Hh : header_ok hd.
Hypothesis Hb : Forall channel_ok before.
Hypothesis Hc : channel_ok c.
Hypothesis Hw : 0 < cw c.
Hypothesis H16 : zlen cm <= 65536.

Notation w := (cw c).
Notation h := (ch c).
Notation data := (cdata c).
Notation sp := (static_props chan gid).
Notation pixc := (pix w data).

Variables (fl : list fnode) (np : Z) (uw wo g : bool) (fc : list fnode).
Hypothesis Ef : filter_tree t sp = Some (fl, np, uw, wo, g).
Hypothesis Ec : cluster_leaves cm fl = Some fc.

Let Hlen : zlen data = w * h := proj1 (proj2 (proj2 Hc)).
Let Hi : Forall is_i32 data := proj2 (proj2 (proj2 Hc)).

Lemma parts : Forall2 same_node fl fc /\ 16 <= np /\ np mod 4 = 0 /\
  (forall pv, agrees sp pv -> lookup (length fl) fl np pv 0 = Some (decide T pv)) /\
  (forall pv, agrees sp pv -> lookup (length fc) fc np pv 0 = Some (let '(c, p, o, m) := decide T pv in (in_map cm c, p, o, m))) /\
  (uw = true <-> (exists v, has_split (resolve sp T) 15 v) \/ has_leaf (resolve sp T) 6) /\
  (wo = true <-> (forall p v, has_split (resolve sp T) p v -> p = 15) /\ (forall q, has_leaf (resolve sp T) q -> q = 6)) /\
  (g = true <-> (forall p v, has_split (resolve sp T) p v -> p = 9) /\ (forall q, has_leaf (resolve sp T) q -> q = 5)).
Proof.
  destruct (tree_parts t T cm sp Ht) as (fl' & np' & uw' & wo' & g' & fc' & E & C & K). rewrite Ef in E. injection E as <- <- <- <- <-. rewrite Ec in C. apply Some_inj in C. subst fc'. exact K.
Qed.

Notation refs := (references (Z.to_nat (np - kNumNonrefProperties)) before).
Lemma refs_ok c' : same_shape c c' -> forall x y, 0 <= x < w -> 0 <= y < h -> exists l, refs c' x y = Some l /\ zlen l = np - 16.
Proof.
  intros Hs x y Hx Hy. destruct parts as (_ & N1 & N2 & _). rewrite <- (references_shape before c c' x y Hs). unfold kNumNonrefProperties.
  assert (N4 : Z.to_nat (np - 16) = (4 * Z.to_nat (np / 4 - 4))%nat). { pose proof (Z.div_mod np 4 ltac:(lia)). lia. }
  rewrite N4. destruct (references_ok before c x y Hb Hx Hy (Z.to_nat (np / 4 - 4))) as (l & E & L). exists l. split; [exact E|]. unfold zlen. rewrite L, <- N4. lia.
Qed.

Notation Rt := (Rtree w data hd sp).
Definition with_cm (D : (Z -> Z) -> Z * Z * Z * Z) (pv : Z -> Z) : Z * Z * Z * Z := let '(c, p, o, m) := D pv in (in_map cm c, p, o, m).
(* what all paths guess, and what they guess of clustered contexts *)
Definition canon (x y : Z) : guessed := Rt (refs c) (decide T) uw x y.

Definition alike (f : Z -> Z) (a b : guessed) : Prop := let '(c, g, m) := a in let '(c', g', m') := b in f c = c' /\ m = m' /\ s32 g = s32 g'.
Definition eachp (Q : Z -> Z -> Prop) : Prop := forall x y, 0 <= x < w -> 0 <= y < h -> Q x y.
Definition linked (Re Rd : Z -> Z -> guessed) : Prop :=
  eachp (fun x y => let '(c, g, m) := Re x y in let '(c', g', m') := Rd x y in znth cm c = Some c' /\ m = m' /\ s32 g = s32 g').
Definition divides (k : how) (Re : Z -> Z -> guessed) : Prop := eachp (fun x y => let '(c, g, m) := Re x y in (forall v, residual k (pixc x y) g m = Good v -> residual Divided (pixc x y) g m = Good v) /\ (forall j, k = Shifted j -> 0 <= j /\ m = 2 ^ j)).

Lemma linked_undoes k Re Rd plain : linked Re Rd -> divides k Re -> (plain = true -> eachp (fun x y => exists c', Rd x y = (c', 0, 1))) -> undoes w h data cm k plain Re Rd.
Proof.
  intros L Dv Pl x y v Hx Hy. specialize (L x y Hx Hy). specialize (Dv x y Hx Hy). cbv beta in L, Dv. destruct (Re x y) as ((c0 & g0) & m0). destruct (Rd x y) as ((c1 & g1) & m1) eqn:Er. destruct L as (L1 & <- & L3). intros E. split; [exact L1|].
  assert (M : make_pixel v m0 g1 = pixc x y) by (apply (divided_back (pixc x y) g0 m0 v g1 ltac:(apply pix_i32; exact Hi) (proj1 Dv v E) ltac:(auto))).
  destruct plain; [|exact M]. destruct (Pl eq_refl x y Hx Hy) as (c' & E'). rewrite Er in E'. injection E' as _ -> ->. rewrite <- M. apply unpack_make.
Qed.

Lemma canon_in x y : exists cx gx mx, canon x y = (cx, gx, mx) /\ znth cm cx = Some (in_map cm cx) /\ 0 <= cx < zlen cm /\ 0 <= in_map cm cx < 256 /\ 1 <= mx < 2 ^ 31.
Proof.
  unfold canon, Rtree. destruct (decide T _) as (((cx & p) & o) & m) eqn:D. pose proof (decide_cm t T cm sp Ht _ _ _ _ _ D) as (A & B & C & E). do 3 eexists. split; [reflexivity|]. auto.
Qed.
Lemma link_via Re Rd : eachp (fun x y => alike (fun c => c) (canon x y) (Re x y)) -> eachp (fun x y => alike (in_map cm) (canon x y) (Rd x y)) -> linked Re Rd.
Proof.
  intros A B x y Hx Hy. specialize (A x y Hx Hy). specialize (B x y Hx Hy). cbv beta in A, B. destruct (canon_in x y) as (cx & gx & mx & E & Z & _). rewrite E in A, B. destruct (Re x y) as ((c0 & g0) & m0). destruct (Rd x y) as ((c1 & g1) & m1). unfold alike in A, B. destruct A as (-> & -> & A). destruct B as (<- & -> & B). split; [exact Z|]. split; [reflexivity|congruence].
Qed.

(* trees *)
Lemma agrees_props r u x y : agrees sp (props w data hd sp r u x y).
Proof. split; reflexivity. Qed.
Lemma props_other r r' u u' x y i : r x y = r' x y -> 2 <= i -> i <> 15 -> props w data hd sp r u x y i = props w data hd sp r' u' x y i.
Proof.
  intros E Hi1 Hi2. unfold props, refsref. rewrite E. destruct (Z.lt_ge_cases i 15).
  - rewrite !app_nth1 by (change (length (local_properties sp x y (nbref w data x y) (g9 w data x y))) with 15%nat; lia). reflexivity.
  - rewrite !app_assoc. rewrite !(app_nth2 (_ ++ [_])); rewrite ?app_length; change (length (local_properties sp x y (nbref w data x y) (g9 w data x y))) with 15%nat; cbn [length]; [reflexivity|lia|lia].
Qed.
Lemma tree_alike f r u : eachp (fun x y => r x y = refs c x y) -> u = uw \/ (u = true /\ uw = false) -> eachp (fun x y => alike f (canon x y) (Rt r (fun pv => let '(c, p, o, m) := decide T pv in (f c, p, o, m)) u x y)).
Proof.
  intros Er Hu x y Hx Hy. specialize (Er x y Hx Hy). cbv beta in Er. unfold canon, Rtree. destruct Hu as [->|(-> & Eu)].
  - replace (props w data hd sp r uw x y) with (props w data hd sp (refs c) uw x y) by (unfold props, refsref; rewrite Er; reflexivity). destruct (decide T _) as (((cx & p) & o) & m). repeat split.
  - rewrite Eu. destruct parts as (_ & _ & _ & _ & _ & P & _). destruct (no_wp t T cm sp Ht (props w data hd sp (refs c) false x y) (props w data hd sp r true x y)) as (E1 & E2).
    + apply agrees_props. + apply agrees_props. + rewrite <- P, Eu. discriminate.
    + intros i I1 I2. apply props_other; auto.
    + rewrite <- E1. destruct (decide T _) as (((cx & p) & o) & m). cbn [fst snd] in E2. rewrite (predict_no_wp p _ (fst (wpval w data hd x y)) 0 E2). repeat split.
Qed.

(* one leaf *)
Lemma one_leaf c0 p o m : fl = [FLeaf c0 p o m] -> fc = [FLeaf (in_map cm c0) p o m] /\ forall pv, agrees sp pv -> decide T pv = (c0, p, o, m).
Proof.
  intros E. destruct parts as (_ & _ & _ & L & _). rewrite E in L. assert (D : forall pv, agrees sp pv -> decide T pv = (c0, p, o, m)). { intros pv A. specialize (L pv A). cbn [length lookup] in L. change (znth [FLeaf c0 p o m] 0) with (Some (FLeaf c0 p o m)) in L. apply Some_inj in L. symmetry. exact L. }
  split; [|exact D]. rewrite E in Ec. cbn [cluster_leaves] in Ec. unfold in_map. destruct (znth cm c0); [|discriminate]. congruence.
Qed.
Lemma leaf_alike f c0 p o m gs : fl = [FLeaf c0 p o m] -> eachp (fun x y => forall u, s32 (o + predict_one p (nbref w data x y) u) = s32 (gs x y)) -> eachp (fun x y => alike f (canon x y) (f c0, gs x y, m)).
Proof.
  intros E G x y Hx Hy. destruct (one_leaf c0 p o m E) as (_ & D). unfold canon, Rtree. rewrite D by apply agrees_props. split; [reflexivity|]. split; [reflexivity|]. apply G; assumption.
Qed.
Lemma grad_one x y u : predict_one 5 (nbref w data x y) u = grad w data x y.
Proof. reflexivity. Qed.

(* tables *)
Lemma w16_id z : 0 <= z < 65536 -> w16 z = z.
Proof. intros. unfold w16. change (2 ^ 16) with 65536. apply Z.mod_small. assumption. Qed.
Lemma w8_id z : 0 <= z < 256 -> w8 z = z.
Proof. intros. unfold w8. change (2 ^ 8) with 256. apply Z.mod_small. assumption. Qed.
Lemma maybe_some wr b tr l r : maybe_lut wr b tr l = Some (Some r) -> b = true /\ tree_to_lut wr tr l = Some (Some r).
Proof. unfold maybe_lut. destruct b; [auto|discriminate]. Qed.

Variables (lut0 lut0' : Z -> Z).
Lemma tables b q pr : (wo = true /\ q = 15 /\ pr = 6 /\ b = wo) \/ (g = true /\ q = 9 /\ pr = 5 /\ b = g) -> forall le ld, maybe_lut w16 b fl lut0 = Some (Some le) -> maybe_lut w8 b fc lut0' = Some (Some ld) ->
  (forall v, znth cm (lutv le v) = Some (lutv ld v)) /\
  (forall pv, agrees sp pv -> -8192 <= pv q \/ ~ has_split T q (-8193) -> exists c, decide T pv = (c, pr, 0, 1) /\ lutv le (pv q) = c /\ lutv ld (pv q) = in_map cm c).
Proof.
  intros Hq le ld El Ed. apply maybe_some in El, Ed. destruct El as (_ & El). destruct Ed as (_ & Ed).
  destruct (lut_facts t T cm sp Ht w16 w8 lut0 lut0' fl np uw wo g fc q pr Ef Ec ltac:(tauto) le ld El Ed) as (A & B).
  assert (K : forall c, 0 <= c < zlen cm -> w16 c = c /\ znth cm c = Some (in_map cm c) /\ w8 (in_map cm c) = in_map cm c).
  { intros c0 H0. split; [apply w16_id; lia|]. destruct (znth_ex cm c0 H0) as (x & X). unfold in_map. rewrite X. split; [reflexivity|]. apply w8_id. destruct Ht as (_ & _ & _ & _ & _ & _ & Hu). rewrite Forall_forall in Hu. apply (Hu x). unfold znth in X. destruct (_ <? 0); [discriminate|]. eapply nth_error_In, X. }
  split.
  - intros v. destruct (A v) as (c0 & Bc & -> & ->). destruct (K c0 Bc) as (-> & -> & ->). reflexivity.
  - intros pv Ag Hx. destruct (B pv Ag Hx) as (c0 & D & -> & ->). pose proof (decide_cm t T cm sp Ht _ _ _ _ _ D) as (_ & Bc & _). destruct (K c0 Bc) as (-> & _ & ->). exists c0. auto.
Qed.

Lemma uses_wp : wo = true -> uw = true.
Proof.
  destruct parts as (_ & _ & _ & _ & _ & P & Q & _). intros W. apply P. right. apply Q in W. destruct W as (_ & W). destruct (some_leaf (resolve sp T)) as (q & Hq). rewrite <- (W q Hq). exact Hq.
Qed.
Lemma wp_table_alike f lut : wo = true -> (forall pv, agrees sp pv -> -8192 <= pv 15 \/ ~ has_split T 15 (-8193) -> exists c, decide T pv = (c, 6, 0, 1) /\ lutv lut (pv 15) = f c) -> ~ has_split T 15 (-8193) ->
  eachp (fun x y => alike f (canon x y) (Rwp w data hd lut x y)).
Proof.
  intros W L N x y Hx Hy. unfold canon, Rtree. rewrite (uses_wp W). destruct (L (props w data hd sp (refs c) true x y) (agrees_props _ _ _ _) (or_intror N)) as (c0 & -> & E). unfold Rwp. unfold alike.
  change (props w data hd sp (refs c) true x y 15) with (snd (wpval w data hd x y)) in E. split; [auto|]. split; [reflexivity|]. cbn [predict_one]. rewrite s32_idem. f_equal.
Qed.
Definition Rgrad (lut : Z -> Z) (x y : Z) : guessed := (lutv lut (gradp w data x y), grad w data x y, 1).
Lemma grad_table_alike f lut : (forall pv, agrees sp pv -> -8192 <= pv 9 \/ ~ has_split T 9 (-8193) -> exists c, decide T pv = (c, 5, 0, 1) /\ lutv lut (pv 9) = f c) -> ~ has_split T 9 (-8193) ->
  eachp (fun x y => s32 (gradp w data x y) = gradp w data x y) -> eachp (fun x y => alike f (canon x y) (Rgrad lut x y)).
Proof.
  intros L N G x y Hx Hy. unfold canon, Rtree. destruct (L (props w data hd sp (refs c) uw x y) (agrees_props _ _ _ _) (or_intror N)) as (c0 & -> & E). unfold Rgrad, alike.
  change (props w data hd sp (refs c) uw x y 9) with (s32 (gradp w data x y)) in E. rewrite (G x y Hx Hy) in E. split; [auto|]. split; reflexivity.
Qed.

(* ---- the encoder's paths ---- *)
Lemma enc_cases skip wp_lut grad_lut P k : maybe_lut w16 wo fl lut0 = Some wp_lut -> maybe_lut w16 g fl lut0 = Some grad_lut -> enc_path skip hd sp (refs c) w fl np uw wp_lut grad_lut = (P, k) ->
  exists Re, follows w h data P Re /\ divides k Re /\
    ((eachp (fun x y => alike (fun c => c) (canon x y) (Re x y)) /\ (skip = true \/ (wp_lut = None /\ (grad_lut = None \/ exists c0, fl = [FLeaf c0 5 0 1])))) \/
     (skip = false /\ exists le, wp_lut = Some le /\ Re = Rwp w data hd le) \/
     (skip = false /\ wp_lut = None /\ (forall c0, fl <> [FLeaf c0 5 0 1]) /\ exists le, grad_lut = Some le /\ Re = Rgrad le)).
Proof.
  intros Ew Eg Ep. destruct parts as (_ & _ & _ & L & _). pose proof (refs_ok c ltac:(repeat split)) as Rok.
  assert (Dd : forall R, divides Divided R) by (intros R x y Hx Hy; destruct (R x y) as ((? & ?) & ?); split; [auto|discriminate]).
  assert (S7 : exists Re, follows w h data (tree_wp_path hd sp (refs c) fl np w) Re /\ divides Divided Re /\ (eachp (fun x y => alike (fun c => c) (canon x y) (Re x y)))).
  { exists (Rt (refs c) (decide T) true). split; [|split].
    - apply (tree_follows w h data Hw Hi hd Hh sp (refs c) fl np (decide T) L Rok true _ (fun _ _ => false)); try reflexivity. discriminate.
    - apply Dd.
    - intros x y Hx Hy. pose proof (tree_alike (fun c => c) (refs c) true ltac:(intros ? ? ? ?; reflexivity) ltac:(destruct uw; auto) x y Hx Hy) as A. cbv beta in A. unfold Rtree in *. destruct (decide T (props w data hd sp (refs c) true x y)) as (((? & ?) & ?) & ?). exact A. }
  assert (S6 : uw = false -> exists Re, follows w h data (tree_path hd sp (refs c) fl np w) Re /\ divides Divided Re /\ (eachp (fun x y => alike (fun c => c) (canon x y) (Re x y)))).
  { intros Eu. exists (Rt (refs c) (decide T) false). split; [|split].
    - apply (tree_follows w h data Hw Hi hd Hh sp (refs c) fl np (decide T) L Rok false _ (fun _ _ => false)); try reflexivity. discriminate.
    - apply Dd.
    - intros x y Hx Hy. pose proof (tree_alike (fun c => c) (refs c) false ltac:(intros ? ? ? ?; reflexivity) ltac:(auto) x y Hx Hy) as A. cbv beta in A. unfold Rtree in *. destruct (decide T (props w data hd sp (refs c) false x y)) as (((? & ?) & ?) & ?). exact A. }
  assert (Ck : forall R, (forall x y, exists c0 g0, R x y = (c0, g0, 1)) -> divides Checked R).
  { intros R HR x y Hx Hy. destruct (HR x y) as (c0 & g0 & ->). split; [intros v; apply checked_divided|discriminate]. }
  assert (Gen : skip = false -> wp_lut = None -> grad_lut = None -> forall P k, (if negb uw && negb skip then (tree_path hd sp (refs c) fl np w, Divided) else (tree_wp_path hd sp (refs c) fl np w, Divided)) = (P, k) ->
    exists Re, follows w h data P Re /\ divides k Re /\ ((eachp (fun x y => alike (fun c => c) (canon x y) (Re x y)) /\ (skip = true \/ (wp_lut = None /\ (grad_lut = None \/ exists c0, fl = [FLeaf c0 5 0 1])))) \/ (skip = false /\ exists le, wp_lut = Some le /\ Re = Rwp w data hd le) \/ (skip = false /\ wp_lut = None /\ (forall c0, fl <> [FLeaf c0 5 0 1]) /\ exists le, grad_lut = Some le /\ Re = Rgrad le))).
  { intros Es E1 E2 P0 k0 E. destruct uw; cbn [negb andb] in E.
    - injection E as <- <-. destruct S7 as (Re & A & B & C). exists Re. split; [exact A|]. split; [exact B|]. left. auto.
    - rewrite Es in E. cbn [negb] in E. injection E as <- <-. destruct (S6 eq_refl) as (Re & A & B & C). exists Re. split; [exact A|]. split; [exact B|]. left. auto. }
  unfold enc_path in Ep. destruct skip.
  - injection Ep as <- <-. destruct S7 as (Re & A & B & C). exists Re. split; [exact A|]. split; [exact B|]. left. auto.
  - destruct wp_lut as [le|].
    { injection Ep as <- <-. exists (Rwp w data hd le). split; [apply (wp_enc_follows w h data Hw Hi hd Hh le)|]. split; [apply Ck; intros; unfold Rwp; eauto|]. right. left. eauto. }
    assert (GL : forall P k, match grad_lut with Some lut => (gradient_lut_path lut, Checked) | None => if negb uw && negb false then (tree_path hd sp (refs c) fl np w, Divided) else (tree_wp_path hd sp (refs c) fl np w, Divided) end = (P, k) -> (forall c0, fl <> [FLeaf c0 5 0 1]) ->
      exists Re, follows w h data P Re /\ divides k Re /\ ((eachp (fun x y => alike (fun c => c) (canon x y) (Re x y)) /\ (false = true \/ (@None (Z -> Z) = None /\ (grad_lut = None \/ exists c0, fl = [FLeaf c0 5 0 1])))) \/ (false = false /\ exists le, None = Some le /\ Re = Rwp w data hd le) \/ (false = false /\ @None (Z -> Z) = None /\ (forall c0, fl <> [FLeaf c0 5 0 1]) /\ exists le, grad_lut = Some le /\ Re = Rgrad le))).
    { intros P0 k0 E Nf. destruct grad_lut as [le|]; [|apply Gen; auto]. injection E as <- <-. exists (Rgrad le). split; [apply (gradient_lut_follows w h data le)|]. split; [apply Ck; intros; unfold Rgrad; eauto|]. right. right. eauto 8. }
    assert (Ns : (exists c0 p o m, fl = [FLeaf c0 p o m]) \/ (forall c0 p o m, fl <> [FLeaf c0 p o m])).
    { destruct fl as [|[c0 p o m|] [|]]; [right|left; eauto|right|right|right]; intros ? ? ? ?; discriminate. }
    destruct Ns as [(c0 & p & o & m & E1)|Ns].
    2: { apply GL; [|intros c0; apply Ns]. clear - Ep Ns. destruct fl as [|[c0 p o m|] [|]]; try exact Ep. exfalso. eapply Ns. reflexivity. }
    pose proof (one_leaf c0 p o m E1) as (_ & D1). assert (M1 : 1 <= m < 2 ^ 31). { pose proof (decide_cm t T cm sp Ht sp _ _ _ _ (D1 sp ltac:(split; reflexivity))). tauto. }
    rewrite E1 in Ep. rewrite <- E1 in Ep. unfold pGradient, pZero, pWeighted in Ep.
    destruct ((p =? 5) && (m =? 1) && (o =? 0)) eqn:Z5.
    { assert (p = 5 /\ m = 1 /\ o = 0) as (-> & -> & ->) by (rewrite !andb_true_iff in Z5; lia). injection Ep as <- <-. exists (fun x y => (c0, grad w data x y, 1)). split; [apply (gradient_follows w h data c0)|]. split; [apply Ck; eauto|]. left. split; [|right; split; [reflexivity|right; eauto]].
      apply (leaf_alike (fun c => c) c0 5 0 1 (grad w data) E1). intros x y _ _ u. rewrite grad_one. reflexivity. }
    all: destruct grad_lut as [le|]; [injection Ep as <- <-; exists (Rgrad le); split; [apply (gradient_lut_follows w h data le)|]; split; [apply Ck; intros; unfold Rgrad; eauto|]; right; right; split; [reflexivity|]; split; [reflexivity|]; split; [intros c1; rewrite E1; intros X; injection X as _ -> -> ->; cbv in Z5; discriminate|eauto]|].
    all: destruct ((p =? 0) && (m =? 1) && (o =? 0)) eqn:Z1; [assert (p = 0 /\ m = 1 /\ o = 0) as (-> & -> & ->) by (rewrite !andb_true_iff in Z1; lia); injection Ep as <- <-;
      exists (fun x y => (c0, 0, 1)); split; [apply (zero_follows w h data c0 0 1)|]; split; [intros x y Hx Hy; split; [intros v; apply raw_divided, pix_i32, Hi|discriminate]|]; left; split; [apply (leaf_alike (fun c => c) c0 0 0 1 (fun _ _ => 0) E1); intros x y _ _ u; reflexivity|auto]|].
    all: destruct (negb (p =? 6) && (Z.land m (m - 1) =? 0) && (o =? 0)) eqn:Z2; [|apply Gen; auto].
    all: apply andb_true_iff in Z2; destruct Z2 as (Z2 & Z4); apply andb_true_iff in Z2; destruct Z2 as (Z2 & Z3); apply negb_true_iff in Z2; injection Ep as <- <-.
    all: exists (fun x y => (c0, predict_one p (nbref w data x y) 0, m)); split; [apply (single_follows w h data c0 p m)|]; split; [|left; split; [apply (leaf_alike (fun c => c) c0 p o m (fun x y => predict_one p (nbref w data x y) 0) E1); intros x y _ _ u; rewrite (predict_no_wp p _ u 0) by lia; f_equal; lia|auto]].
    all: assert (Wm : w32 m = m) by (unfold w32; apply Z.mod_small; lia); assert (Pm : m = 2 ^ Z.log2 (w32 m)) by (rewrite Wm; apply pow2_of; lia).
    all: intros x y Hx Hy; split; [intros v; apply shifted_divided; [apply Z.log2_nonneg|exact Pm]|intros j J; injection J as <-; split; [apply Z.log2_nonneg|exact Pm]].
Qed.

(* ---- the decoder's paths ---- *)
Lemma dec_cases R c' wp_lut grad_lut : same_shape c c' -> 0 < h -> honest R -> maybe_lut w8 wo fc lut0' = Some wp_lut -> maybe_lut w8 g fc lut0' = Some grad_lut ->
  exists Pd Rd, follows w h data Pd Rd /\
    (forall toks d rest, dec_rows false Pd w (Z.to_nat h) 0 [] start toks = Some (d, rest) -> dec_channel R cm hd t lut0' gid before c' chan toks = Some (d, rest)) /\
    ((eachp (fun x y => alike (in_map cm) (canon x y) (Rd x y)) /\ ((exists c0 p o m, fl = [FLeaf c0 p o m] /\ (p = 0 \/ (p = 5 /\ o = 0 /\ m = 1))) \/ (grad_lut = None /\ (wp_lut = None \/ lz77 R = true \/ w <= 8)))) \/
     (exists ld, wp_lut = Some ld /\ Rd = Rwp w data hd ld) \/
     ((forall c0, fl <> [FLeaf c0 5 0 1]) /\ exists ld, grad_lut = Some ld /\ Rd = Rgrad ld)).
Proof.
  intros Hs Hh0 Ho Ew Eg. destruct parts as (_ & _ & _ & _ & L & _). pose proof (refs_ok c' Hs) as Rok.
  assert (Edec : exists k1, dec_channel R cm hd t lut0' gid before c' chan = k1) by eauto. destruct Edec as (k1 & Ek). rewrite Ek. unfold dec_channel in Ek.
  destruct Hs as (S1 & S2 & S3 & S4). rewrite <- S1, <- S2 in Ek. rewrite Ef, Ec, Ew, Eg in Ek. destruct (Z.eqb_spec w 0); [lia|]. destruct (Z.eqb_spec h 0); [lia|]. cbn [orb] in Ek.
  assert (Er : eachp (fun x y => refs c' x y = refs c x y)) by (intros x y _ _; symmetry; apply references_shape; repeat split; assumption).
  assert (Tr : forall nr u, u = uw -> exists Rd, follows w h data (tree_dec_path nr u hd sp (refs c') fc np w) Rd /\ eachp (fun x y => alike (in_map cm) (canon x y) (Rd x y))).
  { intros nr u ->. exists (Rt (refs c') (fun pv => let '(c, p, o, m) := decide T pv in (in_map cm c, p, o, m)) uw). split.
    - apply (tree_follows w h data Hw Hi hd Hh sp (refs c') fc np _ L Rok uw _ (fun x y => nr && (1 <? y) && (8 <? w) && (np - kNumNonrefProperties =? 0) && (2 <=? x) && (x <? w - 2))); try reflexivity.
      intros x y _ _ N. unfold kNumNonrefProperties in N. rewrite !andb_true_iff in N. lia.
    - apply tree_alike; [exact Er|auto]. }
  pose (oP := match grad_lut with Some lut => gradient_lut_path lut | None =>
    match wp_lut with
    | Some lut => if negb (lz77 R) && (8 <? w) then wp_lut_dec_path hd lut w else if negb uw then tree_dec_path true false hd sp (refs c') fc np w else tree_dec_path (negb (lz77 R)) true hd sp (refs c') fc np w
    | None => if negb uw then tree_dec_path true false hd sp (refs c') fc np w else tree_dec_path (negb (lz77 R)) true hd sp (refs c') fc np w
    end end).
  assert (Ek' : forall toks, k1 toks = match fc with
    | [FLeaf ctx predictor offset multiplier] =>
        if predictor =? pZero then
          match single R toks ctx with
          | Some value => let count := Z.to_nat (w * h) in if (length toks <? count)%nat then None else Some (repeat (make_pixel value multiplier offset) count, skipn count toks)
          | None => dec_rows ((multiplier =? 1) && (offset =? 0)) (zero_path ctx offset multiplier) w (Z.to_nat h) 0 [] start toks
          end
        else if lz77 R && huff_rle R && all_gradient_noop t then dec_rows false (rle_path ctx) w (Z.to_nat h) 0 [] start toks
        else if (predictor =? pGradient) && (offset =? 0) && (multiplier =? 1) then dec_rows false (gradient_path ctx) w (Z.to_nat h) 0 [] start toks
        else dec_rows false oP w (Z.to_nat h) 0 [] start toks
    | _ => dec_rows false oP w (Z.to_nat h) 0 [] start toks end).
  { intros toks. rewrite <- Ek. unfold oP. destruct grad_lut; [reflexivity|]. destruct wp_lut; [destruct (negb (lz77 R) && (8 <? w)); [reflexivity|]|]; destruct (negb uw); reflexivity. }
  assert (Others : (forall c0, fl <> [FLeaf c0 5 0 1]) -> (forall toks, k1 toks = dec_rows false oP w (Z.to_nat h) 0 [] start toks) ->
    exists Pd Rd, follows w h data Pd Rd /\
    (forall toks d rest, dec_rows false Pd w (Z.to_nat h) 0 [] start toks = Some (d, rest) -> k1 toks = Some (d, rest)) /\
    ((eachp (fun x y => alike (in_map cm) (canon x y) (Rd x y)) /\ ((exists c0 p o m, fl = [FLeaf c0 p o m] /\ (p = 0 \/ (p = 5 /\ o = 0 /\ m = 1))) \/ (grad_lut = None /\ (wp_lut = None \/ lz77 R = true \/ w <= 8)))) \/
     (exists ld, wp_lut = Some ld /\ Rd = Rwp w data hd ld) \/
     ((forall c0, fl <> [FLeaf c0 5 0 1]) /\ exists ld, grad_lut = Some ld /\ Rd = Rgrad ld))).
  { intros Nf Eo. exists oP. destruct grad_lut as [ld|].
    { exists (Rgrad ld). split; [apply (gradient_lut_follows w h data ld)|]. split; [intros; rewrite Eo; assumption|]. right. right. eauto. }
    assert (Tree : wp_lut = None \/ lz77 R = true \/ w <= 8 -> oP = (if negb uw then tree_dec_path true false hd sp (refs c') fc np w else tree_dec_path (negb (lz77 R)) true hd sp (refs c') fc np w) -> exists Rd, follows w h data oP Rd /\ (forall toks d rest, dec_rows false oP w (Z.to_nat h) 0 [] start toks = Some (d, rest) -> k1 toks = Some (d, rest)) /\ ((eachp (fun x y => alike (in_map cm) (canon x y) (Rd x y)) /\ ((exists c0 p o m, fl = [FLeaf c0 p o m] /\ (p = 0 \/ (p = 5 /\ o = 0 /\ m = 1))) \/ (@None (Z -> Z) = None /\ (wp_lut = None \/ lz77 R = true \/ w <= 8)))) \/ (exists ld, wp_lut = Some ld /\ Rd = Rwp w data hd ld) \/ ((forall c0, fl <> [FLeaf c0 5 0 1]) /\ exists ld, @None (Z -> Z) = Some ld /\ Rd = Rgrad ld))).
    { intros Hw' ->. destruct (Tr (if negb uw then true else negb (lz77 R)) uw eq_refl) as (Rd & F & A). exists Rd. split; [destruct uw; exact F|]. split; [intros toks d rest E; rewrite Eo; exact E|]. left. split; [exact A|]. right. auto. }
    destruct wp_lut as [ld|]; [|apply Tree; auto]. destruct (negb (lz77 R) && (8 <? w)) eqn:Cw; [|apply Tree; [right; destruct (lz77 R); [auto|]; cbn [negb andb] in Cw; right; lia|reflexivity]].
    exists (Rwp w data hd ld). split; [apply (wp_dec_follows w h data Hw Hi hd Hh ld)|]. split; [intros; rewrite Eo; assumption|]. right. left. eauto. }
  assert (Ns : (exists c0 p o m, fl = [FLeaf c0 p o m]) \/ (forall c0 p o m, fl <> [FLeaf c0 p o m] /\ fc <> [FLeaf c0 p o m])).
  { destruct parts as (Sh & _). destruct fl as [|[c0 p o m|] [|]]; [right|left; eauto|right|right|right]; intros c1 p1 o1 m1; (split; [discriminate|]); intros ->; inversion Sh as [|? ? ? ? Q Sh']; subst; try (inversion Q); inversion Sh'. }
  destruct Ns as [(c0 & p & o & m & E1)|Ns].
  2: { apply Others; [intros c0; apply (Ns c0 5 0 1)|]. intros toks. rewrite Ek'. clear - Ns. destruct fc as [|[c0 p o m|] [|]]; try reflexivity. destruct (Ns c0 p o m) as (_ & X). congruence. }
  destruct (one_leaf c0 p o m E1) as (E2 & D1). rewrite E2 in Ek'. unfold pZero, pGradient in Ek'. destruct (Z.eqb_spec p 0) as [Ep|Np].
  { subst p. exists (zero_path (in_map cm c0) o m), (fun _ _ => (in_map cm c0, o, m)). split; [apply zero_follows|]. split.
    - intros toks d rest E. rewrite Ek'. clear Ek Ek' Others Tr. destruct (single R toks (in_map cm c0)) as [v|] eqn:Es.
      + pose proof (zero_rows _ _ _ w v (Z.lt_le_incl _ _ Hw) _ _ _ _ _ _ _ (Ho _ _ _ Es) E) as (A & B & C). cbv zeta in A, B, C. assert (K : (Z.to_nat h * Z.to_nat w)%nat = Z.to_nat (w * h)) by (rewrite Z.mul_comm; symmetry; apply Z2Nat.inj_mul; lia). cbn [app] in A. rewrite K in A, B, C. cbv zeta. destruct (Nat.ltb_spec (length toks) (Z.to_nat (w * h))) as [X|X]; [exfalso; exact (Nat.lt_irrefl _ (Nat.lt_le_trans _ _ _ X B))|]. rewrite A, C. reflexivity.
      + destruct ((m =? 1) && (o =? 0)) eqn:Eq; [|exact E]. assert (m = 1 /\ o = 0) as (-> & ->) by lia. rewrite plain_rows. exact E.
    - left. split; [|left; exists c0, 0, o, m; auto]. apply (leaf_alike (in_map cm) c0 0 o m (fun _ _ => o) E1). intros x y _ _ u. cbn [predict_one]. rewrite Z.add_0_r. reflexivity. }
  destruct (lz77 R && huff_rle R && all_gradient_noop t) eqn:Rl.
  { rewrite !andb_true_iff in Rl. destruct Rl as (_ & Rl). destruct (noop_leaves t T cm Ht Rl sp c0 p o m (D1 sp ltac:(split; reflexivity))) as (-> & -> & ->).
    exists (rle_path (in_map cm c0)), (fun x y => (in_map cm c0, grad w data x y, 1)). split; [apply rle_follows; assumption|]. split; [intros; rewrite Ek'; assumption|]. left. split; [|left; exists c0, 5, 0, 1; auto].
    apply (leaf_alike (in_map cm) c0 5 0 1 (grad w data) E1). intros x y _ _ u. rewrite grad_one. reflexivity. }
  destruct ((p =? 5) && (o =? 0) && (m =? 1)) eqn:Gl.
  { assert (p = 5 /\ m = 1 /\ o = 0) as (-> & -> & ->) by (rewrite !andb_true_iff in Gl; lia).
    exists (gradient_path (in_map cm c0)), (fun x y => (in_map cm c0, grad w data x y, 1)). split; [apply gradient_follows|]. split; [intros; rewrite Ek'; assumption|]. left. split; [|left; exists c0, 5, 0, 1; auto].
    apply (leaf_alike (in_map cm) c0 5 0 1 (grad w data) E1). intros x y _ _ u. rewrite grad_one. reflexivity. }
  apply Others; [|exact Ek']. intros c1. rewrite E1. intros X. injection X as _ -> -> ->. cbv in Gl. discriminate.
Qed.

Lemma same_some {A B} (a : option (option A)) (b : option (option B)) : same_outcome a b -> forall x, a = Some x -> exists y, b = Some y /\ (x = None <-> y = None).
Proof. unfold same_outcome. intros H x ->. destruct b as [[|]|]; destruct x; try tauto; eexists; split; try reflexivity; intuition discriminate. Qed.

Lemma leaf_there c0 p o m : (forall pv, agrees sp pv -> decide T pv = (c0, p, o, m)) -> has_leaf (resolve sp T) p.
Proof. intros D. apply (decide_has_leaf _ sp c0 p o m). rewrite (decide_resolved t T cm sp Ht sp); [apply D|]; split; reflexivity. Qed.

(* ---- one channel ---- *)
Lemma channel_rt skip R c' ts : same_shape c c' -> 0 < h -> honest R ->
  (has_split T 15 (-8193) -> skip = false /\ lz77 R = false /\ 8 < w) ->
  (skip = true -> ~ has_split T 9 (-8193) /\ eachp (fun x y => s32 (gradp w data x y) = gradp w data x y)) ->
  enc_channel skip hd t lut0 gid before c chan = Good ts ->
  exists us, clustered cm ts us /\ length us = Z.to_nat (w * h) /\ forall rest, dec_channel R cm hd t lut0' gid before c' chan (us ++ rest) = Some (data, rest).
Proof.
  intros Hs Hh0 Ho C1 C2 E. unfold enc_channel in E. rewrite Ef in E. cbn [opt bind] in E.
  destruct parts as (Sh & _ & _ & _ & _ & _ & Fw & Fg).
  destruct (maybe_lut w16 wo fl lut0) as [wp_lut|] eqn:Ew; [|discriminate]. cbn [opt bind] in E. destruct (maybe_lut w16 g fl lut0) as [grad_lut|] eqn:Eg; [|discriminate]. cbn [opt bind] in E.
  destruct (same_some _ _ (maybe_shape w16 w8 wo fl fc lut0 lut0' Sh) _ Ew) as (wp_lut' & Ew' & Iw). destruct (same_some _ _ (maybe_shape w16 w8 g fl fc lut0 lut0' Sh) _ Eg) as (grad_lut' & Eg' & Ig).
  destruct (enc_path skip hd sp (refs c) w fl np uw wp_lut grad_lut) as (Pe & k) eqn:Ep.
  destruct (enc_cases skip wp_lut grad_lut Pe k Ew Eg Ep) as (Re & Fe & Dv & Ke). destruct (dec_cases R c' wp_lut' grad_lut' Hs Hh0 Ho Ew' Eg') as (Pd & Rd & Fd & Dd & Kd).
  assert (Ex : wp_lut <> None -> grad_lut <> None -> False).
  { intros X Y. destruct wo; [|cbn [maybe_lut] in Ew; congruence]. destruct g; [|cbn [maybe_lut] in Eg; congruence]. destruct (some_leaf (resolve sp T)) as (q & Q). pose proof (proj2 (proj1 Fw eq_refl) q Q). pose proof (proj2 (proj1 Fg eq_refl) q Q). lia. }
  assert (Lk : linked Re Rd).
  { destruct Ke as [(Ae & Ke)|[(_ & le & Ele & ->)|(Es & Ewn & Nf & le & Ele & ->)]].
    - destruct Kd as [(Ad & _)|[(ld & Eld & ->)|(Nf & ld & Eld & ->)]].
      + apply link_via; assumption.
      + destruct wp_lut as [le|]; [|destruct Iw as (Iw & _); rewrite (Iw eq_refl) in Eld; discriminate]. destruct Ke as [Es|(X & _)]; [|discriminate]. subst wp_lut'. destruct (maybe_some _ _ _ _ _ Ew) as (W & _).
        destruct (tables wo 15 6 ltac:(tauto) le ld Ew Ew') as (_ & B). apply link_via; [exact Ae|]. apply wp_table_alike; [exact W| |intros X; destruct (C1 X); congruence].
        intros pv Ag X. destruct (B pv Ag X) as (c0 & B1 & B2 & B3). eauto.
      + destruct grad_lut as [le|]; [|destruct Ig as (Ig & _); rewrite (Ig eq_refl) in Eld; discriminate]. subst grad_lut'. assert (Es : skip = true) by (destruct Ke as [Es|(_ & [X|(c0 & X)])]; [exact Es|discriminate|destruct (Nf c0 X)]). destruct (maybe_some _ _ _ _ _ Eg) as (W & _).
        destruct (tables g 9 5 ltac:(tauto) le ld Eg Eg') as (_ & B). destruct (C2 Es) as (N9 & G). apply link_via; [exact Ae|]. apply grad_table_alike; [|exact N9|exact G].
        intros pv Ag X. destruct (B pv Ag X) as (c0 & B1 & B2 & B3). eauto.
    - subst wp_lut. destruct (maybe_some _ _ _ _ _ Ew) as (W & _). assert (Wq : exists ld, wp_lut' = Some ld) by (destruct wp_lut' as [ld|]; [eauto|destruct Iw as (_ & Iw); discriminate (Iw eq_refl)]). destruct Wq as (ld & ->).
      destruct (tables wo 15 6 ltac:(tauto) le ld Ew Ew') as (A & B).
      destruct Kd as [(Ad & Kd)|[(ld2 & Eld & ->)|(Nf & ld2 & Eld & ->)]].
      + assert (N15 : ~ has_split T 15 (-8193)).
        { intros X. destruct (C1 X) as (_ & X1 & X2). destruct Kd as [(c0 & p & o & m & E1 & Hp)|(_ & [Kd|[Kd|Kd]])]; [|discriminate|congruence|lia].
          destruct (one_leaf c0 p o m E1) as (_ & D1). pose proof (leaf_there c0 p o m D1) as Lf. apply (proj1 Fw W) in Lf. lia. }
        apply link_via; [|exact Ad]. apply (wp_table_alike (fun c => c)); [exact W| |exact N15]. intros pv Ag X. destruct (B pv Ag X) as (c0 & B1 & B2 & B3). eauto.
      + apply Some_inj in Eld. subst ld2. intros x y Hx Hy. unfold Rwp. split; [apply A|]. split; reflexivity.
      + exfalso. apply Ex; [discriminate|]. intros X. destruct Ig as (Ig & _). rewrite (Ig X) in Eld. discriminate.
    - subst grad_lut. assert (Wq : exists ld, grad_lut' = Some ld) by (destruct grad_lut' as [ld|]; [eauto|destruct Ig as (_ & Ig); discriminate (Ig eq_refl)]). destruct Wq as (ld & ->). destruct (maybe_some _ _ _ _ _ Eg) as (W & _).
      destruct (tables g 9 5 ltac:(tauto) le ld Eg Eg') as (A & B).
      destruct Kd as [(Ad & Kd)|[(ld2 & Eld & ->)|(_ & ld2 & Eld & ->)]].
      + exfalso. destruct Kd as [(c0 & p & o & m & E1 & Hp)|(X & _)]; [|discriminate]. destruct Hp as [->|(-> & -> & ->)]; [|apply (Nf c0 E1)].
        destruct (one_leaf c0 0 o m E1) as (_ & D1). pose proof (leaf_there c0 0 o m D1) as Lf. apply (proj1 Fg W) in Lf. discriminate.
      + destruct Iw as (Iw & _). rewrite (Iw Ewn) in Eld. discriminate.
      + apply Some_inj in Eld. subst ld2. intros x y Hx Hy. unfold Rgrad. split; [apply A|]. split; reflexivity. }
  destruct (channel_back w h data Hw Hlen cm Pe Pd Re Rd k false (linked_undoes k Re Rd false Lk Dv ltac:(discriminate)) Fe Fd ts E) as (us & U1 & U2 & U3). exists us. split; [exact U1|]. split; [exact U2|]. intros rest. apply Dd, U3.
Qed.
End Channel.
