(* The palette of several channels *)
From Verif Require Import Base Arr ListAux Wrap PaletteModel PaletteSpec PaletteProofs PaletteChan.
From Coq Require Import Permutation.
Ltac Zify.zify_post_hook ::= idtac.

Lemma color_eqb_eq a b : color_eqb a b = true <-> a = b.
Proof. unfold color_eqb. destruct (list_eq_dec Z.eq_dec a b); split; intros; congruence. Qed.
Lemma existsb_color c l : existsb (color_eqb c) l = true <-> In c l.
Proof.
  rewrite existsb_exists. split; [intros (x & H & E); apply color_eqb_eq in E; congruence|intros H; exists c; split; [exact H|apply color_eqb_eq; reflexivity]].
Qed.

Lemma scan_spec n implicit : forall px cand order used r k, scan n implicit cand order used px = Some (r, k) -> (forall c, In c cand -> In c implicit \/ In c order) -> zlen order <= n ->
  (forall c, In c cand \/ In c px -> In c implicit \/ In c r) /\ zlen r <= n /\ (forall c, In c r -> In c order \/ In c px).
Proof.
  induction px as [|v px IH]; intros cand order used r k H C B; cbn [scan] in H.
  - injection H as <- <-. split; [intros c [K|[]]; apply C; exact K|]. split; [exact B|]. intros c K. left. exact K.
  - destruct (existsb (color_eqb v) cand) eqn:E1.
    + apply existsb_color in E1. destruct (IH _ _ _ _ _ H C B) as (I1 & I2 & I3). split; [|split; [exact I2|intros c K; apply I3 in K; cbn [In]; tauto]].
      intros c [K|[K|K]]; [apply I1; left; exact K|subst v; apply I1; left; exact E1|apply I1; right; exact K].
    + destruct (existsb (color_eqb v) implicit) eqn:E2.
      * apply existsb_color in E2. destruct (IH _ _ _ _ _ H) as (I1 & I2 & I3); [intros c [<-|K]; [left; exact E2|apply C; exact K]|exact B|].
        split; [|split; [exact I2|intros c K; apply I3 in K; cbn [In]; tauto]]. intros c K. apply I1. cbn [In] in *. tauto.
      * destruct (Z.ltb_spec n (zlen order + 1)); [discriminate|].
        destruct (IH _ _ _ _ _ H) as (I1 & I2 & I3).
        { intros c [<-|K]; [right; apply in_or_app; right; left; reflexivity|]. destruct (C c K); [left; assumption|right; apply in_or_app; left; assumption]. }
        { rewrite zlen_app, zlen_cons, zlen_nil. lia. }
        split; [intros c K; apply I1; cbn [In] in *; tauto|]. split; [exact I2|]. intros c K. apply I3 in K. rewrite in_app_iff in K. cbn [In] in *. tauto.
Qed.

Lemma combine_zseq {A} (l : list A) : forall z c v, In (c, v) (combine l (zseq z (length l))) -> z <= v < z + zlen l /\ znth l (v - z) = Some c.
Proof.
  induction l as [|a l IH]; intros z c v H; [destruct H|]. cbn [length zseq combine In] in H. rewrite zlen_cons. pose proof (zlen_nonneg l). destruct H as [H|H].
  - injection H as <- <-. rewrite Z.sub_diag. split; [lia|reflexivity].
  - apply IH in H. destruct H as (B & E). split; [lia|]. rewrite znth_succ by lia. replace (v - z - 1) with (v - (z + 1)) by lia. exact E.
Qed.
Lemma in_combine_zseq {A} (l : list A) : forall z c, In c l -> exists v, In (c, v) (combine l (zseq z (length l))).
Proof.
  induction l as [|a l IH]; intros z c H; [destruct H|]. cbn [length zseq combine In]. destruct H as [<-|H]; [exists z; left; reflexivity|]. destruct (IH (z + 1) c H) as (v & K). exists v. right. exact K.
Qed.

Lemma lookup_color_in m c v0 : In (c, v0) m -> In (c, lookup_color m c) m.
Proof.
  intros H. unfold lookup_color. destruct (find _ (rev m)) as [[c' v]|] eqn:E.
  - apply find_some in E. destruct E as (I & K). apply color_eqb_eq in K. cbn [fst] in K. subst c'. apply in_rev. exact I.
  - exfalso. assert (K := find_none _ _ E (c, v0)). rewrite <- in_rev in K. specialize (K H). cbn [fst] in K. assert (color_eqb c c = true) by (apply color_eqb_eq; reflexivity). congruence.
Qed.

(* each index stands for the colour of the pixel, either in the palette or beyond it *)
Theorem colors_palette_ok sort n nb d px pal idx : (forall l, Permutation (sort l) l) -> 0 <= n -> colors_palette sort n nb d px = Ret (pal, idx) ->
  exists implicit f, implicit_colors nb d = Some implicit /\ idx = map (map f) px /\ zlen pal <= n + zlen implicit /\
  (forall c, In c pal -> In c implicit \/ In c (concat px)) /\
  forall c, In c (concat px) -> (0 <= f c < zlen pal /\ znth pal (f c) = Some c) \/ (zlen pal <= f c /\ znth implicit (f c - zlen pal) = Some c).
Proof.
  intros PS Hn H. unfold colors_palette in H. destruct (implicit_colors nb d) as [implicit|]; [|discriminate].
  destruct (scan n implicit [] [] 0 (concat px)) as [[order used]|] eqn:E; [|discriminate].
  destruct (zlen order + used =? 1); [discriminate|]. cbv zeta in H.
  set (frequent := filter _ implicit) in H. injection H as <- <-.
  apply scan_spec in E; [|intros c []|exact Hn]. destruct E as (I & B & O).
  set (o := order ++ frequent). assert (LP : zlen (sort o) = zlen o) by (unfold zlen; rewrite (Permutation_length (PS o)); reflexivity).
  assert (LF : zlen frequent <= zlen implicit) by (subst frequent; unfold zlen; apply Nat2Z.inj_le; clear; induction implicit as [|a l IH]; [apply le_n|cbn [filter]; destruct (_ <? _); cbn [length]; lia]).
  exists implicit, (lookup_color (combine implicit (zseq (zlen o) (length implicit)) ++ combine (sort o) (zseq 0 (length (sort o))))).
  split; [reflexivity|]. split; [reflexivity|]. split; [rewrite LP; subst o; rewrite zlen_app; lia|]. split.
  - intros c Hc. apply (Permutation_in _ (PS o)) in Hc. subst o. apply in_app_or in Hc. destruct Hc as [Hc|Hc].
    + apply O in Hc. destruct Hc as [[]|Hc]. right. exact Hc.
    + subst frequent. apply filter_In in Hc. left. apply Hc.
  - intros c Hc. set (m := _ ++ _). assert (K : exists v, In (c, v) m).
    { destruct (I c (or_intror Hc)) as [K|K].
      - destruct (in_combine_zseq implicit (zlen o) c K) as (v & Kv). exists v. apply in_or_app. left. exact Kv.
      - assert (K2 : In c (sort o)) by (apply (Permutation_in _ (Permutation_sym (PS o))); subst o; apply in_or_app; left; exact K).
        destruct (in_combine_zseq (sort o) 0 c K2) as (v & Kv). exists v. apply in_or_app. right. exact Kv. }
    destruct K as (v0 & K). apply lookup_color_in in K. unfold m in K at 2. apply in_app_or in K. destruct K as [K|K].
    + right. apply combine_zseq in K. rewrite LP. split; [lia|apply K].
    + left. apply combine_zseq in K. rewrite Z.sub_0_r in K. split; [lia|apply K].
Qed.

(* ---- colours and channels ---- *)
Lemma zseq_length z n : length (zseq z n) = n.
Proof. revert z. induction n as [|n IH]; intros z; [reflexivity|]. cbn [zseq length]. rewrite IH. reflexivity. Qed.

Lemma znth_list {A} (d : A) : forall (l pre : list A) n, zlen l = Z.of_nat n -> map (fun i => match znth (pre ++ l) i with Some v => v | None => d end) (zseq (zlen pre) n) = l.
Proof.
  induction l as [|a l IH]; intros pre n H.
  - change (zlen []) with 0 in H. replace n with O by lia. reflexivity.
  - rewrite zlen_cons in H. pose proof (zlen_nonneg l). destruct n as [|n]; [lia|]. cbn [zseq map]. f_equal.
    + unfold znth. pose proof (zlen_nonneg pre). destruct (Z.ltb_spec (zlen pre) 0); [lia|]. unfold zlen. rewrite Nat2Z.id, nth_error_app2, Nat.sub_diag by lia. reflexivity.
    + specialize (IH (pre ++ [a]) n ltac:(lia)). rewrite zlen_app, zlen_cons, zlen_nil in IH. replace (zlen pre + (1 + 0)) with (zlen pre + 1) in IH by lia. rewrite <- app_assoc in IH. exact IH.
Qed.
Lemma znth_list0 {A} (d : A) l n : zlen l = Z.of_nat n -> map (fun i => match znth l i with Some v => v | None => d end) (zseq 0 n) = l.
Proof. intros H. exact (znth_list d l [] n H). Qed.

Lemma Forall2_nth {A B} (Q : A -> B -> Prop) l r d e i : Forall2 Q l r -> (i < length l)%nat -> Q (nth i l d) (nth i r e).
Proof. intros H. revert i. induction H as [|a b l r K _ IH]; intros i Hi; cbn [length] in Hi; [lia|]. destruct i; [exact K|]. cbn [nth]. apply IH. lia. Qed.
Lemma Forall2_len {A B} (Q : A -> B -> Prop) l r : Forall2 Q l r -> length r = length l.
Proof. induction 1; cbn; congruence. Qed.

Lemma Forall2_map_eq {A B C} (Q : A -> B -> Prop) (f : A -> C) (g : B -> C) l r : Forall2 Q l r -> (forall a b, In a l -> Q a b -> g b = f a) -> map g r = map f l.
Proof.
  induction 1 as [|a b l r K _ IH]; intros H; [reflexivity|]. cbn [map]. f_equal; [apply H; [left; reflexivity|exact K]|]. apply IH. intros. apply H; [right|]; assumption.
Qed.

Definition pixel (c : channel) (x y : Z) : option Z := do row <- znth (crows c) y; znth row x.

(* channel number i is made of the components number i of the colours *)
Lemma color_rows_channel l w h px i : color_rows l w h = Some px -> Forall (fun c => channel_ok c /\ cw c = w /\ ch c = h) l -> (i < length l)%nat ->
  map (map (fun color => nth i color 0)) px = crows (nth i l (Chan 0 0 0 0 [])).
Proof.
  intros H F Hi. unfold color_rows in H. apply omap_inv in H. rewrite Forall_forall in F. destruct (F _ (nth_In l (Chan 0 0 0 0 []) Hi)) as ((L & W & R) & Ew & Eh).
  set (c := nth i l _) in *.
  rewrite <- (znth_list0 [] (crows c) (Z.to_nat h)) by (pose proof (zlen_nonneg (crows c)); lia).
  apply (Forall2_map_eq _ _ _ _ _ H). intros y row Hy K. apply zseq_in in Hy.
  assert (By : 0 <= y < zlen (crows c)) by lia. rewrite (znth_some _ _ [] By).
  rewrite Forall_forall in R. destruct (R (nth (Z.to_nat y) (crows c) [])) as (LR & _); [apply nth_In; unfold zlen in By; lia|].
  rewrite <- (znth_list0 0 (nth (Z.to_nat y) (crows c) []) (Z.to_nat w)) by lia.
  apply omap_inv in K. apply (Forall2_map_eq _ _ _ _ _ K). intros x color Hx Kc. apply zseq_in in Hx. unfold color_at in Kc. apply omap_inv in Kc.
  pose proof (Forall2_nth _ _ _ (Chan 0 0 0 0 []) 0 i Kc Hi) as G. cbn beta in G. fold c in G. rewrite (znth_some _ _ [] By) in G. rewrite G. reflexivity.
Qed.

Lemma color_rows_total l w h : 0 <= w -> 0 <= h -> Forall (fun c => channel_ok c /\ cw c = w /\ ch c = h) l ->
  exists px, color_rows l w h = Some px.
Proof.
  intros Hw Hh F. unfold color_rows. destruct (omap_ok (fun y => omap (fun x => color_at l x y) (zseq 0 (Z.to_nat w))) (fun _ _ => True) (zseq 0 (Z.to_nat h))) as (r & E & _); [|eauto].
  intros y Hy. apply zseq_in in Hy. destruct (omap_ok (fun x => color_at l x y) (fun _ _ => True) (zseq 0 (Z.to_nat w))) as (r & E & _); [|eauto].
  intros x Hx. apply zseq_in in Hx. unfold color_at. edestruct (omap_ok (fun c => do row <- znth (crows c) y; znth row x) (fun _ _ => True) l) as (r & E & _); [|eauto].
  intros c Hc. rewrite Forall_forall in F. destruct (F c Hc) as ((L & W & R) & Ew & Eh). assert (By : 0 <= y < zlen (crows c)) by lia. rewrite (znth_some _ _ [] By).
  rewrite Forall_forall in R. destruct (R (nth (Z.to_nat y) (crows c) [])) as (LR & _); [apply nth_In; unfold zlen in By; lia|].
  rewrite (znth_some _ x 0) by lia. eauto.
Qed.

Lemma color_rows_length l w h px : color_rows l w h = Some px -> forall c, In c (concat px) -> length c = length l.
Proof.
  intros H c Hc. apply in_concat in Hc. destruct Hc as (row & Hr & Hc). unfold color_rows in H. apply omap_inv in H.
  assert (G : forall (A B : Type) (Q : A -> B -> Prop) l r b, Forall2 Q l r -> In b r -> exists a, Q a b).
  { clear. induction 1 as [|x y l r K _ IH]; intros I; [destruct I|]. destruct I as [<-|I]; [eauto|apply IH; exact I]. }
  destruct (G _ _ _ _ _ _ H Hr) as (y & K). apply omap_inv in K. destruct (G _ _ _ _ _ _ K Hc) as (x & K2). apply omap_inv in K2. apply (Forall2_len _ _ _ K2).
Qed.
