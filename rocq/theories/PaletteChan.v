(* The palette of one channel *)
From Verif Require Import Base Arr ListAux Wrap PaletteModel PaletteSpec PaletteProofs.
Ltac Zify.zify_post_hook ::= idtac.

Lemma insert_spec v l l' b : insert v l = (l', b) -> (forall x, In x l' <-> x = v \/ In x l) /\ zlen l' = zlen l + (if b then 1 else 0).
Proof.
  revert l' b. induction l as [|a m IH]; intros l' b H; cbn [insert] in H.
  - injection H as <- <-. split; [intros x; cbn [In]; intuition|reflexivity].
  - destruct (Z.ltb_spec v a); [injection H as <- <-; split; [intros x; cbn [In]; intuition|rewrite zlen_cons; lia]|].
    destruct (Z.eqb_spec v a) as [E|N].
    + injection H as <- <-. split; [intros x; cbn [In]; intuition; left; congruence|lia].
    + destruct (insert v m) as [m' b'] eqn:E. injection H as <- <-. destruct (IH m' b' eq_refl) as (P & Q).
      split; [intros x; cbn [In]; rewrite P; intuition|rewrite !zlen_cons, Q; lia].
Qed.

Lemma collect_spec n set_ idx px r k : collect n set_ idx px = Some (r, k) -> zlen set_ = idx -> idx <= n ->
  (forall x, In x set_ \/ In x px -> In x r) /\ zlen r = k /\ k <= n.
Proof.
  revert set_ idx. induction px as [|v px IH]; intros set_ idx H L B; cbn [collect] in H.
  - injection H as <- <-. split; [intros x [K|[]]; exact K|split; assumption].
  - destruct (insert v set_) as [s b] eqn:E. apply insert_spec in E. destruct E as (P & Q).
    assert (G : forall x, In x set_ \/ In x (v :: px) -> In x s \/ In x px).
    { intros x [K|[K|K]]; [left; apply P; right; exact K|left; apply P; left; congruence|right; exact K]. }
    destruct b.
    + destruct (Z.ltb_spec n (idx + 1)); [discriminate|]. destruct (IH s (idx + 1) H) as (F & R); [lia|lia|]. split; [intros x K; apply F, G, K|exact R].
    + destruct (IH s idx H) as (F & R); [lia|lia|]. split; [intros x K; apply F, G, K|exact R].
Qed.

Lemma position_in v l i : In v l -> exists j, position v l i = Some j.
Proof.
  revert i. induction l as [|a l IH]; intros i H; [destruct H|]. cbn [position]. destruct (Z.eqb_spec v a) as [E|N]; [eauto|].
  apply IH. destruct H as [H|H]; [congruence|exact H].
Qed.
Lemma znth_0 {A} (a : A) l : znth (a :: l) 0 = Some a.
Proof. reflexivity. Qed.
Lemma znth_succ {A} (a : A) l i : 0 < i -> znth (a :: l) i = znth l (i - 1).
Proof.
  intros H. unfold znth. destruct (Z.ltb_spec i 0); [lia|]. destruct (Z.ltb_spec (i - 1) 0); [lia|].
  replace (Z.to_nat i) with (Datatypes.S (Z.to_nat (i - 1))) by lia. reflexivity.
Qed.
Lemma position_spec v l i j : position v l i = Some j -> i <= j < i + zlen l /\ znth l (j - i) = Some v.
Proof.
  revert i. induction l as [|a l IH]; intros i H; cbn [position] in H; [discriminate|]. rewrite zlen_cons. pose proof (zlen_nonneg l).
  destruct (Z.eqb_spec v a) as [E|N].
  - injection H as <-. rewrite Z.sub_diag, E. split; [lia|reflexivity].
  - apply IH in H. destruct H as (B & K). split; [lia|]. rewrite znth_succ by lia. replace (j - i - 1) with (j - (i + 1)) by lia. exact K.
Qed.

(* ---- the lookup table ---- *)
Definition marks (L : Z -> Z) (l : list Z) : Z := zlen (filter (fun i => negb (L i =? 0)) l).

Lemma zseq_in n : forall z x, In x (zseq z n) -> z <= x < z + Z.of_nat n.
Proof. induction n as [|n IH]; intros z x H; [destruct H|]. cbn [zseq In] in H. destruct H as [<-|H]; [lia|]. apply IH in H. lia. Qed.

Lemma marks_other L L' l : (forall i, In i l -> L' i = L i) -> marks L' l = marks L l.
Proof.
  intros H. unfold marks. f_equal. induction l as [|a l IH]; [reflexivity|]. cbn [filter]. rewrite (H a) by (left; reflexivity). rewrite IH; [reflexivity|]. intros; apply H; right; assumption.
Qed.
Lemma marks_cons L a l : marks L (a :: l) = (if L a =? 0 then 0 else 1) + marks L l.
Proof. unfold marks. cbn [filter]. destruct (L a =? 0); cbn [negb]; [lia|rewrite zlen_cons; lia]. Qed.

Lemma marks_set L z n i : z <= i < z + Z.of_nat n -> L i = 0 -> marks (fun j => if j =? i then 1 else L j) (zseq z n) = marks L (zseq z n) + 1.
Proof.
  revert z. induction n as [|n IH]; intros z B E; [lia|]. cbn [zseq]. rewrite !marks_cons. destruct (Z.eqb_spec z i) as [K|K].
  - subst z. rewrite E. rewrite (marks_other L (fun j => if j =? i then 1 else L j)); [cbn [Z.eqb]; lia|]. intros j Hj. apply zseq_in in Hj. destruct (Z.eqb_spec j i); [lia|reflexivity].
  - rewrite IH by (try assumption; lia). lia.
Qed.

Lemma mark_spec n min size L idx px : 0 <= size -> (forall v, In v px -> 0 <= v - min < size) -> marks L (zseq 0 (Z.to_nat size)) = idx -> idx <= n ->
  exists o, mark n min size L idx px = Some o /\
  (forall L' k, o = Some (L', k) -> marks L' (zseq 0 (Z.to_nat size)) = k /\ k <= n /\ (forall i, L i <> 0 -> L' i <> 0) /\ (forall v, In v px -> L' (v - min) <> 0)).
Proof.
  intros HS. revert L idx. induction px as [|v px IH]; intros L idx V M B; cbn [mark].
  - eexists. split; [reflexivity|]. intros L' k E. injection E as <- <-. split; [exact M|]. split; [exact B|]. split; [auto|]. intros v [].
  - assert (Hv := V v (or_introl eq_refl)). rewrite get_ok by exact Hv. destruct (Z.eqb_spec (L (v - min)) 0) as [E|N].
    + rewrite set_ok by exact Hv. destruct (Z.ltb_spec n (idx + 1)); [eexists; split; [reflexivity|]; intros; discriminate|].
      destruct (IH (fun j => if j =? v - min then 1 else L j) (idx + 1)) as (o & Eo & K); [intros; apply V; right; assumption| |lia|].
      { rewrite marks_set; [lia|lia|exact E]. }
      exists o. split; [exact Eo|]. intros L' k E'. destruct (K L' k E') as (K1 & K2 & K3 & K4). split; [exact K1|]. split; [exact K2|]. split.
      * intros i Hi. apply K3. destruct (Z.eqb_spec i (v - min)); [lia|exact Hi].
      * intros x [<-|Hx]; [apply K3; rewrite Z.eqb_refl; lia|apply K4; exact Hx].
    + destruct (IH L idx) as (o & Eo & K); [intros; apply V; right; assumption|exact M|exact B|].
      exists o. split; [exact Eo|]. intros L' k E'. destruct (K L' k E') as (K1 & K2 & K3 & K4). split; [exact K1|]. split; [exact K2|]. split; [exact K3|].
      intros x [<-|Hx]; [apply K3; exact N|apply K4; exact Hx].
Qed.

Lemma znth_app_old {A} (l r : list A) i v : znth l i = Some v -> znth (l ++ r) i = Some v.
Proof.
  unfold znth. destruct (Z.ltb_spec i 0); [discriminate|]. intros E. rewrite nth_error_app1; [exact E|]. apply nth_error_Some. rewrite E. discriminate.
Qed.
Lemma znth_app_new {A} (l : list A) v : znth (l ++ [v]) (zlen l) = Some v.
Proof.
  unfold znth. pose proof (zlen_nonneg l). destruct (Z.ltb_spec (zlen l) 0); [lia|]. unfold zlen. rewrite Nat2Z.id. rewrite nth_error_app2, Nat.sub_diag by lia. reflexivity.
Qed.

Lemma number_spec cap min size L0 n : forall k L idx pal, 0 <= k -> k + Z.of_nat n = size -> (forall i, k <= i -> L i = L0 i) ->
  zlen pal = idx -> idx + marks L0 (zseq k n) = cap ->
  (forall i, 0 <= i < k -> L0 i <> 0 -> znth (rev pal) (L i) = Some (i + min)) ->
  exists L' pal', number cap min size L idx pal (zseq k n) = Some (L', pal') /\ zlen pal' = cap /\
  (forall i, 0 <= i < size -> L0 i <> 0 -> znth (rev pal') (L' i) = Some (i + min)).
Proof.
  induction n as [|n IH]; intros k L idx pal Hk Hs HL Hp Hc Hi; cbn [zseq number].
  - exists L, pal. split; [reflexivity|]. change (marks L0 (zseq k 0)) with 0 in Hc. split; [lia|]. intros i B. apply Hi. lia.
  - rewrite get_ok by lia. rewrite HL by lia. cbn [zseq] in Hc. rewrite marks_cons in Hc. assert (0 <= marks L0 (zseq (k + 1) n)) by apply zlen_nonneg.
    destruct (Z.eqb_spec (L0 k) 0) as [E|N].
    + apply IH; [lia|lia|intros; apply HL; lia|exact Hp|lia|]. intros i B K. destruct (Z.eq_dec i k) as [->|]; [contradiction|]. apply Hi; [lia|exact K].
    + destruct (Z.leb_spec cap idx); [lia|]. rewrite set_ok by lia. apply IH; [lia|lia| |rewrite zlen_cons; lia|lia|].
      * intros i B. destruct (Z.eqb_spec i k); [lia|]. apply HL. lia.
      * intros i B K. cbn [rev]. destruct (Z.eqb_spec i k) as [Ei|Ni].
        -- rewrite Ei, <- Hp. replace (zlen pal) with (zlen (rev pal)) by (unfold zlen; rewrite rev_length; reflexivity). apply znth_app_new.
        -- apply znth_app_old, Hi; [lia|exact K].
Qed.

Lemma fold_min l : forall a, fold_left Z.min l a <= a /\ forall v, In v l -> fold_left Z.min l a <= v.
Proof.
  induction l as [|x l IH]; intros a; cbn [fold_left]; [split; [lia|intros v []]|]. destruct (IH (Z.min a x)) as (A & B). split; [lia|]. intros v [<-|H]; [lia|apply B; exact H].
Qed.
Lemma fold_max l : forall a, a <= fold_left Z.max l a /\ forall v, In v l -> v <= fold_left Z.max l a.
Proof.
  induction l as [|x l IH]; intros a; cbn [fold_left]; [split; [lia|intros v []]|]. destruct (IH (Z.max a x)) as (A & B). split; [lia|]. intros v [<-|H]; [lia|apply B; exact H].
Qed.
Lemma fold_min_ge l : forall a m, m <= a -> Forall (fun v => m <= v) l -> m <= fold_left Z.min l a.
Proof. induction l as [|x l IH]; intros a m H F; [exact H|]. inversion F; subst. cbn [fold_left]. apply IH; [lia|assumption]. Qed.
Lemma fold_max_le l : forall a m, a <= m -> Forall (fun v => v <= m) l -> fold_left Z.max l a <= m.
Proof. induction l as [|x l IH]; intros a m H F; [exact H|]. inversion F; subst. cbn [fold_left]. apply IH; [lia|assumption]. Qed.

(* the indices lead back to the pixels, and no access is out of bounds *)
Theorem channel_palette_ok n rows : 0 <= n -> Forall is_i32 (concat rows) ->
  channel_palette n rows <> Bad /\
  forall pal idx, channel_palette n rows = Ret (pal, idx) ->
    zlen pal <= n /\ exists f, omap (omap f) rows = Some idx /\ forall v i, In v (concat rows) -> f v = Some i -> znth pal i = Some v.
Proof.
  intros Hn F. unfold channel_palette. cbv zeta. set (px := concat rows) in *. unfold minmax.
  set (mn := fold_left Z.min px _). set (mx := fold_left Z.max px _).
  destruct (Z.ltb_spec 65536 (w64 (mx - mn + 1))) as [HS|HS].
  - destruct (collect n [] 0 px) as [[pal k]|] eqn:E; [|split; [discriminate|intros; discriminate]].
    apply collect_spec in E; [|reflexivity|lia]. destruct E as (I & L & B).
    destruct (omap2_total (fun v => position v pal 0) rows) as (r & E); [intros v Hv; apply position_in, I; right; exact Hv|].
    rewrite E. split; [discriminate|]. intros p i EI. injection EI as <- <-. split; [lia|].
    exists (fun v => position v pal 0). split; [exact E|]. intros v i _ K. apply position_spec in K. rewrite Z.sub_0_r in K. apply K.
  - destruct (fold_min px (2 ^ 31 - 1)) as (A1 & A2). destruct (fold_max px (- 2 ^ 31)) as (B1 & B2). fold mn in A1, A2. fold mx in B1, B2.
    assert (M1 : - 2 ^ 31 <= mn) by (apply fold_min_ge; [lia|]; eapply Forall_impl; [|exact F]; unfold is_i32; intros; cbn beta; lia).
    assert (M2 : mx <= 2 ^ 31 - 1) by (apply fold_max_le; [lia|]; eapply Forall_impl; [|exact F]; unfold is_i32; intros; cbn beta; lia).
    assert (HX : mn <= mx).
    { destruct px as [|v px'] eqn:Epx; [|specialize (A2 v (or_introl eq_refl)); specialize (B2 v (or_introl eq_refl)); lia].
      exfalso. revert HS. subst mn mx. cbn [fold_left]. vm_compute. intros H. apply H. reflexivity. }
    assert (ES : w64 (mx - mn + 1) = mx - mn + 1) by (unfold w64; apply Z.mod_small; lia). rewrite ES in *. set (size := mx - mn + 1) in *.
    assert (M0 : marks (fun _ => 0) (zseq 0 (Z.to_nat size)) = 0) by (unfold marks; cbn; induction (zseq _ _); [reflexivity|assumption]).
    destruct (mark_spec n mn size (fun _ => 0) 0 px) as (o & E & K); [lia|intros v Hv; specialize (A2 v Hv); specialize (B2 v Hv); lia|exact M0|exact Hn|].
    rewrite E. destruct o as [[L k]|]; [|split; [discriminate|intros; discriminate]]. destruct (K L k eq_refl) as (K1 & K2 & _ & K4).
    destruct (number_spec k mn size L (Z.to_nat size) 0 L 0 []) as (L' & pal & E2 & P & Q); [lia|lia|reflexivity|reflexivity|lia|intros; lia|].
    rewrite E2.
    destruct (omap2_total (fun v => get size L' (v - mn)) rows) as (r & E3).
    { intros v Hv. specialize (A2 v Hv); specialize (B2 v Hv). rewrite get_ok by lia. eauto. }
    rewrite E3. split; [discriminate|]. intros p i EI. injection EI as <- <-.
    replace (zlen (rev pal)) with (zlen pal) by (unfold zlen; rewrite rev_length; reflexivity). split; [lia|].
    exists (fun v => get size L' (v - mn)). split; [exact E3|]. intros v i Hv Hg. pose proof (A2 v Hv); pose proof (B2 v Hv).
    rewrite get_ok in Hg by lia. injection Hg as <-. rewrite Q; [f_equal; lia|lia|]. apply K4. exact Hv.
Qed.
