(* The interval tree of the patches finds, for each row, the patches that cover it. *)
From Coq Require Import ZArith List Bool Permutation Sorted Lia Arith.
From Verif Require Import Base PatchModel PatchSpec.
Import ListNotations.
Local Open Scope Z_scope.
Ltac Zify.zify_post_hook ::= idtac.

(* ---- lists ---- *)
Lemma ss_app {A} (R : A -> A -> Prop) a b : StronglySorted R (a ++ b) ->
  StronglySorted R a /\ StronglySorted R b /\ forall x y, In x a -> In y b -> R x y.
Proof.
  induction a as [|h a IH]; cbn [app]; intros H.
  - split; [constructor|]. split; [exact H|]. intros x y [].
  - inversion H as [|? ? G1 G2]; subst. destruct (IH G1) as (H4 & H5 & H6). rewrite Forall_app in G2. destruct G2 as [F1 F2]. split; [constructor; assumption|]. split; [exact H5|].
    intros x y [<-|Hx] Hy; [rewrite Forall_forall in F2; auto|auto].
Qed.
Lemma tw_split {A} f (l : list A) : l = take_while f l ++ skipn (length (take_while f l)) l.
Proof. induction l as [|a l IH]; [reflexivity|]. cbn [take_while]. destruct (f a); [cbn [length skipn app]; f_equal; exact IH|reflexivity]. Qed.
Lemma tw_true {A} f (l : list A) : Forall (fun a => f a = true) (take_while f l).
Proof. induction l as [|a l IH]; cbn [take_while]; [constructor|]. destruct (f a) eqn:E; constructor; assumption. Qed.
Lemma tw_next {A} f (l : list A) a r : skipn (length (take_while f l)) l = a :: r -> f a = false.
Proof. induction l as [|b l IH]; cbn [take_while]; [discriminate|]. destruct (f b) eqn:E; cbn [length skipn]; [exact IH|]. intros H. injection H as <- <-. exact E. Qed.
Lemma tw_filter {A} (R : A -> A -> Prop) f (l : list A) : StronglySorted R l -> (forall a b, R a b -> f b = true -> f a = true) -> take_while f l = filter f l.
Proof.
  intros H M. induction H as [|a l H IH F]; [reflexivity|]. cbn [take_while filter]. destruct (f a) eqn:E; [f_equal; exact IH|].
  clear IH H. induction F as [|b l Hb F IH]; [reflexivity|]. cbn [filter]. destruct (f b) eqn:Eb; [|exact IH]. rewrite (M a b Hb Eb) in E. discriminate.
Qed.
Lemma perm_filter {A} f (l l' : list A) : Permutation l l' -> Permutation (filter f l) (filter f l').
Proof.
  induction 1 as [|a l l' P IH|a b l|l1 l2 l3 P1 IH1 P2 IH2]; cbn [filter]; [constructor| | |].
  - destruct (f a); [constructor|]; exact IH.
  - destruct (f a), (f b); try apply Permutation_refl. constructor.
  - eapply Permutation_trans; eassumption.
Qed.
Lemma filter_none {A} f (l : list A) : Forall (fun a => f a = false) l -> filter f l = [].
Proof. induction 1 as [|a l H F IH]; [reflexivity|]. cbn [filter]. rewrite H. exact IH. Qed.
Lemma sorted_unique (l l' : list nat) : StronglySorted le l -> StronglySorted le l' -> Permutation l l' -> l = l'.
Proof.
  intros H. revert l'. induction H as [|a l H IH F]; intros l' H' P; [apply Permutation_nil in P; congruence|].
  destruct H' as [|b l' H' F']; [apply Permutation_sym, Permutation_nil in P; congruence|].
  assert (a = b).
  { assert (In b (a :: l)) as [E|I1] by (eapply Permutation_in; [apply Permutation_sym; exact P|left; reflexivity]); [exact E|].
    assert (In a (b :: l')) as [E|I2] by (eapply Permutation_in; [exact P|left; reflexivity]); [auto|].
    rewrite Forall_forall in F, F'. specialize (F _ I1). specialize (F' _ I2). lia. }
  subst b. f_equal. apply IH; [exact H'|]. eapply Permutation_cons_inv. exact P.
Qed.
Lemma firstn_skipn_app {A} (p m r : list A) n : length m = n -> firstn n (skipn (length p) (p ++ m ++ r)) = m.
Proof. intros <-. rewrite skipn_app, skipn_all, Nat.sub_diag. cbn [app skipn]. rewrite firstn_app, firstn_all, Nat.sub_diag. cbn [firstn]. apply app_nil_r. Qed.

Lemma nth_skip {A} (e : A) a : forall m, (m < length a)%nat -> exists r, skipn m a = nth m a e :: r.
Proof. induction a as [|b a IH]; intros m Hm; [cbn in Hm; lia|]. destruct m; [eexists; reflexivity|]. cbn [skipn nth]. apply IH. cbn in Hm. lia. Qed.

Lemma skip_skip {A} n : forall m (a : list A), skipn (m + n) a = skipn n (skipn m a).
Proof. induction m as [|m IH]; intros a; [reflexivity|]. destruct a; [cbn [skipn]; destruct n; reflexivity|]. cbn [Nat.add skipn]. apply IH. Qed.

(* ---- one node ---- *)
Definition covers (y : Z) (v : interval) : bool := (i_y0 v <=? y) && (y <? i_y1 v).
Definition proper (v : interval) : Prop := 0 <= i_y0 v < i_y1 v.

Section T.
Variables sort0 sort1 : list interval -> list interval.
Hypothesis H0 : sorts i_y0 sort0.
Hypothesis H1 : sorts i_y1 sort1.

Definition by1 (a b : interval) : Prop := i_y1 a <= i_y1 b.
Definition by0 (a b : interval) : Prop := i_y0 a <= i_y0 b.

Lemma split_ok l : l <> [] -> Forall proper l -> let '(c, lo, mid, hi) := split sort0 sort1 l in
  Permutation l (lo ++ mid ++ hi) /\ Forall (fun v => i_y1 v <= c) lo /\ Forall (fun v => i_y0 v <= c < i_y1 v) mid /\
  Forall (fun v => c < i_y0 v) hi /\ mid <> [] /\ StronglySorted by1 mid.
Proof.
  intros Hne Hp. unfold split. destruct (H0 l) as [P0 S0]. set (a := sort0 l) in *. set (m := (length l / 2)%nat).
  assert (Hl : length a = length l) by (symmetry; apply Permutation_length, P0).
  assert (Hm : (m < length a)%nat) by (rewrite Hl; destruct l; [congruence|]; apply Nat.div_lt; cbn; lia).
  set (x := nth m a (Iv 0 0 0)). set (c := i_y0 x). set (tw := take_while _ (skipn m a)).
  assert (Ex : exists r, skipn m a = x :: r).
  { apply nth_skip. exact Hm. }
  destruct Ex as [r Er].
  assert (Etw : exists t, tw = x :: t) by (unfold tw; rewrite Er; cbn [take_while]; fold c; rewrite Z.eqb_refl; eauto).
  destruct Etw as [t Et].
  pose proof (tw_split (fun v => i_y0 v =? c) (skipn m a)) as Es. fold tw in Es.
  set (rs := (m + length tw)%nat). assert (Ef : firstn rs a = firstn m a ++ tw).
  { rewrite <- (firstn_skipn m a) at 1. rewrite Es. unfold rs. rewrite app_assoc, firstn_app, firstn_all2 by (rewrite app_length, firstn_length; lia).
    replace (m + length tw - length (firstn m a ++ tw))%nat with 0%nat by (rewrite app_length, firstn_length; lia). cbn [firstn]. apply app_nil_r. }
  assert (Eh : skipn rs a = skipn (length tw) (skipn m a)) by (unfold rs; apply skip_skip).
  pose proof S0 as S0'. rewrite <- (firstn_skipn m a) in S0'. apply ss_app in S0' as (Sa & Sb & Sc).
  assert (Fx : Forall (fun v => i_y0 v <= c) (firstn rs a)).
  { rewrite Ef. apply Forall_app. split.
    - apply Forall_forall. intros v Hv. unfold c. apply Sc; [exact Hv|]. rewrite Er. left. reflexivity.
    - pose proof (tw_true (fun v => i_y0 v =? c) (skipn m a)) as F. fold tw in F. revert F. apply Forall_impl. intros v Hv. apply Z.eqb_eq in Hv. lia. }
  assert (Fh : Forall (fun v => c < i_y0 v) (skipn rs a)).
  { rewrite Eh. pose proof Sb as Sb'. rewrite Es in Sb'. apply ss_app in Sb' as (Q1 & Q2 & Q3). destruct (skipn (length tw) (skipn m a)) as [|z q] eqn:Ez; [constructor|].
    apply tw_next in Ez. apply Z.eqb_neq in Ez. assert (Hz : i_y0 x <= i_y0 z) by (apply Q3; [rewrite Et; left; reflexivity|left; reflexivity]). fold c in Hz.
    inversion Q2 as [|? ? G1 G2]; subst. constructor; [lia|]. revert G2. apply Forall_impl. intros v Hv. lia. }
  destruct (H1 (firstn rs a)) as [P1 S1]. set (b := sort1 (firstn rs a)) in *.
  assert (Hb : length b = rs).
  { rewrite <- (Permutation_length P1), Ef, app_length, firstn_length. unfold rs. lia. }
  set (tw2 := take_while _ (rev b)). pose proof (tw_split (fun v => i_y1 v >? c) (rev b)) as Es2. fold tw2 in Es2. set (rest := skipn (length tw2) (rev b)) in *.
  assert (Eb : b = rev rest ++ rev tw2) by (rewrite <- (rev_involutive b), Es2, rev_app_distr; reflexivity).
  assert (El : (rs - length tw2)%nat = length (rev rest)) by (rewrite <- Hb, Eb, app_length, !rev_length; lia).
  rewrite El. replace (firstn (length (rev rest)) b) with (rev rest) by (rewrite Eb at 1; rewrite firstn_app, firstn_all, Nat.sub_diag; cbn [firstn]; symmetry; apply app_nil_r).
  replace (skipn (length (rev rest)) b) with (rev tw2) by (rewrite Eb at 1; rewrite skipn_app, skipn_all, Nat.sub_diag; reflexivity).
  pose proof S1 as S1'. rewrite Eb in S1'. apply ss_app in S1' as (R1 & R2 & R3).
  assert (Fb : Forall (fun v => i_y0 v <= c) b) by (eapply Permutation_Forall; [exact P1|exact Fx]). rewrite Eb in Fb. apply Forall_app in Fb as [Fb1 Fb2].
  pose proof (tw_true (fun v => i_y1 v >? c) (rev b)) as Ft2. fold tw2 in Ft2.
  assert (Fl : Forall (fun v => i_y1 v <= c) (rev rest)).
  { destruct rest as [|z q] eqn:Ez; [constructor|]. pose proof (tw_next (fun v => i_y1 v >? c) (rev b) z q Ez) as Hz. cbn [rev] in *. apply ss_app in R1 as (_ & _ & R1).
    apply Forall_app. assert (i_y1 z <= c) by (destruct (Z.gtb_spec (i_y1 z) c); [discriminate|lia]). split; [|constructor; [lia|constructor]].
    apply Forall_forall. intros v Hv. specialize (R1 v z Hv (or_introl eq_refl)). cbn in R1. lia. }
  split; [|split; [exact Fl|split; [|split; [exact Fh|split; [|exact R2]]]]].
  - rewrite app_assoc, <- Eb. eapply Permutation_trans; [exact P0|]. rewrite <- (firstn_skipn rs a) at 1. apply Permutation_app_tail. exact P1.
  - apply Forall_forall. intros v Hv. rewrite Forall_forall in Fb2. split; [apply Fb2, Hv|]. apply in_rev in Hv. rewrite Forall_forall in Ft2. specialize (Ft2 v Hv). apply Z.gtb_lt in Ft2. lia.
  - intros E. assert (Hx : In x b) by (eapply Permutation_in; [exact P1|rewrite Ef, Et; apply in_or_app; right; left; reflexivity]).
    rewrite Eb, E, app_nil_r in Hx. rewrite Forall_forall in Fl. specialize (Fl x Hx).
    assert (Hxl : In x l) by (eapply Permutation_in; [apply Permutation_sym; exact P0|]; apply nth_In; exact Hm). rewrite Forall_forall in Hp. specialize (Hp x Hxl). unfold proper in Hp. fold c in Hp. lia.
Qed.

(* ---- the tree ---- *)
Inductive Rep (t : tree) : option nat -> list interval -> Prop :=
| rep_none : Rep t None []
| rep_node i n lo mid hi l m0 :
    nth_error (t_nodes t) i = Some n -> Permutation l (lo ++ mid ++ hi) ->
    Forall (fun v => i_y1 v <= n_center n) lo -> Forall (fun v => i_y0 v <= n_center n < i_y1 v) mid ->
    Forall (fun v => n_center n < i_y0 v) hi ->
    firstn (n_num n) (skipn (n_start n) (t_y0 t)) = map (fun v => (i_y0 v, i_idx v)) m0 -> Permutation mid m0 -> StronglySorted by0 m0 ->
    firstn (n_num n) (skipn (n_start n) (t_y1 t)) = map (fun v => (i_y1 v, i_idx v)) (rev mid) -> StronglySorted by1 mid ->
    Rep t (n_left n) lo -> Rep t (n_right n) hi ->
    (forall j, n_left n = Some j \/ n_right n = Some j -> (i < j)%nat) ->
    Rep t (Some i) l.

Lemma nth_some_list l r : forall j, l <> [] -> nth_error (r ++ some_list l ++ j) (length r) = Some l.
Proof. intros j H. rewrite nth_error_app2, Nat.sub_diag by lia. destruct l; [congruence|reflexivity]. Qed.

Lemma some_ok l : Forall proper l -> Forall (fun l => l <> [] /\ Forall proper l) (some_list l).
Proof. intros H. destruct l; cbn [some_list]; [constructor|]. constructor; [split; [discriminate|exact H]|constructor]. Qed.

Lemma build_rep : forall fuel k start queue ns s0 s1, build sort0 sort1 fuel k start queue = Some (ns, s0, s1) ->
  Forall (fun l => l <> [] /\ Forall proper l) queue ->
  forall pn p0 p1 tn, length pn = k -> length p0 = start -> length p1 = start ->
  forall j l, nth_error queue j = Some l -> Rep (Tr (pn ++ ns) tn (p0 ++ s0) (p1 ++ s1)) (Some (k + j)%nat) l.
Proof.
  induction fuel as [|fuel IH]; intros k start queue ns s0 s1 E HQ pn p0 p1 tn Ek E0 E1 j l Ej; [discriminate|]. cbn [build] in E.
  destruct queue as [|ivs rest]; [destruct j; discriminate|]. inversion HQ as [|? ? [Hne Hp] HQ']; subst.
  pose proof (split_ok ivs Hne Hp) as HS. destruct (split sort0 sort1 ivs) as [[[c lo] mid] hi]. destruct HS as (PS & Fl & Fm & Fh & Nm & Sm).
  set (n := Node _ _ _ _ _) in E. destruct (build sort0 sort1 fuel (length pn + 1) (length p0 + length mid) (rest ++ some_list lo ++ some_list hi)) as [[[ns' s0'] s1']|] eqn:EB; [|discriminate].
  injection E as <- <- <-. destruct (H0 mid) as [PM SM].
  assert (HQ2 : Forall (fun l => l <> [] /\ Forall proper l) (rest ++ some_list lo ++ some_list hi)).
  { assert (FP : Forall proper (lo ++ mid ++ hi)) by (eapply Permutation_Forall; eassumption). rewrite !Forall_app in FP. destruct FP as (FP1 & _ & FP2).
    rewrite !Forall_app. split; [exact HQ'|]. split; apply some_ok; assumption. }
  assert (K : forall j l, nth_error (rest ++ some_list lo ++ some_list hi) j = Some l ->
     Rep (Tr (pn ++ n :: ns') tn (p0 ++ map (fun v => (i_y0 v, i_idx v)) (sort0 mid) ++ s0') (p1 ++ map (fun v => (i_y1 v, i_idx v)) (rev mid) ++ s1')) (Some (length pn + 1 + j)%nat) l).
  { intros j' l' Ej'. replace (pn ++ n :: ns') with ((pn ++ [n]) ++ ns') by (rewrite <- app_assoc; reflexivity). rewrite !app_assoc.
    refine (IH _ _ _ _ _ _ EB HQ2 (pn ++ [n]) _ _ tn _ _ _ j' l' Ej').
    - rewrite app_length. reflexivity.
    - rewrite app_length, map_length, <- (Permutation_length PM). reflexivity.
    - rewrite app_length, map_length, rev_length. lia. }
  destruct j as [|j]; cbn [nth_error] in Ej.
  - injection Ej as <-. rewrite Nat.add_0_r. eapply (rep_node _ _ n lo mid hi _ (sort0 mid)).
    + cbn [t_nodes]. rewrite nth_error_app2, Nat.sub_diag by lia. reflexivity.
    + exact PS.
    + exact Fl.
    + exact Fm.
    + exact Fh.
    + cbn [t_y0 n n_num n_start]. apply firstn_skipn_app. rewrite map_length, <- (Permutation_length PM). reflexivity.
    + exact PM.
    + exact SM.
    + cbn [t_y1 n n_num n_start]. rewrite <- E1. apply firstn_skipn_app. rewrite map_length, rev_length. reflexivity.
    + exact Sm.
    + cbn [n n_left]. destruct lo as [|v lo']; [constructor|]. apply K. apply nth_some_list. discriminate.
    + cbn [n n_right]. destruct hi as [|v hi']; [constructor|]. rewrite <- Nat.add_assoc. apply K. rewrite app_assoc, <- app_length.
      pose proof (nth_some_list (v :: hi') (rest ++ some_list lo) [] ltac:(discriminate)) as N. rewrite app_nil_r in N. exact N.
    + intros j [Hj|Hj]; cbn [n n_left n_right] in Hj; [destruct lo|destruct hi]; try discriminate; injection Hj as <-; lia.
  - replace (length pn + S j)%nat with (length pn + 1 + j)%nat by lia. apply K. rewrite nth_error_app1 by (apply nth_error_Some; congruence). exact Ej.
Qed.

Definition total (queue : list (list interval)) : nat := length (concat queue).
Lemma total_app a b : total (a ++ b) = (total a + total b)%nat.
Proof. unfold total. rewrite concat_app, app_length. reflexivity. Qed.
Lemma total_some l : total (some_list l) = length l.
Proof. destruct l; [reflexivity|]. unfold total. cbn [some_list concat]. rewrite app_nil_r. reflexivity. Qed.
Lemma build_ends : forall fuel k start queue, Forall (fun l => l <> [] /\ Forall proper l) queue -> (total queue < fuel)%nat -> build sort0 sort1 fuel k start queue <> None.
Proof.
  induction fuel as [|fuel IH]; intros k start queue HQ Hf; [lia|]. cbn [build]. destruct queue as [|ivs rest]; [discriminate|]. inversion HQ as [|? ? [Hne Hp] HQ']; subst.
  pose proof (split_ok ivs Hne Hp) as HS. destruct (split sort0 sort1 ivs) as [[[c lo] mid] hi]. destruct HS as (PS & Fl & Fm & Fh & Nm & Sm).
  match goal with |- context [build _ _ fuel ?a ?b ?q] => specialize (IH a b q) end.
  assert (FP : Forall proper (lo ++ mid ++ hi)) by (eapply Permutation_Forall; eassumption). rewrite !Forall_app in FP. destruct FP as (FP1 & _ & FP2).
  destruct (build _ _ fuel _ _ _) as [[[ns s0] s1]|]; [discriminate|]. exfalso. apply IH; [|clear IH|reflexivity].
  - rewrite !Forall_app. split; [exact HQ'|]. split; apply some_ok; assumption.
  - rewrite !total_app, !total_some. apply Permutation_length in PS. rewrite !app_length in PS. unfold total in *. cbn [concat] in Hf. rewrite app_length in Hf. destruct mid; [congruence|]. cbn [length] in *. lia.
Qed.

Lemma map_take {A B} (g : A -> B) f (l : list A) : take_while f (map g l) = map g (take_while (fun a => f (g a)) l).
Proof. induction l as [|a l IH]; [reflexivity|]. cbn [map take_while]. destruct (f (g a)); [cbn [map]; f_equal; exact IH|reflexivity]. Qed.
Lemma ss_rev {A} (R : A -> A -> Prop) l : StronglySorted R l -> StronglySorted (fun a b => R b a) (rev l).
Proof.
  induction 1 as [|a l H IH F]; [constructor|]. cbn [rev]. revert IH F. generalize (rev l) (in_rev l). intros r Hr IH F.
  assert (Fr : Forall (fun b => R a b) r) by (apply Forall_forall; intros b Hb; rewrite Forall_forall in F; apply F, Hr, Hb). clear Hr F H.
  induction IH as [|b r H IH F]; cbn [app]; [repeat constructor|]. inversion Fr; subst. constructor; [apply IH; assumption|]. apply Forall_app. split; [exact F|]. constructor; [assumption|constructor].
Qed.
Lemma filter_ext_forall {A} (f g : A -> bool) l : Forall (fun a => f a = g a) l -> filter f l = filter g l.
Proof. induction 1 as [|a l H F IH]; [reflexivity|]. cbn [filter]. rewrite H, IH. reflexivity. Qed.

Lemma walk_ok t y : forall o l, Rep t o l -> forall fuel, (forall i, o = Some i -> (length (t_nodes t) - i < fuel)%nat) ->
  exists r, walk fuel t y o = Some r /\ Permutation r (map i_idx (filter (covers y) l)).
Proof.
  induction 1 as [|i n lo mid hi l m0 En PL Fl Fm Fh E0 P0 S0 E1 S1 HL IHL HR IHR Hj]; intros fuel Hf.
  - exists []. destruct fuel; split; try reflexivity; constructor.
  - specialize (Hf i eq_refl). destruct fuel as [|fuel]; [lia|]. cbn [walk]. rewrite En.
    assert (Hi : (i < length (t_nodes t))%nat) by (apply nth_error_Some; congruence).
    assert (PF : Permutation (map i_idx (filter (covers y) l)) (map i_idx (filter (covers y) lo) ++ map i_idx (filter (covers y) mid) ++ map i_idx (filter (covers y) hi))).
    { rewrite <- !map_app, <- !filter_app. apply Permutation_map, perm_filter, PL. }
    destruct (Z.leb_spec y (n_center n)).
    + assert (Nh : filter (covers y) hi = []).
      { apply filter_none. revert Fh. apply Forall_impl. intros v Hv. unfold covers. destruct (Z.leb_spec (i_y0 v) y); [lia|reflexivity]. }
      rewrite Nh in PF. cbn [map] in PF. rewrite app_nil_r in PF.
      assert (Found : Permutation (map snd (take_while (fun p => negb (y <? fst p)) (firstn (n_num n) (skipn (n_start n) (t_y0 t))))) (map i_idx (filter (covers y) mid))).
      { rewrite E0, map_take. cbn [fst]. rewrite map_map. cbn [snd]. apply Permutation_map. rewrite (tw_filter by0) by (try exact S0; intros a b Hab; unfold by0 in Hab; destruct (Z.ltb_spec y (i_y0 b)), (Z.ltb_spec y (i_y0 a)); cbn; congruence || lia).
        eapply Permutation_trans; [apply perm_filter, Permutation_sym, P0|]. erewrite filter_ext_forall; [apply Permutation_refl|].
        revert Fm. apply Forall_impl. intros v Hv. unfold covers. destruct (Z.ltb_spec y (i_y0 v)), (Z.leb_spec (i_y0 v) y), (Z.ltb_spec y (i_y1 v)); cbn; congruence || lia. }
      destruct (Z.ltb_spec y (n_center n)).
      * destruct (IHL fuel) as (r & Er & Pr); [intros j E; specialize (Hj j (or_introl E)); lia|]. rewrite Er. eexists. split; [reflexivity|].
        eapply Permutation_trans; [|apply Permutation_sym; exact PF]. eapply Permutation_trans; [apply Permutation_app; [exact Found|exact Pr]|]. apply Permutation_app_comm.
      * assert (Nl : filter (covers y) lo = []).
        { apply filter_none. revert Fl. apply Forall_impl. intros v Hv. unfold covers. destruct (Z.ltb_spec y (i_y1 v)); [lia|apply andb_false_r]. }
        rewrite Nl in PF. cbn [map app] in PF. destruct fuel; cbn [walk]; eexists; (split; [reflexivity|]); rewrite app_nil_r; (eapply Permutation_trans; [exact Found|]); apply Permutation_sym; exact PF.
    + assert (Nl : filter (covers y) lo = []).
      { apply filter_none. revert Fl. apply Forall_impl. intros v Hv. unfold covers. destruct (Z.ltb_spec y (i_y1 v)); [lia|apply andb_false_r]. }
      rewrite Nl in PF. cbn [map app] in PF.
      assert (Found : Permutation (map snd (take_while (fun p => negb (y >=? fst p)) (firstn (n_num n) (skipn (n_start n) (t_y1 t))))) (map i_idx (filter (covers y) mid))).
      { rewrite E1, map_take. cbn [fst]. rewrite map_map. cbn [snd]. apply Permutation_map.
        rewrite (tw_filter (fun a b => by1 b a)) by (try (apply ss_rev; exact S1); intros a b Hab; unfold by1 in Hab; rewrite !Z.geb_leb; destruct (Z.leb_spec (i_y1 b) y), (Z.leb_spec (i_y1 a) y); cbn; congruence || lia).
        eapply Permutation_trans; [apply perm_filter, Permutation_sym, Permutation_rev|]. erewrite filter_ext_forall; [apply Permutation_refl|].
        revert Fm. apply Forall_impl. intros v Hv. unfold covers. rewrite Z.geb_leb. destruct (Z.leb_spec (i_y1 v) y), (Z.leb_spec (i_y0 v) y), (Z.ltb_spec y (i_y1 v)); cbn; congruence || lia. }
      destruct (IHR fuel) as (r & Er & Pr); [intros j E; specialize (Hj j (or_intror E)); lia|]. rewrite Er. eexists. split; [reflexivity|].
      eapply Permutation_trans; [|apply Permutation_sym; exact PF]. apply Permutation_app; [exact Found|exact Pr].
Qed.

(* ---- rows ---- *)
Variable sortn : list nat -> list nat.
Hypothesis Hn : sorts Z.of_nat sortn.

Lemma row_ok d ivs y : intervals d = Some ivs -> Forall proper ivs -> StronglySorted le (map i_idx ivs) -> 0 <= y ->
  exists t, compute_tree sort0 sort1 d = Some t /\ patches_for_row sortn t y = Some (map i_idx (filter (covers y) ivs)).
Proof.
  intros Ei Hp Hs Hy. unfold compute_tree. rewrite Ei. destruct ivs as [|v0 ivs']; [eexists; split; [reflexivity|]; unfold patches_for_row; cbn [t_num]; rewrite andb_comm; cbn; destruct (Z.to_nat y); reflexivity|].
  set (ivs := v0 :: ivs') in *. destruct (H1 ivs) as [P1 S1].
  assert (HQ : Forall (fun l => l <> [] /\ Forall proper l) [sort1 ivs]).
  { constructor; [|constructor]. split; [|eapply Permutation_Forall; eassumption]. intros E. rewrite E in P1. apply Permutation_sym, Permutation_nil in P1. discriminate. }
  pose proof (build_ends (length ivs + 1) 0 0 [sort1 ivs] HQ) as HB. assert (T : (total [sort1 ivs] < length ivs + 1)%nat) by (unfold total; cbn [concat]; rewrite app_nil_r, <- (Permutation_length P1); lia).
  specialize (HB T). destruct (build sort0 sort1 (length ivs + 1) 0 0 [sort1 ivs]) as [[[ns s0] s1]|] eqn:EB; [|congruence]. eexists. split; [reflexivity|].
  pose proof (build_rep _ _ _ _ _ _ _ EB HQ [] [] [] (num_patches sort1 ivs) eq_refl eq_refl eq_refl 0%nat (sort1 ivs) eq_refl) as R. cbn [app Nat.add] in R.
  unfold patches_for_row. cbn [t_num t_nodes].
  destruct (filter (covers y) ivs) as [|v r] eqn:Ef.
  - (* no patch in this row *)
    assert (G : (y <? zlen (num_patches sort1 ivs)) && (0 <? nth (Z.to_nat y) (num_patches sort1 ivs) 0)%nat = false).
    { destruct (Z.ltb_spec y (zlen (num_patches sort1 ivs))); [|reflexivity]. cbn [andb]. apply Nat.ltb_ge. unfold num_patches, zlen in *. rewrite map_length, seq_length in H.
      set (g := fun y0 : nat => _). rewrite (nth_indep _ 0%nat (g 0%nat)) by (rewrite map_length, seq_length; lia). rewrite map_nth, seq_nth by lia. unfold g. cbn [Nat.add].
      rewrite Z2Nat.id by exact Hy. change (fun v : interval => (i_y0 v <=? y) && (y <? i_y1 v)) with (covers y). rewrite Ef. cbn. lia. }
    rewrite G. reflexivity.
  - assert (Hv : In v (filter (covers y) ivs)) by (rewrite Ef; left; reflexivity). apply filter_In in Hv as [Hv Hc]. unfold covers in Hc. apply andb_prop in Hc as [Hc1 Hc2]. apply Z.leb_le in Hc1. apply Z.ltb_lt in Hc2.
    assert (Hlast : i_y1 v <= i_y1 (last (sort1 ivs) (Iv 0 0 0))).
    { assert (Hv' : In v (sort1 ivs)) by (eapply Permutation_in; eassumption). clear - S1 Hv'. induction S1 as [|a l S IH F]; [contradiction|]. destruct l as [|b l]; [destruct Hv' as [->|[]]; cbn; lia|].
      destruct Hv' as [->|Hv']; [|apply IH; exact Hv']. rewrite Forall_forall in F. apply F. change (last (v :: b :: l) (Iv 0 0 0)) with (last (b :: l) (Iv 0 0 0)).
      destruct (exists_last (l := b :: l) ltac:(discriminate)) as (q & z & ->). rewrite last_last. apply in_or_app. right. left. reflexivity. }
    assert (G : (y <? zlen (num_patches sort1 ivs)) && (0 <? nth (Z.to_nat y) (num_patches sort1 ivs) 0)%nat = true).
    { apply andb_true_intro. assert (L : y < zlen (num_patches sort1 ivs)) by (unfold zlen, num_patches; rewrite map_length, seq_length; lia). split; [apply Z.ltb_lt; exact L|].
      apply Nat.ltb_lt. unfold num_patches, zlen in *. rewrite map_length, seq_length in L. set (g := fun y0 : nat => _). rewrite (nth_indep _ 0%nat (g 0%nat)) by (rewrite map_length, seq_length; lia). rewrite map_nth, seq_nth by lia. unfold g. cbn [Nat.add].
      rewrite Z2Nat.id by exact Hy. change (fun v : interval => (i_y0 v <=? y) && (y <? i_y1 v)) with (covers y). rewrite Ef. cbn. lia. }
    rewrite G. destruct (walk_ok _ y _ _ R (length ns + 1)) as (w & Ew & Pw); [intros i E; injection E as <-; cbn [t_nodes]; lia|]. rewrite Ew. f_equal.
    destruct (Hn w) as [Pn Sn]. rewrite <- Ef. apply sorted_unique.
    + clear - Sn. induction Sn as [|a l S IH F]; constructor; [exact IH|]. revert F. apply Forall_impl. intros b Hb. lia.
    + clear - Hs. induction ivs as [|a l IH]; [constructor|]. cbn [filter]. cbn [map] in Hs. inversion Hs as [|? ? G1 G2]; subst. destruct (covers y a); [|apply IH; assumption]. cbn [map]. constructor; [apply IH; assumption|].
      rewrite Forall_forall in *. intros b Hb. apply G2. rewrite in_map_iff in *. destruct Hb as (z & Ez & Hz). apply filter_In in Hz as [Hz _]. eauto.
    + eapply Permutation_trans; [apply Permutation_sym; exact Pn|]. eapply Permutation_trans; [exact Pw|]. apply Permutation_map, perm_filter, Permutation_sym, P1.
Qed.
End T.
