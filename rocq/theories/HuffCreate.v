(* CreateHuffmanTree: the lengths form a complete code within the limit. *)
From Coq Require Import Permutation.
From Verif Require Import Base ListAux Wrap HuffCreateModel HuffSpec HuffSort HuffRle.
Ltac Zify.zify_post_hook ::= idtac.

(* ---- trees ---- *)

Inductive ht := Lf (w v : Z) | Nd (a b : ht).
Fixpoint wt (t : ht) : Z := match t with Lf w _ => w | Nd a b => wt a + wt b end.
Fixpoint height (t : ht) : Z := match t with Lf _ _ => 0 | Nd a b => 1 + Z.max (height a) (height b) end.
Fixpoint tleaves (t : ht) : list (Z * Z) := match t with Lf w v => [(w, v)] | Nd a b => tleaves a ++ tleaves b end.
Fixpoint depths_of (t : ht) (d : Z) : list (Z * Z) := match t with Lf _ v => [(v, d)] | Nd a b => depths_of a (d + 1) ++ depths_of b (d + 1) end.
(* the larger weight of the children *)
Definition mx (t : ht) : Z := match t with Lf _ _ => 0 | Nd a b => Z.max (wt a) (wt b) end.
Fixpoint fair (t : ht) : Prop := match t with Lf w _ => 1 <= w | Nd a b => fair a /\ fair b /\ mx a <= wt b /\ mx b <= wt a end.

Lemma height_nonneg t : 0 <= height t.
Proof. induction t; cbn [height]; lia. Qed.

Fixpoint fib2 (n : nat) : Z * Z := match n with O => (1, 1) | S n' => let (a, b) := fib2 n' in (b, a + b) end.
Definition fib (n : Z) : Z := fst (fib2 (Z.to_nat n)).
Lemma fib_step n : 0 <= n -> fib (n + 2) = fib (n + 1) + fib n.
Proof.
  intros H. unfold fib. replace (Z.to_nat (n + 2)) with (S (S (Z.to_nat n))) by lia. replace (Z.to_nat (n + 1)) with (S (Z.to_nat n)) by lia. cbn [fib2]. destruct (fib2 (Z.to_nat n)) as (a & b). cbn. lia.
Qed.
Lemma fib_mono a b : 0 <= a <= b -> 1 <= fib a <= fib b.
Proof.
  assert (G : forall n, 1 <= fst (fib2 n) /\ fst (fib2 n) <= snd (fib2 n)). { induction n as [|n IH]; cbn [fib2]; [cbn; lia|]. destruct (fib2 n) as (x & y). cbn [fst snd] in *. lia. }
  intros H. unfold fib. replace (Z.to_nat b) with (Z.to_nat (b - a) + Z.to_nat a)%nat by lia. generalize (Z.to_nat (b - a)) as k, (Z.to_nat a) as n. intros k n. split; [apply G|].
  induction k as [|k IH]; [cbn; lia|]. cbn [Nat.add fib2]. pose proof (G (k + n)%nat). destruct (fib2 (k + n)) as (x & y). cbn [fst snd] in *. lia.
Qed.

Lemma fair_weight t : fair t -> fib (height t) <= wt t /\ (0 < height t -> fib (height t - 1) <= mx t).
Proof.
  induction t as [w v|a IHa b IHb]; cbn [fair wt height mx].
  - intros H. split; [change (fib 0) with 1; lia|lia].
  - intros (Fa & Fb & Mb & Ma). destruct (IHa Fa) as (Wa & Xa). destruct (IHb Fb) as (Wb & Xb). pose proof (height_nonneg a). pose proof (height_nonneg b).
    assert (P : forall x, fair x -> 1 <= wt x). { clear. induction x as [w v|a IHa b IHb]; cbn [fair wt]; [auto|]. intros (A & B & _). specialize (IHa A). specialize (IHb B). lia. }
    pose proof (P a Fa). pose proof (P b Fb). replace (1 + Z.max (height a) (height b) - 1) with (Z.max (height a) (height b)) by lia. split.
    + destruct (Z.max_spec (height a) (height b)) as [(L & ->)|(L & ->)].
      * destruct (Z.eq_dec (height b) 0) as [E|N]; [rewrite E; change (fib (1 + 0)) with 1; lia|].
        replace (1 + height b) with (height b - 1 + 2) by lia. rewrite fib_step by lia. replace (height b - 1 + 1) with (height b) by lia. specialize (Xb ltac:(lia)). lia.
      * destruct (Z.eq_dec (height a) 0) as [E|N]; [rewrite E; change (fib (1 + 0)) with 1; lia|].
        replace (1 + height a) with (height a - 1 + 2) by lia. rewrite fib_step by lia. replace (height a - 1 + 1) with (height a) by lia. specialize (Xa ltac:(lia)). lia.
    + intros _. destruct (Z.max_spec (height a) (height b)) as [(L & ->)|(L & ->)]; lia.
Qed.

Lemma fair_height t : fair t -> wt t < 2 ^ 32 -> height t < 256.
Proof.
  intros F W. destruct (fair_weight t F) as (H & _). destruct (Z.lt_ge_cases (height t) 256) as [|G]; [assumption|].
  pose proof (fib_mono 50 (height t) ltac:(lia)) as M. assert (E : fib 50 = 20365011074) by reflexivity. change (2 ^ 32) with 4294967296 in W. lia.
Qed.

(* ---- the two queues ---- *)

Definition queues := (list ht * list ht)%type.
Definition apick (q : queues) : option (ht * queues) :=
  match q with
  | ([], []) => None
  | (l :: lq, []) => Some (l, (lq, []))
  | ([], p :: pq) => Some (p, ([], pq))
  | (l :: lq, p :: pq) => if wt l <=? wt p then Some (l, (lq, p :: pq)) else Some (p, (l :: lq, pq))
  end.
Definition items (q : queues) : list ht := fst q ++ snd q.

Fixpoint ascending (l : list ht) : Prop := match l with [] => True | x :: l' => Forall (fun y => wt x <= wt y) l' /\ ascending l' end.

Lemma apick_some q : items q <> [] -> exists t q', apick q = Some (t, q').
Proof. destruct q as ([|l lq] & [|p pq]); cbn; intros H; try contradiction; try (destruct (wt l <=? wt p)); eauto. Qed.

Lemma apick_spec q t q' : apick q = Some (t, q') ->
  (fst q = t :: fst q' /\ snd q = snd q' \/ fst q = fst q' /\ snd q = t :: snd q') /\
  (ascending (fst q) -> ascending (snd q) -> Forall (fun y => wt t <= wt y) (items q')).
Proof.
  destruct q as ([|l lq] & [|p pq]); cbn [apick]; try discriminate.
  - intros E. injection E as <- <-. cbn. split; [auto|]. intros _ (H & _). exact H.
  - intros E. injection E as <- <-. cbn. split; [auto|]. intros (H & _) _. rewrite app_nil_r. exact H.
  - destruct (Z.leb_spec (wt l) (wt p)) as [L|L]; intros E; injection E as <- <-; cbn; (split; [auto|]).
    + intros (H1 & _) (H2 & _). apply Forall_app. split; [exact H1|]. constructor; [exact L|]. eapply Forall_impl; [|exact H2]. intros; cbv beta in *; lia.
    + intros (H1 & _) (H2 & _). constructor; [lia|]. apply Forall_app. split; [|exact H2]. eapply Forall_impl; [|exact H1]. intros; cbv beta in *; lia.
Qed.

Lemma apick_perm q t q' : apick q = Some (t, q') -> Permutation (items q) (t :: items q').
Proof.
  intros E. destruct (apick_spec q t q' E) as ([(A & B)|(A & B)] & _); unfold items; rewrite A, B; [reflexivity|]. symmetry. apply Permutation_middle.
Qed.

Definition astep (q : queues) : option queues :=
  do (a, q1) <- apick q; do (b, q2) <- apick q1; Some (fst q2, snd q2 ++ [Nd a b]).

Fixpoint aiter (k : nat) (q : queues) : option queues :=
  match k with O => Some q | S k' => do q1 <- astep q; aiter k' q1 end.

Lemma astep_spec q q' : astep q = Some q' -> exists a b rest, Permutation (items q) (a :: b :: rest) /\ Permutation (items q') (Nd a b :: rest) /\
  (exists q1 q2, apick q = Some (a, q1) /\ apick q1 = Some (b, q2) /\ q' = (fst q2, snd q2 ++ [Nd a b]) /\ rest = items q2).
Proof.
  unfold astep. destruct (apick q) as [(a & q1)|] eqn:E1; [|discriminate]. destruct (apick q1) as [(b & q2)|] eqn:E2; [|discriminate]. intros E. injection E as <-.
  exists a, b, (items q2). split; [|split].
  - rewrite (apick_perm _ _ _ E1), (apick_perm _ _ _ E2). reflexivity.
  - unfold items. cbn [fst snd]. rewrite app_assoc. rewrite Permutation_app_comm. reflexivity.
  - eauto 10.
Qed.

Lemma aiter_total k : forall q, length (items q) = S k -> exists t, aiter k q = Some ([], [t]) \/ k = 0%nat /\ aiter k q = Some q.
Proof.
  induction k as [|k IH]; intros q H.
  - destruct (items q) as [|t l] eqn:E; [discriminate|]. exists t. right. auto.
  - destruct (apick_some q) as (a & q1 & E1). { intros E. rewrite E in H. discriminate. }
    pose proof (Permutation_length (apick_perm _ _ _ E1)) as L1. cbn [length] in L1.
    destruct (apick_some q1) as (b & q2 & E2). { intros E. rewrite E in L1. cbn in L1. lia. }
    pose proof (Permutation_length (apick_perm _ _ _ E2)) as L2. cbn [length] in L2.
    assert (Es : astep q = Some (fst q2, snd q2 ++ [Nd a b])) by (unfold astep; now rewrite E1, E2).
    cbn [aiter]. rewrite Es.
    assert (Hl : length (items (fst q2, snd q2 ++ [Nd a b])) = S k). { unfold items in *. cbn [fst snd]. rewrite !app_length in *. cbn [length]. lia. }
    destruct (IH _ Hl) as (t & [E|(-> & E)]); [eauto|]. exists (Nd a b). left. rewrite E. f_equal.
    unfold items in *. rewrite !app_length in *. destruct q2 as ([|? ?] & [|? ?]); cbn [fst snd length app] in *; try lia. reflexivity.
Qed.

(* leaves and weight are kept *)
Definition all_leaves (l : list ht) : list (Z * Z) := flat_map tleaves l.
Lemma all_leaves_perm l l' : Permutation l l' -> Permutation (all_leaves l) (all_leaves l').
Proof. intros H. unfold all_leaves. now apply Permutation_flat_map. Qed.
Definition total (l : list ht) : Z := zsum (map wt l).
Lemma total_perm l l' : Permutation l l' -> total l = total l'.
Proof. unfold total. induction 1; cbn [map zsum fold_right] in *; unfold zsum in *; lia. Qed.

Lemma astep_kept q q' : astep q = Some q' -> Permutation (all_leaves (items q)) (all_leaves (items q')) /\ total (items q') = total (items q).
Proof.
  intros E. destruct (astep_spec q q' E) as (a & b & rest & P1 & P2 & _). split.
  - rewrite (all_leaves_perm _ _ P1), (all_leaves_perm _ _ P2). cbn. rewrite app_assoc. reflexivity.
  - rewrite (total_perm _ _ P1), (total_perm _ _ P2). cbn. unfold total, zsum. lia.
Qed.

(* ---- the order of the queues bounds the height ---- *)

Definition qinv (M L : Z) (q : queues) : Prop :=
  ascending (fst q) /\ ascending (snd q) /\ Forall (fun t => fair t /\ M <= wt t /\ mx t <= M) (items q) /\ Forall (fun t => wt t <= L) (snd q) /\ L <= 2 * M /\ 0 <= M.

Lemma ascending_snoc l t : ascending l -> Forall (fun x => wt x <= wt t) l -> ascending (l ++ [t]).
Proof.
  induction l as [|x l IH]; cbn; [auto|]. intros (H1 & H2) F. pose proof (Forall_inv F). apply Forall_inv_tail in F. split; [|auto]. apply Forall_app. split; [assumption|]. repeat constructor. assumption.
Qed.

Lemma apick_inv M L q t q' : qinv M L q -> apick q = Some (t, q') -> qinv M L q' /\ Forall (fun y => wt t <= wt y) (items q') /\ fair t /\ M <= wt t /\ mx t <= M.
Proof.
  intros (A1 & A2 & F & FL & L2 & M0) E. destruct (apick_spec q t q' E) as (H & Hmin). specialize (Hmin A1 A2).
  pose proof (Permutation_Forall (apick_perm _ _ _ E) F) as F'. pose proof (Forall_inv F') as Ht. cbv beta in Ht. apply Forall_inv_tail in F'.
  split; [|tauto]. destruct H as [(H1 & H2)|(H1 & H2)]; rewrite H1, H2 in *.
  - cbn in A1. split; [tauto|]. split; [assumption|]. split; [assumption|]. split; [assumption|]. auto.
  - cbn in A2. split; [assumption|]. split; [tauto|]. split; [assumption|]. split; [now apply Forall_inv_tail in FL|]. auto.
Qed.

Lemma astep_inv M L q q' : qinv M L q -> astep q = Some q' -> exists M' L', qinv M' L' q'.
Proof.
  intros I. unfold astep. destruct (apick q) as [(a & q1)|] eqn:E1; [|discriminate]. destruct (apick q1) as [(b & q2)|] eqn:E2; [|discriminate]. intros E. injection E as <-.
  destruct (apick_inv _ _ _ _ _ I E1) as (I1 & Mina & Fa & Ma & Xa). destruct (apick_inv _ _ _ _ _ I1 E2) as ((A1 & A2 & F & FL & L2 & M0) & Minb & Fb & Mb & Xb).
  assert (Hab : wt a <= wt b). { pose proof (Permutation_Forall (apick_perm _ _ _ E2) Mina) as G. now apply Forall_inv in G. }
  exists (wt b), (wt a + wt b). split; [exact A1|]. split.
  { cbn [snd]. apply ascending_snoc; [exact A2|]. eapply Forall_impl; [|exact FL]. intros t Ht. cbv beta in *. cbn [wt]. lia. }
  unfold items in *. cbn [fst snd]. split.
  { rewrite app_assoc. apply Forall_app. split.
    - apply Forall_forall. intros t Ht. pose proof (proj1 (Forall_forall _ _) F t Ht) as (G1 & G2 & G3). pose proof (proj1 (Forall_forall _ _) Minb t Ht). cbv beta in *. split; [exact G1|lia].
    - repeat constructor; cbn [fair wt mx]; try assumption; lia. }
  split. { apply Forall_app. split; [eapply Forall_impl; [|exact FL]; intros t Ht; cbv beta in *; lia|]. repeat constructor. cbn [wt]. lia. }
  lia.
Qed.

Lemma aiter_inv k : forall M L q q', qinv M L q -> aiter k q = Some q' -> exists M' L', qinv M' L' q'.
Proof.
  induction k as [|k IH]; intros M L q q' I E; cbn [aiter] in E; [injection E as <-; eauto|]. destruct (astep q) as [q1|] eqn:E1; [|discriminate].
  destruct (astep_inv _ _ _ _ I E1) as (M' & L' & I'). eauto.
Qed.
Lemma aiter_kept k : forall q q', aiter k q = Some q' -> Permutation (all_leaves (items q)) (all_leaves (items q')) /\ total (items q') = total (items q).
Proof.
  induction k as [|k IH]; intros q q' E; cbn [aiter] in E; [injection E as <-; split; reflexivity|]. destruct (astep q) as [q1|] eqn:E1; [|discriminate].
  destruct (astep_kept _ _ E1) as (P1 & T1). destruct (IH _ _ E) as (P2 & T2). split; [now rewrite P1|lia].
Qed.

(* ---- equal weights: the height is that of a balanced tree ---- *)

Section Equal.
Variable u : Z.
Hypothesis Hu : 0 < u.
Definition is_mid (k : Z) (t : ht) : bool := (u * 2 ^ k <? wt t) && (wt t <? u * 2 ^ (k + 1)).
Definition okk (k : Z) (t : ht) : Prop :=
  wt t = u * 2 ^ k /\ height t <= k \/ wt t = u * 2 ^ (k + 1) /\ height t <= k + 1 \/ is_mid k t = true /\ height t <= k + 1.
Definition mids (k : Z) (l : list ht) : Z := zsum (map (fun t => if is_mid k t then 1 else 0) l).
Definition einv (q : queues) : Prop := ascending (fst q) /\ ascending (snd q) /\ exists k, 0 <= k /\ Forall (okk k) (items q) /\ mids k (items q) <= 1.

Lemma mids_nonneg k l : 0 <= mids k l.
Proof. unfold mids. induction l as [|t l IH]; cbn; [lia|]. unfold zsum in IH. destruct (is_mid k t); lia. Qed.
Lemma mids_perm k l l' : Permutation l l' -> mids k l = mids k l'.
Proof. unfold mids. induction 1; cbn [map zsum fold_right] in *; unfold zsum in *; lia. Qed.
Lemma mids_none k l : mids k l = 0 -> Forall (fun t => is_mid k t = false) l.
Proof.
  induction l as [|t l IH]; intros H; [constructor|]. unfold mids in *. cbn [map zsum fold_right] in H. fold (zsum (map (fun t => if is_mid k t then 1 else 0) l)) in H.
  pose proof (mids_nonneg k l) as N. unfold mids in N. destruct (is_mid k t) eqn:E; [lia|]. constructor; [exact E|]. apply IH. lia.
Qed.
Lemma none_mids k l : Forall (fun t => is_mid k t = false) l -> mids k l = 0.
Proof. induction 1 as [|t l Ht _ IH]; [reflexivity|]. unfold mids in *. cbn [map zsum fold_right]. rewrite Ht. unfold zsum in IH. lia. Qed.

(* all of weight u 2^(k+1) *)
Lemma level_up k l x : 0 <= k -> u * 2 ^ k < x -> Forall (okk k) l -> Forall (fun t => is_mid k t = false) l -> Forall (fun t => x <= wt t) l ->
  Forall (fun t => wt t = u * 2 ^ (k + 1) /\ height t <= k + 1) l.
Proof.
  intros Hk Hx F1 F2 F3. apply Forall_forall. intros t Ht. pose proof (proj1 (Forall_forall _ _) F1 t Ht) as O. pose proof (proj1 (Forall_forall _ _) F2 t Ht) as M. pose proof (proj1 (Forall_forall _ _) F3 t Ht) as W. cbv beta in *.
  destruct O as [O|[O|(O & _)]]; [lia|assumption|congruence].
Qed.
Lemma pow_up k : 0 <= k -> 2 ^ (k + 1) = 2 * 2 ^ k.
Proof. intros H. rewrite Z.pow_add_r by lia. change (2 ^ 1) with 2. lia. Qed.

Lemma einv_next k a b rest : 0 <= k -> Forall (okk k) (a :: b :: rest) -> mids k (a :: b :: rest) <= 1 -> wt a <= wt b -> Forall (fun t => wt b <= wt t) rest ->
  exists k', 0 <= k' /\ Forall (okk k') (Nd a b :: rest) /\ mids k' (Nd a b :: rest) <= 1.
Proof.
  intros Hk F Hm Hab Hmin. pose proof (pow_up k Hk) as P1. pose proof (pow_up (k + 1) ltac:(lia)) as P2. pose proof (Z.pow_pos_nonneg 2 k ltac:(lia) Hk) as P0.
  set (p := 2 ^ k) in *. assert (Hup : 0 < u * p) by (apply Z.mul_pos_pos; lia).
  assert (E1 : u * 2 ^ (k + 1) = 2 * (u * p)) by (rewrite P1; ring). assert (E2 : u * 2 ^ (k + 1 + 1) = 4 * (u * p)) by (rewrite P2, P1; ring).
  pose proof (Forall_inv F) as Oa. apply Forall_inv_tail in F. pose proof (Forall_inv F) as Ob. apply Forall_inv_tail in F.
  assert (Hm' : (if is_mid k a then 1 else 0) + ((if is_mid k b then 1 else 0) + mids k rest) <= 1) by exact Hm. pose proof (mids_nonneg k rest) as Nr.
  assert (Mid : forall t, is_mid k t = true -> u * p < wt t < 2 * (u * p)). { intros t. unfold is_mid. fold p. rewrite E1. lia. }
  assert (Up : forall x, u * p < x -> Forall (fun t => x <= wt t) rest -> mids k rest = 0 -> Forall (fun t => wt t = 2 * (u * p) /\ height t <= k + 1) rest).
  { intros x Hx Fx Mx. rewrite <- E1. apply (level_up k rest x Hk Hx F (mids_none k rest Mx) Fx). }
  assert (RestUp : Forall (fun t => wt t = 2 * (u * p) /\ height t <= k + 1) rest -> Forall (okk (k + 1)) rest /\ mids (k + 1) rest = 0).
  { intros FR. split.
    - eapply Forall_impl; [|exact FR]. intros t (W & Hh). left. rewrite E1. auto.
    - apply none_mids. eapply Forall_impl; [|exact FR]. intros t (W & _). unfold is_mid. rewrite E1, W. lia. }
  assert (NewMid : 2 * (u * p) < wt a + wt b < 4 * (u * p) -> height a <= k + 1 -> height b <= k + 1 -> Forall (fun t => wt t = 2 * (u * p) /\ height t <= k + 1) rest ->
    exists k', 0 <= k' /\ Forall (okk k') (Nd a b :: rest) /\ mids k' (Nd a b :: rest) <= 1).
  { intros W Ha Hb FR. destruct (RestUp FR) as (R1 & R2). exists (k + 1). split; [lia|]. split.
    - constructor; [|exact R1]. right. right. split; [unfold is_mid; cbn [wt]; rewrite E1, E2; lia|cbn [height]; lia].
    - unfold mids in *. cbn [map zsum fold_right]. unfold zsum in R2. rewrite R2. destruct (is_mid (k + 1) (Nd a b)); lia. }
  unfold okk in Oa, Ob. rewrite E1 in Oa, Ob. fold p in Oa, Ob.
  destruct Oa as [(Wa & Ha)|[(Wa & Ha)|(Ia & Ha)]].
  - destruct Ob as [(Wb & Hb)|[(Wb & Hb)|(Ib & Hb)]].
    + exists k. split; [exact Hk|]. split.
      * constructor; [|exact F]. right. left. cbn [wt height]. rewrite E1. lia.
      * unfold mids in *. cbn [map zsum fold_right]. assert (Nm : is_mid k (Nd a b) = false) by (unfold is_mid; cbn [wt]; rewrite E1; lia). rewrite Nm.
        unfold zsum in *. destruct (is_mid k a), (is_mid k b); lia.
    + assert (Fr : Forall (fun t => wt t = 2 * (u * p) /\ height t <= k + 1) rest).
      { apply Forall_forall. intros t Ht. pose proof (proj1 (Forall_forall _ _) F t Ht) as O. pose proof (proj1 (Forall_forall _ _) Hmin t Ht) as W. cbv beta in *. unfold okk in O. rewrite E1 in O. fold p in O.
        destruct O as [O|[O|(O & _)]]; [lia|assumption|]. apply Mid in O. lia. }
      apply NewMid; try assumption; lia.
    + pose proof (Mid b Ib). rewrite Ib in Hm'. assert (is_mid k a = false) as Na by (unfold is_mid; fold p; lia). rewrite Na in Hm'.
      apply NewMid; try lia. apply (Up (wt b)); [lia|exact Hmin|lia].
  - destruct Ob as [(Wb & Hb)|[(Wb & Hb)|(Ib & Hb)]]; [lia| |apply Mid in Ib; lia].
    assert (Fr : Forall (fun t => wt t = 2 * (u * p) /\ height t <= k + 1) rest).
    { apply Forall_forall. intros t Ht. pose proof (proj1 (Forall_forall _ _) F t Ht) as O. pose proof (proj1 (Forall_forall _ _) Hmin t Ht) as W. cbv beta in *. unfold okk in O. rewrite E1 in O. fold p in O.
      destruct O as [O|[O|(O & _)]]; [lia|assumption|]. apply Mid in O. lia. }
    destruct (RestUp Fr) as (R1 & R2). exists (k + 1). split; [lia|]. split.
    + constructor; [|exact R1]. right. left. cbn [wt height]. rewrite E2. lia.
    + unfold mids in *. cbn [map zsum fold_right]. unfold zsum in R2. rewrite R2. destruct (is_mid (k + 1) (Nd a b)); lia.
  - pose proof (Mid a Ia). rewrite Ia in Hm'. destruct Ob as [(Wb & Hb)|[(Wb & Hb)|(Ib & Hb)]]; [lia| |rewrite Ib in Hm'; lia].
    apply NewMid; try lia. apply (Up (wt a)); [lia| |destruct (is_mid k b); lia]. eapply Forall_impl; [|exact Hmin]. intros; cbv beta in *; lia.
Qed.

Lemma apick_einv q t q' : ascending (fst q) -> ascending (snd q) -> apick q = Some (t, q') -> ascending (fst q') /\ ascending (snd q').
Proof.
  intros A1 A2 E. destruct (apick_spec q t q' E) as ([(H1 & H2)|(H1 & H2)] & _); rewrite H1, H2 in *; cbn in *; tauto.
Qed.

Lemma aiter_einv k : forall M L q q', qinv M L q -> einv q -> aiter k q = Some q' -> einv q'.
Proof.
  induction k as [|k IH]; intros M L q q' Q I E; cbn [aiter] in E; [injection E as <-; exact I|]. destruct (astep q) as [q1|] eqn:E1; [|discriminate].
  destruct (astep_inv _ _ _ _ Q E1) as (M' & L' & Q'). apply (IH M' L' q1 q' Q'); [|exact E]. split; [apply Q'|]. split; [apply Q'|].
  destruct (astep_spec q q1 E1) as (a & b & rest & P1 & P2 & x & y & Ea & Eb & _ & ->). destruct I as (_ & _ & lv & Hlv & F & Hm).
  destruct (apick_inv _ _ _ _ _ Q Ea) as (Qx & Mina & _). destruct (apick_inv _ _ _ _ _ Qx Eb) as (_ & Minb & _).
  assert (Hab : wt a <= wt b). { pose proof (Permutation_Forall (apick_perm _ _ _ Eb) Mina) as G. now apply Forall_inv in G. }
  destruct (einv_next lv a b (items y) Hlv (Permutation_Forall P1 F)) as (lv' & H1 & H2 & H3); [rewrite <- (mids_perm _ _ _ P1); exact Hm|exact Hab|exact Minb|].
  exists lv'. split; [exact H1|]. split; [exact (Permutation_Forall (Permutation_sym P2) H2)|]. rewrite (mids_perm _ _ _ P2). exact H3.
Qed.

Lemma equal_height t n lim : einv ([], [t]) -> wt t = u * n -> 1 <= n <= 2 ^ lim -> 0 <= lim -> height t <= lim.
Proof.
  intros (_ & _ & k & Hk & F & _) W Hn Hl. cbn in F. pose proof (Forall_inv F) as O. unfold okk, is_mid in O. rewrite W in O.
  assert (Hlt : u * 2 ^ k < u * n -> k < lim). { intros G. apply (Z.pow_lt_mono_r_iff 2); [lia|lia|]. nia. }
  assert (Hle : forall j, 0 <= j -> u * n = u * 2 ^ j -> j <= lim). { intros j Hj G. apply (Z.pow_le_mono_r_iff 2); [lia|lia|]. nia. }
  destruct O as [(O & Hh)|[(O & Hh)|(O & Hh)]]; [specialize (Hle k Hk O); lia|specialize (Hle (k + 1) ltac:(lia) O); lia|lia].
Qed.
End Equal.
