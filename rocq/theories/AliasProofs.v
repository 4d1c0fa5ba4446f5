From Verif Require Import Base ListAux Arr AliasModel AliasSpec.

Lemma zsum_app a b : zsum (a ++ b) = zsum a + zsum b.
Proof. unfold zsum. induction a as [|x a IH]; cbn [app fold_right]; lia. Qed.
Lemma zsum_nonneg l : Forall (fun v => 0 <= v) l -> 0 <= zsum l.
Proof. unfold zsum. induction 1; cbn [fold_right]; lia. Qed.

Definition sumf (f : Z -> Z) (l : list Z) : Z := zsum (map f l).
Lemma sumf_cons f x l : sumf f (x :: l) = f x + sumf f l.
Proof. reflexivity. Qed.
Lemma sumf_ext f g l : (forall x, In x l -> f x = g x) -> sumf f l = sumf g l.
Proof. intros H. unfold sumf. f_equal. now apply map_ext_in. Qed.
Lemma sumf_nonneg f l : (forall x, In x l -> 0 <= f x) -> 0 <= sumf f l.
Proof. intros H. apply zsum_nonneg. apply Forall_forall. intros y Hy. apply in_map_iff in Hy. destruct Hy as (x & <- & Hx). auto. Qed.

Lemma freq_nth dist i v : znth dist i = Some v -> freq_of dist i = v.
Proof. unfold freq_of. now intros ->. Qed.
Lemma freq_nonneg dist i : Forall (fun v => 0 <= v) dist -> 0 <= freq_of dist i.
Proof.
  intros H. unfold freq_of, znth. destruct (i <? 0); [lia|]. destruct (nth_error dist _) as [v|] eqn:E; [|lia].
  rewrite Forall_forall in H. apply H. eapply nth_error_In; eauto.
Qed.
Lemma freq_out dist i : zlen dist <= i -> freq_of dist i = 0.
Proof.
  intros H. unfold freq_of, znth. unfold zlen in H. destruct (Z.ltb_spec i 0); [reflexivity|].
  rewrite (proj2 (nth_error_None dist (Z.to_nat i))) by lia. reflexivity.
Qed.
Lemma znth_in {A} (l : list A) i : 0 <= i < zlen l -> exists v, znth l i = Some v.
Proof.
  intros H. unfold znth. replace (i <? 0) with false by lia. destruct (nth_error l (Z.to_nat i)) as [v|] eqn:E; [eauto|].
  apply nth_error_None in E. unfold zlen in H. lia.
Qed.
Lemma znth_bound {A} (l : list A) i v : znth l i = Some v -> 0 <= i < zlen l.
Proof.
  unfold znth, zlen. destruct (Z.ltb_spec i 0); [discriminate|]. intros E.
  assert (Z.to_nat i < length l)%nat by (apply nth_error_Some; congruence). lia.
Qed.
Lemma znth_app_mid {A} (p : list A) v q : znth (p ++ v :: q) (zlen p) = Some v.
Proof. unfold znth, zlen. replace (_ <? 0) with false by lia. rewrite Nat2Z.id, nth_error_app2, Nat.sub_diag by lia. reflexivity. Qed.

(* ---- the two stacks ---- *)
Section Tables.
Variables (dist : list Z) (T e : Z).

Definition stacks (i : Z) (total : Z) (c : Z -> Z) (under over : list Z) : Prop :=
  (forall j, 0 <= j < i -> c j = freq_of dist j) /\
  NoDup (under ++ over) /\
  (forall j, In j under -> 0 <= j < i /\ freq_of dist j < e) /\
  (forall j, In j over -> 0 <= j < i /\ e < freq_of dist j) /\
  (forall j, 0 <= j < i -> In j under \/ In j over \/ freq_of dist j = e) /\
  sumf (fun j => freq_of dist j - e) over - sumf (fun j => e - freq_of dist j) under = total - e * i.

Lemma nodup_mid {A} (a b : list A) x : NoDup (a ++ b) -> ~ In x (a ++ b) -> NoDup (a ++ x :: b).
Proof. intros H N. apply NoDup_Add with (a := x) (l := a ++ b); [apply Add_app|]. auto. Qed.

Lemma stacks_step i total c under over v :
  0 <= i -> freq_of dist i = v -> stacks i total c under over ->
  let c' := fun j => if j =? i then v else c j in
  stacks (i + 1) (total + v) c'
    (if e <? v then under else if v <? e then i :: under else under)
    (if e <? v then i :: over else over).
Proof.
  intros Hi Hv (H1 & H2 & H3 & H4 & H5 & H6) c'.
  assert (N : ~ In i (under ++ over)).
  { rewrite in_app_iff. intros [H|H]; [apply H3 in H|apply H4 in H]; lia. }
  split; [|split; [|split; [|split; [|split]]]].
  - intros j Hj. unfold c'. destruct (Z.eqb_spec j i) as [->|]; [auto|]. apply H1. lia.
  - destruct (e <? v); [now apply nodup_mid|]. destruct (v <? e); [cbn; constructor; auto|auto].
  - intros j Hj. destruct (Z.ltb_spec e v); [apply H3 in Hj; lia|]. destruct (Z.ltb_spec v e); [|apply H3 in Hj; lia].
    destruct Hj as [<-|Hj]; [lia|apply H3 in Hj; lia].
  - intros j Hj. destruct (Z.ltb_spec e v); [|apply H4 in Hj; lia]. destruct Hj as [<-|Hj]; [lia|apply H4 in Hj; lia].
  - intros j Hj. destruct (Z.eq_dec j i) as [->|].
    + destruct (Z.ltb_spec e v); [right; left; now left|]. destruct (Z.ltb_spec v e); [left; now left|right; right; lia].
    + destruct (H5 j ltac:(lia)) as [H|[H|H]].
      * left. destruct (e <? v); [auto|]. destruct (v <? e); [now right|auto].
      * right; left. destruct (e <? v); [now right|auto].
      * auto.
  - destruct (Z.ltb_spec e v); [|destruct (Z.ltb_spec v e)]; rewrite ?sumf_cons, ?Hv; lia.
Qed.

Lemma classify_spec : Forall (fun v => 0 <= v <= 4096) dist -> zlen dist <= T ->
  forall rest pre c under over, dist = pre ++ rest -> stacks (zlen pre) (zsum pre) c under over ->
  exists c' under' over', classify rest T e (zlen pre) c under over = Some (c', (under', over')) /\
    stacks (zlen dist) (zsum dist) c' under' over'.
Proof.
  intros Hd HT. induction rest as [|v rest IH]; intros pre c under over E S; cbn [classify].
  - rewrite app_nil_r in E. subst pre. eauto 6.
  - assert (K : 0 <= zlen pre < T).
    { rewrite E in HT. unfold zlen in *. rewrite app_length in HT. cbn in HT. lia. }
    rewrite set_ok by exact K.
    assert (Hv : 0 <= v <= 4096). { rewrite Forall_forall in Hd. apply Hd. rewrite E, in_app_iff. right; now left. }
    replace (w32 v) with v by (unfold w32; rewrite Z.mod_small; lia).
    assert (Ef : freq_of dist (zlen pre) = v). { apply freq_nth. rewrite E. apply znth_app_mid. }
    pose proof (stacks_step (zlen pre) (zsum pre) c under over v ltac:(lia) Ef S) as S'. cbn zeta in S'.
    assert (El : zlen (pre ++ [v]) = zlen pre + 1) by (unfold zlen; rewrite app_length; cbn; lia).
    assert (Es : zsum (pre ++ [v]) = zsum pre + v) by (rewrite zsum_app; unfold zsum; cbn; lia).
    rewrite <- El, <- Es in S'. rewrite <- El.
    destruct (e <? v); [|destruct (v <? e)]; (apply IH; [rewrite <- app_assoc; exact E|exact S']).
Qed.

Lemma pad_spec : 0 < e -> forall n i total c under over, zlen dist <= i -> 0 <= i -> i + Z.of_nat n = T ->
  stacks i total c under over ->
  exists c' under', pad_under n T i c under = Some (c', under') /\ stacks T total c' under' over.
Proof.
  intros He. induction n as [|n IH]; intros i total c under over Hl Hi HT S; cbn [pad_under].
  - replace T with i by lia. eauto.
  - rewrite set_ok by lia. pose proof (stacks_step i total c under over 0 Hi (freq_out _ _ Hl) S) as S'. cbn zeta in S'.
    replace (e <? 0) with false in S' by lia. replace (0 <? e) with true in S' by lia. rewrite Z.add_0_r in S'.
    apply (IH (i + 1) total); auto; lia.
Qed.

(* ---- the loop ---- *)
Definition width (c : Z -> Z) (i : Z) : Z := e - c i.
Record inv (c : Z -> Z) (under over F : list Z) (a : Z -> entry) : Prop := {
  i_nodup : NoDup (under ++ over ++ F);
  i_range : forall i, In i (under ++ over ++ F) -> 0 <= i < T;
  i_bound : forall i, 0 <= i < T -> 0 <= c i <= freq_of dist i;
  i_under : forall i, In i under -> c i < e;
  i_over : forall i, In i over -> e < c i;
  i_fixed : forall i, In i F -> c i < e;
  i_exact : forall i, 0 <= i < T -> In i (under ++ over ++ F) \/ c i = e;
  i_sum : sumf (fun j => c j - e) over = sumf (fun j => e - c j) under;
  i_in : forall i, In i F -> c i <= offsets1 (a i) /\ 0 <= right_value (a i) < T /\ c (right_value (a i)) <= offsets1 (a i) /\
                      offsets1 (a i) + width c i <= freq_of dist (right_value (a i));
  i_cover : forall j x, 0 <= j < T -> c j <= x < freq_of dist j ->
      exists i, In i F /\ right_value (a i) = j /\ offsets1 (a i) <= x < offsets1 (a i) + width c i;
  i_once : forall i1 i2 x, In i1 F -> In i2 F -> right_value (a i1) = right_value (a i2) ->
      offsets1 (a i1) <= x < offsets1 (a i1) + width c i1 -> offsets1 (a i2) <= x < offsets1 (a i2) + width c i2 -> i1 = i2
}.

Lemma in_perm3 (a : Z) (u o f : list Z) : In a (u ++ o ++ f) <-> In a u \/ In a o \/ In a f.
Proof. rewrite !in_app_iff. tauto. Qed.

Lemma inv_init c under over a : 0 < e -> Forall (fun v => 0 <= v) dist -> zsum dist = e * T ->
  stacks T (zsum dist) c under over -> inv c under over [] a.
Proof.
  intros He Hd Hs (H1 & H2 & H3 & H4 & H5 & H6). constructor; try (intros; cbn in *; contradiction).
  - now rewrite app_nil_r.
  - intros i. rewrite in_perm3. intros [H|[H|H]]; [apply H3 in H; lia|apply H4 in H; lia|contradiction].
  - intros i Hi. rewrite H1 by exact Hi. pose proof (freq_nonneg dist i Hd). lia.
  - intros i Hi. pose proof (H3 i Hi). rewrite H1; lia.
  - intros i Hi. pose proof (H4 i Hi). rewrite H1; lia.
  - intros i Hi. rewrite in_perm3. destruct (H5 i Hi) as [H|[H|H]]; auto. right. now rewrite H1.
  - rewrite (sumf_ext (fun j => c j - e) (fun j => freq_of dist j - e)), (sumf_ext (fun j => e - c j) (fun j => e - freq_of dist j)); [lia| |].
    + intros x Hx. rewrite H1; [lia|]. apply H3 in Hx. lia.
    + intros x Hx. rewrite H1; [lia|]. apply H4 in Hx. lia.
  - intros j x Hj Hx. rewrite H1 in Hx by exact Hj. lia.
Qed.

Hypothesis HT : 0 <= T <= 256.
Hypothesis He : 0 < e <= 256.
Hypothesis Hd : Forall (fun v => 0 <= v <= 4096) dist.

Lemma freq_le i : 0 <= freq_of dist i <= 4096.
Proof.
  split; [apply freq_nonneg; eapply Forall_impl; [|exact Hd]; cbn; lia|].
  unfold freq_of, znth. destruct (i <? 0); [lia|]. destruct (nth_error dist _) as [v|] eqn:E; [|lia].
  rewrite Forall_forall in Hd. apply nth_error_In in E. apply Hd in E. lia.
Qed.

Lemma inv_step c ui oi under over F a :
  inv c (ui :: under) (oi :: over) F a ->
  let co := c oi - (e - c ui) in
  let c' := fun j => if j =? oi then co else c j in
  let a' := fun j => if j =? ui then set_right (a ui) oi co else a j in
  inv c' (if co <? e then oi :: under else under) (if co <? e then over else if e <? co then oi :: over else over) (ui :: F) a'.
Proof.
  intros I co c' a'. destruct I as [Ind Ir Ib Iu Io If_ Ie Is Ii Ic I1].
  pose proof (Iu ui (or_introl eq_refl)) as Hu. pose proof (Io oi (or_introl eq_refl)) as Ho.
  assert (Ru : 0 <= ui < T) by (apply Ir; now left).
  assert (Ro : 0 <= oi < T) by (apply Ir; rewrite in_perm3; right; left; now left).
  pose proof (Ib ui Ru) as Bu. pose proof (Ib oi Ro) as Bo.
  assert (Huo : ui <> oi) by (intros ->; lia).
  cbn [app] in Ind. apply NoDup_cons_iff in Ind. destruct Ind as (Nu & Ind).
  pose proof (NoDup_remove_2 _ _ _ Ind) as No. pose proof (NoDup_remove_1 _ _ _ Ind) as Ind'.
  assert (Nu' : ~ In ui (under ++ over ++ F)). { intros H. apply Nu. rewrite in_app_iff in *. cbn. tauto. }
  assert (Eo : c' oi = co) by (unfold c'; rewrite Z.eqb_refl; reflexivity).
  assert (En : forall j, j <> oi -> c' j = c j) by (intros j Hj; unfold c'; rewrite (proj2 (Z.eqb_neq j oi) Hj); reflexivity).
  assert (Ea : a' ui = set_right (a ui) oi co) by (unfold a'; rewrite Z.eqb_refl; reflexivity).
  assert (Ean : forall j, j <> ui -> a' j = a j) by (intros j Hj; unfold a'; rewrite (proj2 (Z.eqb_neq j ui) Hj); reflexivity).
  assert (inF : forall j, In j F -> j <> oi /\ j <> ui).
  { intros j Hj. split; intros ->; [apply No|apply Nu']; rewrite in_perm3; auto. }
  assert (inU : forall j, In j under -> j <> oi /\ j <> ui).
  { intros j Hj. split; intros ->; [apply No|apply Nu']; rewrite in_perm3; auto. }
  assert (inO : forall j, In j over -> j <> oi /\ j <> ui).
  { intros j Hj. split; intros ->; [apply No|apply Nu']; rewrite in_perm3; auto. }
  assert (wF : forall j, In j F -> width c' j = width c j) by (intros j Hj; unfold width; rewrite En; [reflexivity|now apply inF]).
  assert (wu : width c' ui = e - c ui) by (unfold width; rewrite En by auto; reflexivity).
  assert (Hco : 0 <= co < c oi) by (unfold co; lia).
  constructor.
  - assert (P : NoDup (under ++ over ++ ui :: F)). { rewrite app_assoc. apply nodup_mid; rewrite <- app_assoc; auto. }
    assert (Noui : ~ In oi (under ++ over ++ ui :: F)). { intros H. apply No. rewrite !in_app_iff in *. cbn in H. destruct H as [H|[H|[H|H]]]; auto. contradiction. }
    destruct (co <? e); [cbn; constructor; auto|]. destruct (e <? co); [|exact P].
    cbn [app]. apply nodup_mid; auto.
  - intros i Hi. rewrite in_perm3 in Hi. assert (K : i = oi \/ i = ui \/ In i (under ++ over ++ F)).
    { rewrite in_perm3. destruct Hi as [H|[H|H]].
      - destruct (co <? e); [destruct H; auto|auto].
      - destruct (co <? e); [auto|]. destruct (e <? co); [destruct H; auto|auto].
      - destruct H; auto. }
    destruct K as [->|[->|K]]; auto. apply Ir. rewrite in_perm3 in K |- *. cbn. tauto.
  - intros i Hi. destruct (Z.eq_dec i oi) as [->|N]; [rewrite Eo; lia|rewrite En by exact N; now apply Ib].
  - intros i Hi. destruct (Z.ltb_spec co e).
    + destruct Hi as [<-|Hi]; [lia|]. rewrite En by now apply inU. apply Iu. now right.
    + rewrite En by now apply inU. apply Iu. now right.
  - intros i Hi. destruct (Z.ltb_spec co e); [|destruct (Z.ltb_spec e co)].
    + rewrite En by now apply inO. apply Io. now right.
    + destruct Hi as [<-|Hi]; [lia|]. rewrite En by now apply inO. apply Io. now right.
    + rewrite En by now apply inO. apply Io. now right.
  - intros i [<-|Hi]; [rewrite En by auto; lia|rewrite En by (now apply inF); auto].
  - intros i Hi. destruct (Z.eq_dec i oi) as [->|N].
    + rewrite Eo, in_perm3. destruct (Z.ltb_spec co e); [left; left; now left|]. destruct (Z.ltb_spec e co); [left; right; left; now left|right; lia].
    + rewrite En by exact N. destruct (Ie i Hi) as [H|H]; [left|auto]. rewrite in_perm3 in H |- *. cbn in H |- *.
      destruct (co <? e); [|destruct (e <? co)]; cbn; intuition congruence.
  - rewrite !sumf_cons in Is.
    rewrite <- (sumf_ext (fun j => c' j - e) (fun j => c j - e) over) in Is by (intros j Hj; rewrite En; [lia|now apply inO]).
    rewrite <- (sumf_ext (fun j => e - c' j) (fun j => e - c j) under) in Is by (intros j Hj; rewrite En; [lia|now apply inU]).
    destruct (Z.ltb_spec co e); [|destruct (Z.ltb_spec e co)]; rewrite ?sumf_cons, ?Eo; unfold co in *; lia.
  - intros i [<-|Hi].
    + rewrite Ea. cbn [set_right right_value offsets1]. rewrite Eo, wu, En by auto. unfold co. lia.
    + rewrite Ean by now apply inF. rewrite wF by exact Hi. destruct (Ii i Hi) as (O & R & L & U).
      split; [rewrite En by (now apply inF); exact O|]. split; [exact R|]. split; [|exact U]. destruct (Z.eq_dec (right_value (a i)) oi) as [E|N]; [rewrite E, Eo; rewrite E in L; lia|now rewrite En].
  - intros j x Hj Hx. destruct (Z.eq_dec j oi) as [->|N].
    + rewrite Eo in Hx. destruct (Z_lt_ge_dec x (c oi)).
      * exists ui. split; [now left|]. rewrite Ea. cbn [set_right right_value offsets1]. rewrite wu. unfold co in *. lia.
      * destruct (Ic oi x Hj ltac:(lia)) as (i & Hi & E & K). exists i. split; [now right|]. rewrite Ean by now apply inF. rewrite wF; auto.
    + rewrite En in Hx by exact N. destruct (Ic j x Hj Hx) as (i & Hi & E & K). exists i. split; [now right|]. rewrite Ean by now apply inF. rewrite wF; auto.
  - assert (Aux : forall i x, In i F -> right_value (a i) = oi -> offsets1 (a i) <= x -> c oi <= x).
    { intros i x Hi E L. destruct (Ii i Hi) as (_ & _ & L' & _). rewrite E in L'. lia. }
    intros i1 i2 x [<-|Hi1] [<-|Hi2]; auto.
    + rewrite Ea, (Ean i2) by now apply inF. cbn [set_right right_value offsets1]. rewrite wu. intros E K1 K2.
      specialize (Aux i2 x Hi2 (eq_sym E) ltac:(lia)). unfold co in *. lia.
    + rewrite Ea, (Ean i1) by now apply inF. cbn [set_right right_value offsets1]. rewrite wu. intros E K1 K2.
      specialize (Aux i1 x Hi1 E ltac:(lia)). unfold co in *. lia.
    + rewrite !Ean by now apply inF. rewrite !wF by auto. intros E K1 K2. exact (I1 i1 i2 x Hi1 Hi2 E K1 K2).
Qed.

Lemma reassign_spec : forall fuel c under over F a, inv c under over F a ->
  (length under + length over <= fuel)%nat ->
  exists c' a' F', reassign fuel T e c under over a = Some (c', a') /\ inv c' [] [] F' a'.
Proof.
  induction fuel as [|fuel IH]; intros c under over F a I Hf.
  - destruct over as [|oi over]; [|cbn in Hf; lia]. destruct under; [|cbn in Hf; lia]. cbn. eauto 6.
  - destruct over as [|oi over]; cbn [reassign].
    + destruct under as [|ui under]; [eauto 6|]. exfalso. pose proof (i_sum _ _ _ _ _ I) as H. rewrite sumf_cons in H.
      assert (0 <= sumf (fun j => e - c j) under). { apply sumf_nonneg. intros x Hx. pose proof (i_under _ _ _ _ _ I x (or_intror Hx)). lia. }
      pose proof (i_under _ _ _ _ _ I ui (or_introl eq_refl)). change (sumf (fun j => c j - e) []) with 0 in H. lia.
    + pose proof (i_over _ _ _ _ _ I oi (or_introl eq_refl)) as Ho.
      destruct under as [|ui under].
      { exfalso. pose proof (i_sum _ _ _ _ _ I) as H. rewrite sumf_cons in H.
        assert (0 <= sumf (fun j => c j - e) over). { apply sumf_nonneg. intros x Hx. pose proof (i_over _ _ _ _ _ I x (or_intror Hx)). lia. }
        change (sumf (fun j => e - c j) []) with 0 in H. lia. }
      pose proof (i_under _ _ _ _ _ I ui (or_introl eq_refl)) as Hu.
      assert (Ru : 0 <= ui < T) by (apply (i_range _ _ _ _ _ I); now left).
      assert (Ro : 0 <= oi < T) by (apply (i_range _ _ _ _ _ I); rewrite in_perm3; right; left; now left).
      pose proof (i_bound _ _ _ _ _ I ui Ru) as Bu. pose proof (i_bound _ _ _ _ _ I oi Ro) as Bo. pose proof (freq_le oi).
      pose proof (inv_step _ _ _ _ _ _ _ I) as I'. cbn zeta in I'.
      rewrite !get_ok, set_ok by assumption. cbn zeta.
      replace (w32 (c oi - w32 (e - c ui))) with (c oi - (e - c ui)) by (unfold w32; rewrite !Z.mod_small; lia).
      rewrite set_ok by assumption. cbn zeta.
      replace (w8 oi) with oi by (unfold w8; rewrite Z.mod_small; lia).
      replace (w16 (c oi - (e - c ui))) with (c oi - (e - c ui)) by (unfold w16; rewrite Z.mod_small; lia).
      destruct (c oi - (e - c ui) <? e); [|destruct (e <? c oi - (e - c ui))];
        (eapply IH; [exact I'|cbn in *; lia]).
Qed.

Definition agree (F : list Z) (a b : Z -> entry) : Prop :=
  forall i, In i F -> right_value (a i) = right_value (b i) /\ offsets1 (a i) = offsets1 (b i).

Lemma reassign_agree : forall fuel c under over F a b, inv c under over F a -> inv c under over F b -> agree F a b ->
  (length under + length over <= fuel)%nat ->
  exists c' a' b' F', reassign fuel T e c under over a = Some (c', a') /\ reassign fuel T e c under over b = Some (c', b') /\   inv c' [] [] F' a' /\ inv c' [] [] F' b' /\ agree F' a' b'.
Proof.
  induction fuel as [|fuel IH]; intros c under over F a b I J G Hf.
  - destruct over as [|oi over]; [|cbn in Hf; lia]. destruct under; [|cbn in Hf; lia]. cbn. eauto 10.
  - destruct over as [|oi over]; cbn [reassign].
    + destruct under as [|ui under]; [eauto 10|]. exfalso. pose proof (i_sum _ _ _ _ _ I) as H. rewrite sumf_cons in H.
      assert (0 <= sumf (fun j => e - c j) under). { apply sumf_nonneg. intros x Hx. pose proof (i_under _ _ _ _ _ I x (or_intror Hx)). lia. }
      pose proof (i_under _ _ _ _ _ I ui (or_introl eq_refl)). change (sumf (fun j => c j - e) []) with 0 in H. lia.
    + pose proof (i_over _ _ _ _ _ I oi (or_introl eq_refl)) as Ho.
      destruct under as [|ui under].
      { exfalso. pose proof (i_sum _ _ _ _ _ I) as H. rewrite sumf_cons in H.
        assert (0 <= sumf (fun j => c j - e) over). { apply sumf_nonneg. intros x Hx. pose proof (i_over _ _ _ _ _ I x (or_intror Hx)). lia. }
        change (sumf (fun j => e - c j) []) with 0 in H. lia. }
      pose proof (i_under _ _ _ _ _ I ui (or_introl eq_refl)) as Hu.
      assert (Ru : 0 <= ui < T) by (apply (i_range _ _ _ _ _ I); now left).
      assert (Ro : 0 <= oi < T) by (apply (i_range _ _ _ _ _ I); rewrite in_perm3; right; left; now left).
      pose proof (i_bound _ _ _ _ _ I ui Ru) as Bu. pose proof (i_bound _ _ _ _ _ I oi Ro) as Bo. pose proof (freq_le oi).
      pose proof (inv_step _ _ _ _ _ _ _ I) as I'. pose proof (inv_step _ _ _ _ _ _ _ J) as J'. cbn zeta in I', J'.
      rewrite !get_ok, !set_ok by assumption. cbn zeta.
      replace (w32 (c oi - w32 (e - c ui))) with (c oi - (e - c ui)) by (unfold w32; rewrite !Z.mod_small; lia).
      replace (w8 oi) with oi by (unfold w8; rewrite Z.mod_small; lia).
      replace (w16 (c oi - (e - c ui))) with (c oi - (e - c ui)) by (unfold w16; rewrite Z.mod_small; lia).
      assert (G' : agree (ui :: F) (fun j => if j =? ui then set_right (a ui) oi (c oi - (e - c ui)) else a j)
                     (fun j => if j =? ui then set_right (b ui) oi (c oi - (e - c ui)) else b j)).
      { intros i Hi. cbn beta. destruct (Z.eqb_spec i ui) as [->|N]; [split; reflexivity|]. destruct Hi as [->|Hi]; [contradiction|]. now apply G. }
      destruct (c oi - (e - c ui) <? e); [|destruct (e <? c oi - (e - c ui))];
        (eapply IH; [exact I'|exact J'|exact G'|cbn in *; lia]).
Qed.

(* ---- the last loop ---- *)
Definition final_entry (c : Z -> Z) (a : Z -> entry) (i : Z) : entry :=
  let '(rv, o1, cut) := if c i =? e then (i, 0, 0) else (right_value (a i), offsets1 (a i) - c i, c i) in
  Entry cut rv (freq_of dist i) o1 (Z.lxor (freq_of dist rv) (freq_of dist i)).

Lemma lxor_small a b : 0 <= a <= 4096 -> 0 <= b <= 4096 -> 0 <= Z.lxor a b < 2 ^ 16.
Proof.
  intros Ha Hb. assert (0 <= Z.lxor a b) by (apply Z.lxor_nonneg; lia). split; [assumption|].
  destruct (Z.eq_dec (Z.lxor a b) 0) as [->|N]; [lia|]. apply Z.log2_lt_pow2; [lia|].
  apply Z.le_lt_trans with (Z.max (Z.log2 a) (Z.log2 b)); [apply Z.log2_lxor; lia|].
  assert (Z.log2 a <= Z.log2 4096) by (apply Z.log2_le_mono; lia). assert (Z.log2 b <= Z.log2 4096) by (apply Z.log2_le_mono; lia).
  change (Z.log2 4096) with 12 in *. lia.
Qed.

Lemma finish_spec c F a : inv c [] [] F a -> forall n i cur, 0 <= i -> i + Z.of_nat n = T ->
  (forall j, i <= j < T -> cur j = a j) ->
  (forall j, 0 <= j < i -> cur j = final_entry c a j) ->
  exists t, finish n T e i dist c cur = Some t /\ forall j, 0 <= j < T -> t j = final_entry c a j.
Proof.
  intros I. induction n as [|n IH]; intros i cur Hi Hn H1 H2; cbn [finish].
  - exists cur. split; [reflexivity|]. intros j Hj. apply H2. lia.
  - rewrite !get_ok by lia. rewrite (H1 i) by lia.
    assert (Hi' : 0 <= i < T) by lia. pose proof (i_bound _ _ _ _ _ I i Hi') as B.
    set (t3 := if c i =? e then _ else _).
    assert (E3 : t3 = if c i =? e then (i, 0, 0) else (right_value (a i), offsets1 (a i) - c i, c i)).
    { unfold t3. destruct (Z.eqb_spec (c i) e) as [Ee|Ne]; [f_equal; f_equal; unfold w8; rewrite Z.mod_small; lia|].
      destruct (i_exact _ _ _ _ _ I i Hi') as [H|H]; [|contradiction]. cbn [app] in H.
      pose proof (i_fixed _ _ _ _ _ I i H) as Hf. destruct (i_in _ _ _ _ _ I i H) as (O & R & L & U).
      pose proof (freq_le (right_value (a i))). unfold width in U.
      f_equal; [f_equal|]; [unfold w16|unfold w8]; rewrite Z.mod_small; lia. }
    rewrite E3. clear t3 E3.
    destruct (if c i =? e then (i, 0, 0) else (right_value (a i), offsets1 (a i) - c i, c i)) as [[rv o1] cut] eqn:E4.
    rewrite set_ok by lia. cbn zeta.
    replace (w16 (freq_of dist i)) with (freq_of dist i) by (pose proof (freq_le i); unfold w16; rewrite Z.mod_small; lia).
    replace (w16 (Z.lxor (freq_of dist rv) (freq_of dist i))) with (Z.lxor (freq_of dist rv) (freq_of dist i))
      by (unfold w16; rewrite Z.mod_small; [reflexivity|apply lxor_small; apply freq_le]).
    assert (Fe : Entry cut rv (freq_of dist i) o1 (Z.lxor (freq_of dist rv) (freq_of dist i)) = final_entry c a i).
    { unfold final_entry. rewrite E4. reflexivity. }
    apply IH; [lia|lia| |].
    + intros j Hj. cbn. replace (j =? i) with false by lia. apply H1. lia.
    + intros j Hj. cbn. destruct (Z.eqb_spec j i) as [->|]; [exact Fe|]. apply H2. lia.
Qed.
End Tables.

(* ---- the finished table ---- *)
Section Lookup.
Variables (dist : list Z) (la : Z) (c : Z -> Z) (a : Z -> entry) (F : list Z) (t : Z -> entry).
Let e := 2 ^ (12 - la).
Let T := 2 ^ la.
Hypothesis Hla : 4 <= la <= 8.
Hypothesis Hd : Forall (fun v => 0 <= v <= 4096) dist.
Hypothesis Hlen : zlen dist <= T.
Hypothesis I : inv dist T e c [] [] F a.
Hypothesis Ht : forall j, 0 <= j < T -> t j = final_entry dist e c a j.

Lemma eT : e * T = 4096 /\ 0 < e /\ 0 < T.
Proof.
  unfold e, T. rewrite <- Z.pow_add_r by lia. replace (12 - la + la) with 12 by lia.
  split; [reflexivity|]. split; apply Z.pow_pos_nonneg; lia.
Qed.

Lemma lookup_eq i pos : 0 <= i < T -> 0 <= pos < e ->
  lookup12 la t (i * e + pos) =
  Some (if c i =? e then (i, pos, freq_of dist i)
        else if pos <? c i then (i, pos, freq_of dist i)
        else (right_value (a i), offsets1 (a i) - c i + pos, freq_of dist (right_value (a i)))).
Proof.
  intros Hi Hp. destruct eT as (_ & He & HT). unfold lookup12, lookup, ANS_LOG_TAB_SIZE.
  rewrite Z.shiftr_div_pow2, !Z.shiftl_1_l by lia. fold e. fold T.
  replace (Z.land (i * e + pos) (e - 1)) with pos.
  2:{ unfold e at 2. 
      replace (2 ^ (12 - la) - 1) with (Z.ones (12 - la)) by (rewrite Z.ones_equiv; lia).
      rewrite Z.land_ones by lia. fold e. rewrite Z.add_comm, Z_mod_plus_full, Z.mod_small; lia. }
  replace ((i * e + pos) / e) with i.
  2:{ rewrite Z.div_add_l, Z.div_small; lia. }
  rewrite get_ok by exact Hi. rewrite Ht by exact Hi. unfold final_entry.
  destruct (Z.eqb_spec (c i) e) as [E|N]; cbn [cutoff right_value freq0 offsets1 freq1_xor_freq0].
  - replace (0 <=? pos) with true by lia. rewrite Z.lxor_nilpotent, Z.lxor_0_r. reflexivity.
  - destruct (Z.ltb_spec pos (c i)).
    + replace (c i <=? pos) with false by lia. rewrite Z.lxor_0_r. f_equal.
    + replace (c i <=? pos) with true by lia. rewrite (Z.lxor_comm (freq_of dist (right_value _))), <- Z.lxor_assoc, Z.lxor_nilpotent, Z.lxor_0_l. reflexivity.
Qed.

Lemma split_slot v : 0 <= v < 4096 -> 0 <= v / e < T /\ 0 <= v mod e < e /\ v = v / e * e + v mod e.
Proof.
  intros Hv. destruct eT as (E & He & HT). pose proof (Z.div_mod v e ltac:(lia)). pose proof (Z.mod_pos_bound v e He).
  split; [|lia]. split; [apply Z.div_pos; lia|]. apply Z.div_lt_upper_bound; lia.
Qed.

Lemma znth_freq s f : 0 < f -> freq_of dist s = f -> znth dist s = Some f.
Proof. unfold freq_of. destruct (znth dist s); intros; [congruence|lia]. Qed.

Lemma not_exact i : 0 <= i < T -> c i <> e -> In i F.
Proof. intros Hi N. destruct (i_exact _ _ _ _ _ _ _ _ I i Hi) as [H|H]; [exact H|contradiction]. Qed.

Lemma table_right : slot_map_for dist (lookup12 la t).
Proof.
  destruct eT as (E & He & HT). split.
  - intros v Hv. destruct (split_slot v Hv) as (Hi & Hp & Ev). rewrite Ev, lookup_eq by assumption.
    set (i := v / e) in *. set (pos := v mod e) in *. pose proof (i_bound _ _ _ _ _ _ _ _ I i Hi) as B.
    destruct (Z.eqb_spec (c i) e) as [Ee|N].
    + exists i, pos, (freq_of dist i). split; [reflexivity|]. split; [apply znth_freq; lia|lia].
    + destruct (Z.ltb_spec pos (c i)).
      * exists i, pos, (freq_of dist i). split; [reflexivity|]. split; [apply znth_freq; lia|lia].
      * destruct (i_in _ _ _ _ _ _ _ _ I i (not_exact i Hi N)) as (O & R & L & U). unfold width in U.
        pose proof (i_bound _ _ _ _ _ _ _ _ I _ R).
        eexists _, _, _. split; [reflexivity|]. split; [apply znth_freq; lia|lia].
  - intros s f o Hs Ho. assert (Ef : freq_of dist s = f) by now apply freq_nth.
    assert (own : forall i pos, 0 <= i < T -> 0 <= pos < e -> (c i = e \/ pos < c i) -> lookup12 la t (i * e + pos) = Some (i, pos, freq_of dist i)).
    { intros i pos Hi Hp K. rewrite lookup_eq by assumption. destruct (Z.eqb_spec (c i) e); [reflexivity|]. now replace (pos <? c i) with true by lia. }
    assert (Hs' : 0 <= s < T) by (pose proof (znth_bound _ _ _ Hs); lia).
    pose proof (i_bound _ _ _ _ _ _ _ _ I s Hs') as B.
    assert (Cs : c s <= e). { destruct (Z.eq_dec (c s) e); [lia|]. pose proof (i_fixed _ _ _ _ _ _ _ _ I s (not_exact s Hs' n)). lia. }
    assert (uniq : forall i1 p1 i2 p2, 0 <= i1 < T -> 0 <= p1 < e -> 0 <= i2 < T -> 0 <= p2 < e ->
       lookup12 la t (i1 * e + p1) = Some (s, o, f) -> lookup12 la t (i2 * e + p2) = Some (s, o, f) -> i1 * e + p1 = i2 * e + p2).
    { assert (cls : forall i p, 0 <= i < T -> 0 <= p < e -> lookup12 la t (i * e + p) = Some (s, o, f) ->
        (i = s /\ p = o /\ o < c s) \/ (In i F /\ right_value (a i) = s /\ o = offsets1 (a i) - c i + p /\ c i <= p /\ c s <= o)).
      { intros i p Hi Hp. rewrite lookup_eq by assumption. destruct (Z.eqb_spec (c i) e) as [Ee|N].
        - intros K. injection K as -> -> _. left. lia.
        - destruct (Z.ltb_spec p (c i)).
          + intros K. injection K as -> -> _. left. lia.
          + intros K. injection K as K1 K2 _. right. pose proof (not_exact i Hi N) as HF.
            destruct (i_in _ _ _ _ _ _ _ _ I i HF) as (O & R & L & U). rewrite K1 in *. repeat split; auto; lia. }
      intros i1 p1 i2 p2 H1 H2 H3 H4 L1 L2. apply cls in L1; auto. apply cls in L2; auto.
      destruct L1 as [(-> & -> & K1)|(F1 & R1 & O1 & P1 & K1)], L2 as [(-> & -> & K2)|(F2 & R2 & O2 & P2 & K2)]; try lia.
      assert (i1 = i2).
      { apply (i_once _ _ _ _ _ _ _ _ I i1 i2 o F1 F2); [congruence| |]; unfold width; lia. }
      subst i2. lia. }
    destruct (Z_lt_ge_dec o (c s)) as [Lo|Go].
    + exists (s * e + o). split; [split; [nia|]|].
      * rewrite own; [congruence|lia|lia|]. destruct (Z.eq_dec (c s) e); [lia|]. right. lia.
      * intros v' Hv' L. destruct (split_slot v' Hv') as (Hi & Hp & Ev). rewrite Ev in L |- *. apply uniq; auto; try lia.
        rewrite own; [congruence|lia|lia|lia].
    + destruct (i_cover _ _ _ _ _ _ _ _ I s o Hs' ltac:(lia)) as (i & HF & R & K). unfold width in K.
      pose proof (i_fixed _ _ _ _ _ _ _ _ I i HF). assert (Hi : 0 <= i < T) by (apply (i_range _ _ _ _ _ _ _ _ I); exact HF).
      pose proof (i_bound _ _ _ _ _ _ _ _ I i Hi).
      assert (Lk : lookup12 la t (i * e + (o - offsets1 (a i) + c i)) = Some (s, o, f)).
      { rewrite lookup_eq by lia. replace (c i =? e) with false by lia. replace (_ <? _) with false by lia. rewrite R. f_equal. f_equal; [f_equal; lia|exact Ef]. }
      eexists. split; [split; [|exact Lk]; nia|].
      intros v' Hv' L. destruct (split_slot v' Hv') as (Hi' & Hp' & Ev). rewrite Ev in L |- *. apply uniq; auto; lia.
Qed.
End Lookup.

(* ---- the whole function ---- *)
Lemma drop_zeros_spec l : exists n, l = repeat 0 n ++ drop_zeros l /\ match drop_zeros l with 0 :: _ => False | _ => True end.
Proof.
  induction l as [|v l (n & E & H)]; [now exists 0%nat|]. destruct v; cbn [drop_zeros].
  - exists (S n). split; [cbn; congruence|exact H].
  - now exists 0%nat.
  - now exists 0%nat.
Qed.
Lemma pop_spec l : exists n, l = pop_trailing_zeros l ++ repeat 0 n.
Proof.
  unfold pop_trailing_zeros. destruct (drop_zeros_spec (rev l)) as (n & E & _). exists n.
  assert (R : forall m, rev (repeat 0 m) = repeat 0 m).
  { induction m as [|m IH]; [reflexivity|]. cbn. rewrite IH. clear. induction m as [|m IH]; [reflexivity|]. cbn. now rewrite IH. }
  apply (f_equal (@rev Z)) in E. rewrite rev_involutive, rev_app_distr, R in E. exact E.
Qed.
Lemma pop_last l : pop_trailing_zeros l = [] \/ exists p v, pop_trailing_zeros l = p ++ [v] /\ v <> 0.
Proof.
  unfold pop_trailing_zeros. destruct (drop_zeros_spec (rev l)) as (n & _ & H). destruct (drop_zeros (rev l)) as [|v m]; [now left|].
  right. exists (rev m), v. split; [reflexivity|]. destruct v; [contradiction|discriminate|discriminate].
Qed.
Lemma zsum_zeros n : zsum (repeat 0 n) = 0.
Proof. unfold zsum. induction n as [|n IH]; cbn [repeat fold_right]; lia. Qed.
Lemma zsum_bound l : Forall (fun v => 0 <= v) l -> Forall (fun v => 0 <= v <= zsum l) l.
Proof.
  induction 1 as [|v l Hv H IH]; constructor.
  - pose proof (zsum_nonneg l H). change (zsum (v :: l)) with (v + zsum l). lia.
  - eapply Forall_impl; [|exact IH]. intros x. change (zsum (v :: l)) with (v + zsum l). cbn. lia.
Qed.

Lemma slot_map_zeros d n slot : slot_map_for d slot -> slot_map_for (d ++ repeat 0 n) slot.
Proof.
  intros (H1 & H2). split.
  - intros v Hv. destruct (H1 v Hv) as (s & o & f & E & Z & B). exists s, o, f. split; [exact E|]. split; [|exact B].
    pose proof (znth_bound _ _ _ Z) as K. unfold znth in *. replace (s <? 0) with false in * by lia. rewrite nth_error_app1; auto. unfold zlen in K. lia.
  - intros s f o Hs Ho. apply (H2 s f o); auto. pose proof (znth_bound _ _ _ Hs) as K. unfold znth in *.
    replace (s <? 0) with false in * by lia.
    destruct (lt_dec (Z.to_nat s) (length d)); [now rewrite nth_error_app1 in Hs|].
    rewrite nth_error_app2 in Hs by lia. apply nth_error_In, repeat_spec in Hs. lia.
Qed.

Lemma scan_done dist : forall sym s0 sum, s0 <> -1 -> Forall (fun v => v = 0) dist -> scan_single dist sym s0 sum = Some (s0, sum).
Proof.
  induction dist as [|v dist IH]; intros sym s0 sum N H; [reflexivity|]. inversion H; subst. cbn [scan_single].
  change (0 =? ANS_TAB_SIZE) with false. cbn iota. rewrite IH by assumption. f_equal. f_equal. lia.
Qed.
Lemma all_zero l : Forall (fun v => 0 <= v) l -> zsum l <= 0 -> Forall (fun v => v = 0) l.
Proof. intros H S. eapply Forall_impl; [|apply zsum_bound; exact H]. cbn. intros. lia. Qed.
Lemma scan_spec dist : forall sym sum, 0 <= sym -> 0 <= sum -> Forall (fun v => 0 <= v) dist -> sum + zsum dist = 4096 ->
  (scan_single dist sym (-1) sum = Some (-1, 4096)) \/
  (exists p q, dist = p ++ 4096 :: q /\ Forall (fun v => v = 0) p /\ Forall (fun v => v = 0) q /\
     scan_single dist sym (-1) sum = Some (sym + zlen p, 4096)).
Proof.
  induction dist as [|v dist IH]; intros sym sum Hs Hsum H E; cbn [scan_single].
  - left. f_equal. f_equal. unfold zsum in E. cbn in E. lia.
  - change (zsum (v :: dist)) with (v + zsum dist) in E. inversion H as [|? ? Hv H']; subst. pose proof (zsum_nonneg _ H').
    unfold ANS_TAB_SIZE. destruct (Z.eqb_spec v 4096) as [->|N].
    + right. exists [], dist. change (-1 =? -1) with true. cbn iota. split; [reflexivity|]. split; [constructor|].
      assert (Z0 : Forall (fun v => v = 0) dist) by (apply all_zero; auto; lia). split; [exact Z0|].
      rewrite scan_done by (auto; lia). f_equal. f_equal; unfold zlen; cbn; lia.
    + destruct (IH (sym + 1) (sum + v) ltac:(lia) ltac:(lia) H' ltac:(lia)) as [S|(p & q & -> & Zp & Zq & S)]; [now left|].
      right. rewrite zsum_app in E. change (zsum (4096 :: q)) with (4096 + zsum q) in E. apply Forall_app in H'. destruct H' as (Hp & Hq). inversion Hq; subst.
      pose proof (zsum_nonneg p Hp). pose proof (zsum_nonneg q ltac:(assumption)).
      exists (v :: p), q. split; [reflexivity|]. split; [constructor; [lia|exact Zp]|]. split; [exact Zq|].
      rewrite S. f_equal. f_equal. rewrite zlen_cons. lia.
Qed.

Lemma fill_single_spec T sym e : forall n i a, 0 <= i -> i + Z.of_nat n = T ->
  (forall j, 0 <= j < i -> a j = Entry 0 (w8 sym) 0 (w16 (e * j)) 4096) ->
  exists t, fill_single n T i sym e a = Some t /\ forall j, 0 <= j < T -> t j = Entry 0 (w8 sym) 0 (w16 (e * j)) 4096.
Proof.
  induction n as [|n IH]; intros i a Hi HT H; cbn [fill_single].
  - exists a. split; [reflexivity|]. intros j Hj. apply H. lia.
  - rewrite set_ok by lia. apply IH; [lia|lia|]. intros j Hj. destruct (Z.eqb_spec j i) as [->|]; [reflexivity|]. apply H. lia.
Qed.

Lemma single_table d la t : 4 <= la <= 8 ->
  (exists p, d = p ++ [4096] /\ Forall (fun v => v = 0) p) ->
  (forall j, 0 <= j < 2 ^ la -> t j = Entry 0 (zlen d - 1) 0 (w16 (2 ^ (12 - la) * j)) 4096) ->
  slot_map_for d (lookup12 la t).
Proof.
  intros Hla (p & -> & Zp) Ht.
  assert (E : 2 ^ (12 - la) * 2 ^ la = 4096). { rewrite <- Z.pow_add_r by lia. now replace (12 - la + la) with 12 by lia. }
  assert (P1 : 0 < 2 ^ (12 - la)) by (apply Z.pow_pos_nonneg; lia). assert (P2 : 0 < 2 ^ la) by (apply Z.pow_pos_nonneg; lia).
  set (s0 := zlen (p ++ [4096]) - 1) in *.
  assert (Es0 : s0 = zlen p) by (unfold s0, zlen; rewrite app_length; cbn; lia).
  assert (L : forall v, 0 <= v < 4096 -> lookup12 la t v = Some (s0, v, 4096)).
  { intros v Hv. unfold lookup12, lookup, ANS_LOG_TAB_SIZE. rewrite Z.shiftr_div_pow2, !Z.shiftl_1_l by lia.
    set (e := 2 ^ (12 - la)) in *. replace (Z.land v (e - 1)) with (v mod e).
    2:{ unfold e. replace (2 ^ (12 - la) - 1) with (Z.ones (12 - la)) by (rewrite Z.ones_equiv; lia). now rewrite Z.land_ones by lia. }
    pose proof (Z.div_mod v e ltac:(lia)). pose proof (Z.mod_pos_bound v e P1).
    assert (0 <= v / e < 2 ^ la). { split; [apply Z.div_pos; lia|]. apply Z.div_lt_upper_bound; lia. }
    rewrite get_ok by assumption. rewrite Ht by assumption. cbn [cutoff right_value freq0 offsets1 freq1_xor_freq0].
    replace (0 <=? v mod e) with true by lia.
    replace (w16 (e * (v / e))) with (e * (v / e)) by (unfold w16; rewrite Z.mod_small; lia).
    rewrite Z.lxor_0_l. f_equal. f_equal. f_equal. lia. }
  split.
  - intros v Hv. exists s0, v, 4096. split; [now apply L|]. split; [rewrite Es0; apply znth_app_mid|lia].
  - intros s f o Hs Ho. assert (K : s = s0 /\ f = 4096).
    { pose proof (znth_bound _ _ _ Hs) as B. unfold znth in Hs. replace (s <? 0) with false in Hs by lia.
      destruct (lt_dec (Z.to_nat s) (length p)).
      - rewrite nth_error_app1 in Hs by assumption. apply nth_error_In in Hs. rewrite Forall_forall in Zp. apply Zp in Hs. lia.
      - rewrite nth_error_app2 in Hs by lia. assert (s = s0) by (unfold zlen in *; lia). split; [assumption|].
        replace (Z.to_nat s - length p)%nat with 0%nat in Hs by (unfold zlen in Es0; lia). cbn in Hs. congruence. }
    destruct K as (-> & ->). exists o. split; [split; [lia|now apply L]|]. intros v' Hv'. rewrite L by exact Hv'. congruence.
Qed.

Theorem alias_table_right h la a : 4 <= la <= 8 -> is_histogram h -> zlen (pop_trailing_zeros h) <= 2 ^ la ->
  exists t, init_alias_table h la a = Some t /\ slot_map_for h (lookup12 la t).
Proof.
  intros Hla (Hn & Hs) Hl.
  assert (E : 2 ^ (12 - la) * 2 ^ la = 4096). { rewrite <- Z.pow_add_r by lia. now replace (12 - la + la) with 12 by lia. }
  assert (P1 : 2 ^ 4 <= 2 ^ (12 - la) <= 2 ^ 8) by (split; apply Z.pow_le_mono_r; lia).
  assert (P2 : 2 ^ 4 <= 2 ^ la <= 2 ^ 8) by (split; apply Z.pow_le_mono_r; lia).
  destruct (pop_spec h) as (nz & Eh). destruct (pop_last h) as [Ep|(p0 & v0 & Ep & N0)].
  { exfalso. rewrite Ep in Eh. cbn [app] in Eh. rewrite Eh, zsum_zeros in Hs. lia. }
  unfold init_alias_table. rewrite Z.shiftl_1_l. unfold ANS_TAB_SIZE. rewrite Z.shiftr_div_pow2 by lia.
  replace (4096 / 2 ^ la) with (2 ^ (12 - la)) by (rewrite <- E, Z.div_mul; lia).
  set (d := pop_trailing_zeros h) in *.
  assert (Ed : (match d with [] => [4096] | z :: l => z :: l end) = d) by (rewrite Ep; destruct p0; reflexivity). rewrite Ed.
  assert (Hnd : Forall (fun v => 0 <= v) d). { rewrite Eh in Hn. now apply Forall_app in Hn. }
  assert (Hsd : zsum d = 4096). { rewrite Eh, zsum_app, zsum_zeros in Hs. lia. }
  replace (2 ^ la <=? 4096) with true by lia. replace (zlen d <=? 2 ^ la) with true by lia. cbn [negb].
  assert (R : forall t, slot_map_for d (lookup12 la t) -> slot_map_for h (lookup12 la t)).
  { intros t H. rewrite Eh. now apply slot_map_zeros. }
  destruct (scan_spec d 0 0 ltac:(lia) ltac:(lia) Hnd ltac:(lia)) as [S|(p & q & Epq & Zp & Zq & S)]; rewrite S.
  - change (w32 4096 =? 4096) with true. change (-1 =? -1) with true. cbn [negb].
    assert (Hb : Forall (fun v => 0 <= v <= 4096) d). { rewrite <- Hsd. now apply zsum_bound. }
    assert (S0 : stacks d (2 ^ (12 - la)) 0 (zsum []) (fun _ => 0) [] []).
    { split; [intros; lia|]. split; [constructor|]. split; [intros ? []|]. split; [intros ? []|]. split; [intros; lia|]. unfold sumf, zsum. cbn [map fold_right]. lia. }
    destruct (classify_spec d (2 ^ la) (2 ^ (12 - la)) Hb Hl d [] (fun _ => 0) [] [] eq_refl S0) as (c1 & u1 & o1 & E1 & S1).
    change (zlen []) with 0 in E1. rewrite E1.
    assert (zlen_d : 0 <= zlen d) by (unfold zlen; lia).
    destruct (pad_spec d (2 ^ la) (2 ^ (12 - la)) ltac:(lia) (Z.to_nat (2 ^ la - zlen d)) (zlen d) (zsum d) c1 u1 o1 ltac:(lia) zlen_d ltac:(lia) S1) as (c2 & u2 & E2 & S2).
    rewrite E2.
    pose proof (inv_init d (2 ^ la) (2 ^ (12 - la)) c2 u2 o1 a ltac:(lia) Hnd ltac:(lia) S2) as I0.
    assert (HL : (length u2 + length o1 <= Z.to_nat (2 ^ la))%nat).
    { destruct S2 as (_ & ND & U & O & _).
      assert (LL : (length (u2 ++ o1) <= length (map Z.of_nat (seq 0 (Z.to_nat (2 ^ la)))))%nat).
      { apply NoDup_incl_length; [exact ND|]. intros x Hx. apply in_map_iff. exists (Z.to_nat x).
        rewrite in_app_iff in Hx. rewrite in_seq. destruct Hx as [Hx|Hx]; [apply U in Hx|apply O in Hx]; lia. }
      rewrite app_length, map_length, seq_length in LL. exact LL. }
    destruct (reassign_spec d (2 ^ la) (2 ^ (12 - la)) ltac:(lia) ltac:(lia) Hb _ _ _ _ _ _ I0 HL) as (c3 & a3 & F & E3 & I3).
    rewrite E3.
    destruct (finish_spec d (2 ^ la) (2 ^ (12 - la)) ltac:(lia) ltac:(lia) Hb c3 F a3 I3 (Z.to_nat (2 ^ la)) 0 a3 ltac:(lia) ltac:(lia)) as (t & E4 & Ht); [reflexivity|intros; lia|].
    exists t. split; [exact E4|]. apply R. apply (table_right d la c3 a3 F t); auto.
  - change (w32 4096 =? 4096) with true. cbn [negb]. assert (0 <= zlen p) by (unfold zlen; lia).
    replace (0 + zlen p =? -1) with false by lia. cbn [negb].
    assert (q = []).
    { destruct q as [|q0 q] using rev_ind; [reflexivity|]. exfalso. rewrite Ep in Epq.
      change (4096 :: q ++ [q0]) with ((4096 :: q) ++ [q0]) in Epq. rewrite app_assoc in Epq. apply app_inj_tail in Epq. destruct Epq as (_ & <-).
      apply Forall_app in Zq. destruct Zq as (_ & Zq). inversion Zq. contradiction. }
    subst q.
    assert (Ez : zlen d = zlen p + 1) by (rewrite Epq; unfold zlen; rewrite app_length; cbn; lia).
    replace (w8 (0 + zlen p)) with (zlen p) by (unfold w8; rewrite Z.mod_small; lia). replace (0 + zlen p) with (zlen p) by lia.
    rewrite Z.eqb_refl. cbn [negb].
    destruct (fill_single_spec (2 ^ la) (zlen p) (2 ^ (12 - la)) (Z.to_nat (2 ^ la)) 0 a ltac:(lia) ltac:(lia)) as (t & Et & Ht); [intros; lia|].
    exists t. split; [exact Et|]. apply R. apply single_table; [exact Hla|exists p; split; [exact Epq|exact Zp]|].
    intros j Hj. rewrite Ht by exact Hj. rewrite Ez. f_equal; unfold w8; rewrite Z.mod_small; lia.
Qed.

(* An empty histogram gives a table for the one symbol 0. *)
Lemma alias_table_empty h la a : 4 <= la <= 8 -> Forall (fun v => v = 0) h ->
  exists t, init_alias_table h la a = Some t /\ slot_map_for [4096] (lookup12 la t).
Proof.
  intros Hla Hz.
  assert (E : 2 ^ (12 - la) * 2 ^ la = 4096). { rewrite <- Z.pow_add_r by lia. now replace (12 - la + la) with 12 by lia. }
  assert (P2 : 2 ^ 4 <= 2 ^ la <= 2 ^ 8) by (split; apply Z.pow_le_mono_r; lia).
  destruct (pop_last h) as [Ep|(p0 & v0 & Ep & N0)].
  2:{ exfalso. destruct (pop_spec h) as (nz & Eh). rewrite Ep in Eh. rewrite Eh, !Forall_app in Hz. destruct Hz as ((_ & Hz) & _). inversion Hz; subst. contradiction. }
  unfold init_alias_table. rewrite Ep, Z.shiftl_1_l. unfold ANS_TAB_SIZE. rewrite Z.shiftr_div_pow2 by lia.
  replace (4096 / 2 ^ la) with (2 ^ (12 - la)) by (rewrite <- E, Z.div_mul; lia).
  replace (2 ^ la <=? 4096) with true by lia. change (zlen [4096]) with 1. replace (1 <=? 2 ^ la) with true by lia. cbn [negb].
  change (scan_single [4096] 0 (-1) 0) with (Some (0, 4096)). cbn iota beta.
  change (w32 4096 =? 4096) with true. change (0 =? -1) with false. change (0 =? w8 0) with true. cbn [negb].
  destruct (fill_single_spec (2 ^ la) 0 (2 ^ (12 - la)) (Z.to_nat (2 ^ la)) 0 a ltac:(lia) ltac:(lia)) as (t & Et & Ht); [intros; lia|].
  exists t. split; [exact Et|]. apply single_table; [exact Hla|exists []; split; [reflexivity|constructor]|].
  intros j Hj. rewrite Ht by exact Hj. reflexivity.
Qed.

Lemma alias_table_other h la a t : 4 <= la <= 8 -> Forall (fun v => 0 <= v) h -> zsum h < 2 ^ 32 ->
  init_alias_table h la a = Some t -> is_histogram h \/ Forall (fun v => v = 0) h.
Proof.
  intros Hla Hn Hb E. destruct (pop_spec h) as (nz & Eh). destruct (pop_last h) as [Ep|(p0 & v0 & Ep & N0)].
  - right. rewrite Ep in Eh. rewrite Eh. apply Forall_forall. intros x Hx. apply in_app_iff in Hx. destruct Hx as [[]|Hx]. now apply repeat_spec in Hx.
  - left. split; [exact Hn|]. unfold init_alias_table in E. rewrite Ep in E.
    assert (Ed : (match p0 ++ [v0] with [] => [ANS_TAB_SIZE] | z :: l => z :: l end) = p0 ++ [v0]) by (destruct p0; reflexivity). rewrite Ed in E. clear Ed.
    destruct (negb _); [discriminate|]. destruct (negb _); [discriminate|].
    assert (Sc : forall l sym s0 sum x, scan_single l sym s0 sum = Some x -> snd x = sum + zsum l).
    { induction l as [|v l IH]; intros sym s0 sum x Ex; cbn [scan_single] in Ex.
      - injection Ex as <-. unfold zsum. cbn. lia.
      - change (zsum (v :: l)) with (v + zsum l). destruct (v =? ANS_TAB_SIZE); [destruct (s0 =? -1); [|discriminate]|]; apply IH in Ex; lia. }
    destruct (scan_single _ _ _ _) as [(sg, sm)|] eqn:Es; [|discriminate]. apply Sc in Es. cbn [snd] in Es.
    destruct (Z.eqb_spec (w32 sm) ANS_TAB_SIZE) as [Ew|]; [|discriminate].
    rewrite Eh, zsum_app, zsum_zeros, Ep in Hb |- *. rewrite Eh in Hn. apply Forall_app in Hn. destruct Hn as (Hn & _). rewrite Ep in Hn. apply zsum_nonneg in Hn.
    unfold w32 in Ew. rewrite Z.mod_small in Ew by lia. unfold ANS_TAB_SIZE in Ew. lia.
Qed.

(* The table does not depend on what was in the memory before. *)
Lemma final_agree dist T e c F a b : inv dist T e c [] [] F a -> agree F a b -> forall j, 0 <= j < T ->
  final_entry dist e c a j = final_entry dist e c b j.
Proof.
  intros I G j Hj. unfold final_entry. destruct (Z.eqb_spec (c j) e); [reflexivity|].
  destruct (i_exact _ _ _ _ _ _ _ _ I j Hj) as [H|H]; [|contradiction]. destruct (G j H) as (-> & ->). reflexivity.
Qed.
Lemma lookup12_ext la t t' : 4 <= la <= 8 -> (forall j, 0 <= j < 2 ^ la -> t j = t' j) -> forall v, lookup12 la t v = lookup12 la t' v.
Proof.
  intros Hla H v. unfold lookup12, lookup. rewrite Z.shiftl_1_l. unfold get.
  destruct ((0 <=? Z.shiftr v (ANS_LOG_TAB_SIZE - la)) && (Z.shiftr v (ANS_LOG_TAB_SIZE - la) <? 2 ^ la)) eqn:E; [|reflexivity].
  rewrite H by lia. reflexivity.
Qed.

Theorem alias_table_memory h la a b t : 4 <= la <= 8 -> Forall (fun v => 0 <= v) h -> zsum h < 2 ^ 32 ->
  init_alias_table h la a = Some t ->
  exists t', init_alias_table h la b = Some t' /\ forall v, lookup12 la t v = lookup12 la t' v.
Proof.
  intros Hla Hnn Hsm Ht0. 
  assert (E : 2 ^ (12 - la) * 2 ^ la = 4096). { rewrite <- Z.pow_add_r by lia. now replace (12 - la + la) with 12 by lia. }
  assert (P1 : 2 ^ 4 <= 2 ^ (12 - la) <= 2 ^ 8) by (split; apply Z.pow_le_mono_r; lia).
  assert (P2 : 2 ^ 4 <= 2 ^ la <= 2 ^ 8) by (split; apply Z.pow_le_mono_r; lia).
  destruct (alias_table_other h la a t Hla Hnn Hsm Ht0) as [(Hn & Hs)|Hz].
  2:{ destruct (pop_last h) as [Ep|(p0 & v0 & Ep & N0)].
      2:{ exfalso. destruct (pop_spec h) as (nz & Eh). rewrite Ep in Eh. rewrite Eh, !Forall_app in Hz. destruct Hz as ((_ & Hz) & _). inversion Hz; subst. contradiction. }
      unfold init_alias_table in *. rewrite Ep, Z.shiftl_1_l in *. unfold ANS_TAB_SIZE in *. rewrite Z.shiftr_div_pow2 in * by lia.
      replace (4096 / 2 ^ la) with (2 ^ (12 - la)) in * by (rewrite <- E, Z.div_mul; lia).
      replace (2 ^ la <=? 4096) with true in * by lia. change (zlen [4096]) with 1 in *. replace (1 <=? 2 ^ la) with true in * by lia. cbn [negb] in *.
      change (scan_single [4096] 0 (-1) 0) with (Some (0, 4096)) in *. cbn iota beta in *.
      change (w32 4096 =? 4096) with true in *. change (0 =? -1) with false in *. change (0 =? w8 0) with true in *. cbn [negb] in *.
      destruct (fill_single_spec (2 ^ la) 0 (2 ^ (12 - la)) (Z.to_nat (2 ^ la)) 0 b ltac:(lia) ltac:(lia)) as (t' & Et & Ht); [intros; lia|].
      destruct (fill_single_spec (2 ^ la) 0 (2 ^ (12 - la)) (Z.to_nat (2 ^ la)) 0 a ltac:(lia) ltac:(lia)) as (t2 & Et2 & Ht2); [intros; lia|].
      exists t'. split; [exact Et|]. assert (t2 = t) by congruence. subst t2. apply lookup12_ext; [exact Hla|]. intros j Hj. rewrite Ht, Ht2 by exact Hj. reflexivity. }
  destruct (pop_spec h) as (nz & Eh). destruct (pop_last h) as [Ep|(p0 & v0 & Ep & N0)].
  { exfalso. rewrite Ep in Eh. cbn [app] in Eh. rewrite Eh, zsum_zeros in Hs. lia. }
  unfold init_alias_table in *. rewrite Z.shiftl_1_l in *. unfold ANS_TAB_SIZE in *. rewrite Z.shiftr_div_pow2 in * by lia.
  replace (4096 / 2 ^ la) with (2 ^ (12 - la)) in * by (rewrite <- E, Z.div_mul; lia).
  set (d := pop_trailing_zeros h) in *.
  assert (Ed : (match d with [] => [4096] | z :: l => z :: l end) = d) by (rewrite Ep; destruct p0; reflexivity). rewrite Ed in *.
  assert (Hnd : Forall (fun v => 0 <= v) d). { rewrite Eh in Hn. now apply Forall_app in Hn. }
  assert (Hsd : zsum d = 4096). { rewrite Eh, zsum_app, zsum_zeros in Hs. lia. }
  destruct (Z.leb_spec (2 ^ la) 4096) as [_|]; [|lia].
  destruct (Z.leb_spec (zlen d) (2 ^ la)) as [Hl|]; [|discriminate Ht0]. cbn [negb] in *.
  destruct (scan_spec d 0 0 ltac:(lia) ltac:(lia) Hnd ltac:(lia)) as [S|(p & q & Epq & Zp & Zq & S)]; rewrite S in *.
  - change (w32 4096 =? 4096) with true in *. change (-1 =? -1) with true in *. cbn [negb] in *.
    assert (Hb : Forall (fun v => 0 <= v <= 4096) d). { rewrite <- Hsd. now apply zsum_bound. }
    assert (S0 : stacks d (2 ^ (12 - la)) 0 (zsum []) (fun _ => 0) [] []).
    { split; [intros; lia|]. split; [constructor|]. split; [intros ? []|]. split; [intros ? []|]. split; [intros; lia|]. unfold sumf, zsum. cbn [map fold_right]. lia. }
    destruct (classify_spec d (2 ^ la) (2 ^ (12 - la)) Hb Hl d [] (fun _ => 0) [] [] eq_refl S0) as (c1 & u1 & o1 & E1 & S1).
    change (zlen []) with 0 in E1. rewrite E1 in *.
    assert (zlen_d : 0 <= zlen d) by (unfold zlen; lia).
    destruct (pad_spec d (2 ^ la) (2 ^ (12 - la)) ltac:(lia) (Z.to_nat (2 ^ la - zlen d)) (zlen d) (zsum d) c1 u1 o1 ltac:(lia) zlen_d ltac:(lia) S1) as (c2 & u2 & E2 & S2).
    rewrite E2 in *.
    pose proof (inv_init d (2 ^ la) (2 ^ (12 - la)) c2 u2 o1 a ltac:(lia) Hnd ltac:(lia) S2) as I0.
    pose proof (inv_init d (2 ^ la) (2 ^ (12 - la)) c2 u2 o1 b ltac:(lia) Hnd ltac:(lia) S2) as J0.
    assert (HL : (length u2 + length o1 <= Z.to_nat (2 ^ la))%nat).
    { destruct S2 as (_ & ND & U & O & _).
      assert (LL : (length (u2 ++ o1) <= length (map Z.of_nat (seq 0 (Z.to_nat (2 ^ la)))))%nat).
      { apply NoDup_incl_length; [exact ND|]. intros x Hx. apply in_map_iff. exists (Z.to_nat x).
        rewrite in_app_iff in Hx. rewrite in_seq. destruct Hx as [Hx|Hx]; [apply U in Hx|apply O in Hx]; lia. }
      rewrite app_length, map_length, seq_length in LL. exact LL. }
    destruct (reassign_agree d (2 ^ la) (2 ^ (12 - la)) ltac:(lia) ltac:(lia) Hb _ _ _ _ _ _ _ I0 J0 ltac:(intros ? []) HL) as (c3 & a3 & b3 & F & E3 & E3' & I3 & J3 & G).
    rewrite E3 in Ht0. rewrite E3'.
    destruct (finish_spec d (2 ^ la) (2 ^ (12 - la)) ltac:(lia) ltac:(lia) Hb c3 F a3 I3 (Z.to_nat (2 ^ la)) 0 a3 ltac:(lia) ltac:(lia)) as (t2 & E4 & Ht); [reflexivity|intros; lia|].
    destruct (finish_spec d (2 ^ la) (2 ^ (12 - la)) ltac:(lia) ltac:(lia) Hb c3 F b3 J3 (Z.to_nat (2 ^ la)) 0 b3 ltac:(lia) ltac:(lia)) as (t3 & E5 & Ht3); [reflexivity|intros; lia|].
    exists t3. split; [exact E5|]. assert (t2 = t) by congruence. subst t2. apply lookup12_ext; [exact Hla|].
    intros j Hj. rewrite Ht, Ht3 by exact Hj. eapply final_agree; eauto.
  - change (w32 4096 =? 4096) with true in *. cbn [negb] in *. assert (0 <= zlen p) by (unfold zlen; lia).
    destruct (negb (0 + zlen p =? -1)) eqn:X; [|cbn in X; lia].
    destruct (negb (0 + zlen p =? w8 (0 + zlen p))) eqn:X2; [discriminate Ht0|].
    destruct (fill_single_spec (2 ^ la) (0 + zlen p) (2 ^ (12 - la)) (Z.to_nat (2 ^ la)) 0 a ltac:(lia) ltac:(lia)) as (t2 & Et & Ht); [intros; lia|].
    destruct (fill_single_spec (2 ^ la) (0 + zlen p) (2 ^ (12 - la)) (Z.to_nat (2 ^ la)) 0 b ltac:(lia) ltac:(lia)) as (t3 & Et3 & Ht3); [intros; lia|].
    exists t3. split; [exact Et3|]. assert (t2 = t) by congruence. subst t2. apply lookup12_ext; [exact Hla|].
    intros j Hj. rewrite Ht, Ht3 by exact Hj. reflexivity.
Qed.
