(* Maps that may fail, and runs of integers *)
From Verif Require Import Base Arr ListAux.
Ltac Zify.zify_post_hook ::= idtac.

Fixpoint omap {A B} (f : A -> option B) (l : list A) : option (list B) :=
  match l with
  | [] => Some []
  | a :: l => do b <- f a; do bs <- omap f l; Some (b :: bs)
  end.

Lemma omap_ok {A B} (f : A -> option B) (Q : A -> B -> Prop) l : (forall a, In a l -> exists b, f a = Some b /\ Q a b) -> exists bs, omap f l = Some bs /\ Forall2 Q l bs.
Proof.
  induction l as [|a l IH]; intros H; [exists []; split; [reflexivity|constructor]|].
  destruct (H a (or_introl eq_refl)) as (b & E & K). destruct IH as (bs & E2 & K2); [intros; apply H; right; assumption|].
  exists (b :: bs). cbn [omap]. rewrite E, E2. split; [reflexivity|constructor; assumption].
Qed.

Lemma omap_inv {A B} (f : A -> option B) l bs : omap f l = Some bs -> Forall2 (fun a b => f a = Some b) l bs.
Proof.
  revert bs. induction l as [|a l IH]; intros bs H; cbn [omap] in H; [injection H as <-; constructor|].
  destruct (f a) as [b|] eqn:E; [|discriminate]. destruct (omap f l) as [r|]; [|discriminate]. injection H as <-. constructor; [assumption|]. apply IH. reflexivity.
Qed.

Lemma omap_intro {A B} (f : A -> option B) l bs : Forall2 (fun a b => f a = Some b) l bs -> omap f l = Some bs.
Proof. induction 1 as [|a b l bs H _ IH]; [reflexivity|]. cbn [omap]. rewrite H, IH. reflexivity. Qed.

Lemma zseq_in n : forall z x, In x (zseq z n) -> z <= x < z + Z.of_nat n.
Proof. induction n as [|n IH]; intros z x H; [destruct H|]. cbn [zseq In] in H. destruct H as [<-|H]; [lia|]. apply IH in H. lia. Qed.
Lemma zseq_length z n : length (zseq z n) = n.
Proof. revert z. induction n as [|n IH]; intros z; [reflexivity|]. cbn [zseq length]. rewrite IH. reflexivity. Qed.

Lemma znth_0 {A} (a : A) l : znth (a :: l) 0 = Some a.
Proof. reflexivity. Qed.
Lemma znth_succ {A} (a : A) l i : 0 < i -> znth (a :: l) i = znth l (i - 1).
Proof.
  intros H. unfold znth. destruct (Z.ltb_spec i 0); [lia|]. destruct (Z.ltb_spec (i - 1) 0); [lia|].
  replace (Z.to_nat i) with (Datatypes.S (Z.to_nat (i - 1))) by lia. reflexivity.
Qed.
Lemma znth_ex {A} (l : list A) i : 0 <= i < zlen l -> exists v, znth l i = Some v.
Proof.
  intros H. unfold znth. destruct (Z.ltb_spec i 0); [lia|]. destruct (nth_error l (Z.to_nat i)) eqn:E; [eauto|]. apply nth_error_None in E. unfold zlen in H. lia.
Qed.
Lemma znth_app_old {A} (l r : list A) i : i < zlen l -> znth (l ++ r) i = znth l i.
Proof.
  intros H. unfold znth. destruct (Z.ltb_spec i 0); [reflexivity|]. rewrite nth_error_app1; [reflexivity|]. unfold zlen in H. lia.
Qed.
Lemma znth_app_new {A} (l : list A) v : znth (l ++ [v]) (zlen l) = Some v.
Proof.
  unfold znth. pose proof (zlen_nonneg l). destruct (Z.ltb_spec (zlen l) 0); [lia|]. unfold zlen. rewrite Nat2Z.id. rewrite nth_error_app2, Nat.sub_diag by lia. reflexivity.
Qed.
Lemma znth_map {A B} (f : A -> B) l i v : znth l i = Some v -> znth (map f l) i = Some (f v).
Proof. unfold znth. destruct (i <? 0); [discriminate|]. intros E. apply map_nth_error. exact E. Qed.
Lemma znth_zseq n : forall z i, 0 <= i < Z.of_nat n -> znth (zseq z n) i = Some (z + i).
Proof.
  induction n as [|n IH]; intros z i H; [lia|]. cbn [zseq]. destruct (Z.eq_dec i 0) as [->|N]; [rewrite znth_0; f_equal; lia|].
  rewrite znth_succ by lia. rewrite IH by lia. f_equal. lia.
Qed.
Lemma omap_znth {A B} (f : A -> option B) l r i a : omap f l = Some r -> znth l i = Some a -> exists b, f a = Some b /\ znth r i = Some b.
Proof.
  intros H. apply omap_inv in H. revert i. induction H as [|x y l r K _ IH]; intros i E; [unfold znth in E; destruct (i <? 0); [|destruct (Z.to_nat i)]; discriminate|].
  destruct (Z.eq_dec i 0) as [->|N]; [rewrite znth_0 in *; injection E as ->; eauto|]. assert (0 < i) by (assert (RG := znth_some_inv _ _ _ E); lia). rewrite znth_succ in E by assumption. rewrite znth_succ by assumption. apply IH. exact E.
Qed.

(* replacing an element *)
Definition put {A} (l : list A) (i : Z) (v : A) : list A := firstn (Z.to_nat i) l ++ v :: skipn (Datatypes.S (Z.to_nat i)) l.
Lemma put_len {A} (l : list A) i v : 0 <= i < zlen l -> zlen (put l i v) = zlen l.
Proof. intros H. unfold put, zlen in *. rewrite app_length, firstn_length. cbn [length]. rewrite skipn_length. lia. Qed.
Lemma put_same {A} (l : list A) i v : 0 <= i < zlen l -> znth (put l i v) i = Some v.
Proof.
  intros H. unfold put, znth, zlen in *. destruct (Z.ltb_spec i 0); [lia|]. rewrite nth_error_app2; rewrite firstn_length; [|lia]. replace (_ - _)%nat with O by lia. reflexivity.
Qed.
Lemma nth_error_skipn {A} (l : list A) n m : nth_error (skipn n l) m = nth_error l (n + m).
Proof. revert l. induction n as [|n IH]; intros l; [reflexivity|]. destruct l as [|a l]; [destruct m; reflexivity|]. apply IH. Qed.
Lemma nth_error_firstn {A} (l : list A) n m : (m < n)%nat -> nth_error (firstn n l) m = nth_error l m.
Proof. revert l m. induction n as [|n IH]; intros l m H; [lia|]. destruct l as [|a l]; [reflexivity|]. destruct m; [reflexivity|]. cbn. apply IH. lia. Qed.
Lemma put_other {A} (l : list A) i j v : 0 <= i < zlen l -> j <> i -> znth (put l i v) j = znth l j.
Proof.
  intros H N. unfold put, znth, zlen in *. destruct (Z.ltb_spec j 0); [reflexivity|]. destruct (Z.ltb_spec j i).
  - rewrite nth_error_app1 by (rewrite firstn_length; lia). apply nth_error_firstn. lia.
  - rewrite nth_error_app2 by (rewrite firstn_length; lia). rewrite firstn_length. replace (Z.to_nat j - Nat.min (Z.to_nat i) (length l))%nat with (Datatypes.S (Z.to_nat j - Datatypes.S (Z.to_nat i))) by lia.
    cbn [nth_error]. rewrite nth_error_skipn. f_equal. lia.
Qed.
