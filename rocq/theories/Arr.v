(* Arrays of a fixed size whose accesses outside the size are errors ([None]), and the
   option-monad notation of the models.  Nothing here models a particular function. *)
From Verif Require Import Base.

Notation "'do' x <- p ; q" := (match p with Some x => q | None => None end)
  (at level 200, x pattern, p at level 100, q at level 200, right associativity).

Definition get {A} (size : Z) (t : Z -> A) (i : Z) : option A :=
  if (0 <=? i) && (i <? size) then Some (t i) else None.
Definition set {A} (size : Z) (t : Z -> A) (i : Z) (v : A) : option (Z -> A) :=
  if (0 <=? i) && (i <? size) then Some (fun j => if j =? i then v else t j) else None.

Lemma get_ok {A} size (t : Z -> A) i : 0 <= i < size -> get size t i = Some (t i).
Proof. intros H. unfold get. replace ((0 <=? i) && (i <? size)) with true by lia. reflexivity. Qed.
Lemma set_ok {A} size (t : Z -> A) i v : 0 <= i < size -> set size t i v = Some (fun j => if j =? i then v else t j).
Proof. intros H. unfold set. replace ((0 <=? i) && (i <? size)) with true by lia. reflexivity. Qed.
