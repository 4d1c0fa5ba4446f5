(* Specification for decision trees (C24, C25). *)
From Verif Require Import Base FieldsModel MaModel.

(* ---- decision trees ---- *)

(* A leaf has a context, a predictor, an offset and a multiplier; an inner node asks whether
   property p is greater than v. *)
Inductive mtree :=
| MLeaf (ctx predictor offset multiplier : Z)
| MSplit (p v : Z) (gt le : mtree).

(* the leaf that a vector of properties leads to *)
Fixpoint decide (t : mtree) (pv : Z -> Z) : Z * Z * Z * Z :=
  match t with
  | MLeaf c p o m => (c, p, o, m)
  | MSplit p v gt le => if v <? pv p then decide gt pv else decide le pv
  end.
(* and the answers on the way *)
Fixpoint route (t : mtree) (pv : Z -> Z) : list bool :=
  match t with
  | MLeaf _ _ _ _ => []
  | MSplit p v gt le => if v <? pv p then true :: route gt pv else false :: route le pv
  end.
(* the ways from the root to the leaves *)
Fixpoint leaf_path (t : mtree) (path : list bool) : Prop :=
  match t, path with
  | MLeaf _ _ _ _, [] => True
  | MSplit _ _ gt le, b :: path => leaf_path (if b then gt else le) path
  | _, _ => False
  end.

Fixpoint nodes_of (t : mtree) : Z :=
  match t with MLeaf _ _ _ _ => 1 | MSplit _ _ gt le => 1 + nodes_of gt + nodes_of le end.

(* the tree without its contexts *)
Fixpoint no_contexts (t : mtree) : mtree :=
  match t with
  | MLeaf _ p o m => MLeaf 0 p o m
  | MSplit p v gt le => MSplit p v (no_contexts gt) (no_contexts le)
  end.

(* The tree stored in an array from index i on. *)
Inductive stored (t : list node) : Z -> mtree -> Prop :=
| stored_leaf i n : znth t i = Some n -> nprop n = -1 -> stored t i (MLeaf (lchild n) (npred n) (noffset n) (nmul n))
| stored_split i n gt le : znth t i = Some n -> 0 <= nprop n ->
    stored t (lchild n) gt -> stored t (rchild n) le -> stored t i (MSplit (nprop n) (splitval n) gt le).

(* ---- what the decoder accepts ---- *)

(* each leaf is reached from some vector of 32-bit properties, in fewer than 2047 steps *)
Definition each_leaf_needed (t : mtree) : Prop :=
  forall path, leaf_path t path -> zlen path < 2047 /\ exists pv, (forall i, is_i32 (pv i)) /\ route t pv = path.

Definition is_leaf (n : node) : bool := nprop n =? -1.
Definition child_of (t : list node) (i j : Z) : Prop :=
  exists n, znth t i = Some n /\ is_leaf n = false /\ (lchild n = j \/ rchild n = j).

(* Children are in the array, after their parents, and different from each other; each node but the
   first is the child of exactly one node; leaves are numbered in their order; the fields are in range. *)
Definition well_formed (t : list node) : Prop :=
  (forall i n, znth t i = Some n -> is_leaf n = false ->
     0 <= nprop n < 256 /\ is_i32 (splitval n) /\ i < lchild n /\ lchild n < rchild n < zlen t) /\
  (forall i n, znth t i = Some n -> is_leaf n = true ->
     lchild n = zlen (filter is_leaf (firstn (Z.to_nat i) t)) /\ 0 <= npred n < 14 /\ is_i32 (noffset n) /\ 1 <= nmul n < 2 ^ 31) /\
  (forall j, 0 < j < zlen t -> exists i, child_of t i j /\ forall i', child_of t i' j -> i' = i) /\
  2 * zlen (filter is_leaf t) = zlen t + 1.

(* ---- what can be written ---- *)
Fixpoint writable (t : mtree) : Prop :=
  match t with
  | MLeaf _ p o m => 0 <= p < 14 /\ is_i32 o /\ 1 <= m < 2 ^ 31
  | MSplit p v gt le => 0 <= p < 256 /\ is_i32 v /\ writable gt /\ writable le
  end.

(* ---- what remains of a tree when the channel and the group are known ---- *)
Fixpoint resolve (sp : Z -> Z) (t : mtree) : mtree :=
  match t with
  | MLeaf _ _ _ _ => t
  | MSplit p v gt le => if p <? 2 then (if v <? sp p then resolve sp gt else resolve sp le) else MSplit p v (resolve sp gt) (resolve sp le)
  end.
Fixpoint has_split (t : mtree) (p v : Z) : Prop :=
  match t with MLeaf _ _ _ _ => False | MSplit p' v' gt le => (p = p' /\ v = v') \/ has_split gt p v \/ has_split le p v end.
Fixpoint has_leaf (t : mtree) (predictor : Z) : Prop :=
  match t with MLeaf _ p _ _ => predictor = p | MSplit _ _ gt le => has_leaf gt predictor \/ has_leaf le predictor end.
Definition agrees (sp pv : Z -> Z) : Prop := pv 0 = sp 0 /\ pv 1 = sp 1.

(* a tree with other contexts *)
Fixpoint map_contexts (f : Z -> Z) (t : mtree) : mtree :=
  match t with
  | MLeaf c p o m => MLeaf (f c) p o m
  | MSplit p v gt le => MSplit p v (map_contexts f gt) (map_contexts f le)
  end.
