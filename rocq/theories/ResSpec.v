(* Specification for the coding of modular channels (C23). *)
From Verif Require Import Base MaModel MaSpec ResModel.

(* a channel with the pixels it should have, of 32 bits *)
Definition channel_ok (c : channel) : Prop := 0 <= cw c /\ 0 <= ch c /\ zlen (cdata c) = cw c * ch c /\ Forall is_i32 (cdata c).
(* a channel of the same size *)
Definition same_shape (c d : channel) : Prop := cw c = cw d /\ ch c = ch d /\ hshift c = hshift d /\ vshift c = vshift d.

(* the tokens with the contexts that the context map gives *)
Definition clustered (cm : list Z) : list rtoken -> list rtoken -> Prop := Forall2 (fun t u => znth cm (fst t) = Some (fst u) /\ snd t = snd u).

(* if the reader says that a context has a single value, then it has *)
Definition honest (R : reader) : Prop := forall toks c v, single R toks c = Some v -> forall t, In t toks -> fst t = c -> snd t = v.

(* a tree as the decoder accepts it (C25) or the encoder's tokenizer puts it out (C50), with a context map for it *)
Definition tree_ok (t : list node) (T : mtree) (cm : list Z) : Prop :=
  well_formed t /\ stored t 0 T /\ nodes_of T = zlen t /\ zlen t <= 2 ^ 23 /\ each_leaf_needed T /\ zlen cm = zlen (filter is_leaf t) /\ Forall is_u8 cm.

(* how many channels are coded: those up to the first that is too large *)
Fixpoint coded (nb_meta max_chan_size i : Z) (cs : list channel) : nat :=
  match cs with
  | [] => O
  | c :: cs => if (nb_meta <=? i) && ((max_chan_size <? cw c) || (max_chan_size <? ch c)) then O else S (coded nb_meta max_chan_size (i + 1) cs)
  end.

(* all multipliers are 1 *)
Fixpoint no_multipliers (t : mtree) : Prop :=
  match t with MLeaf _ _ _ m => m = 1 | MSplit _ _ gt le => no_multipliers gt /\ no_multipliers le end.

(* a header of the weighted predictor: parameters of 5 bits, four weights of 4 bits *)
Definition header_ok (h : wp_header) : Prop :=
  (forall p, In p [p1C h; p2C h; p3Ca h; p3Cb h; p3Cc h; p3Cd h; p3Ce h] -> 0 <= p < 32) /\ length (hw h) = 4%nat /\ Forall (fun w => 0 <= w < 16) (hw h).
