(* Vocabulary for the colour transform theorems. *)
From Verif Require Import Base RctModel.

(* three channels of the same size whose samples are int32 *)
Definition same_shape (a b : channel) : Prop := map (@length Z) a = map (@length Z) b.
Definition chan_ok (a : channel) : Prop := Forall (Forall is_i32) a.
Definition chans_ok (c : chans) : Prop :=
  let '(a, b, d) := c in
  same_shape a b /\ same_shape a d /\ chan_ok a /\ chan_ok b /\ chan_ok d.

Definition px_ok (p : Z * Z * Z) : Prop := is_i32 (fst3 p) /\ is_i32 (snd3 p) /\ is_i32 (trd3 p).

(* the value x limited to the interval [lo, hi] *)
Definition clamp (lo hi x : Z) : Z := Z.max lo (Z.min hi x).
