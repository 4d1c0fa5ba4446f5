(* What an alias table is for (C11), without the table.  A histogram gives symbol s the
   frequency h[s]; the frequencies add up to 4096.  A slot map sends each of the 4096 slots
   to a symbol and an offset; it is right if the slots of symbol s have the offsets
   0 .. h[s]-1, each once, and the frequency reported with it is h[s]. *)
From Verif Require Import Base.

Definition zsum (l : list Z) : Z := fold_right Z.add 0 l.

Definition is_histogram (h : list Z) : Prop := Forall (fun v => 0 <= v) h /\ zsum h = 4096.

Definition slot_map_for (h : list Z) (slot : Z -> option (Z * Z * Z)) : Prop :=
  (forall v, 0 <= v < 4096 ->
     exists s o f, slot v = Some (s, o, f) /\ znth h s = Some f /\ 0 <= o < f) /\
  (forall s f o, znth h s = Some f -> 0 <= o < f ->
     exists v, (0 <= v < 4096 /\ slot v = Some (s, o, f)) /\
       forall v', 0 <= v' < 4096 -> slot v' = Some (s, o, f) -> v' = v).
