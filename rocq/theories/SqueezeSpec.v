(* Specification vocabulary for squeeze. *)
From Verif Require Import Base SqueezeModel.

Definition dims (c : chan) : nat * nat := (cw c, chh c).
(* a channel has as many rows and columns as it says, and int32 samples *)
Definition chan_ok (c : chan) : Prop :=
  length (rows c) = chh c /\ Forall (fun r => length r = cw c) (rows c) /\ Forall (Forall is_i32) (rows c).
(* all samples of the channel have at most magnitude M *)
Definition within (M : Z) (c : chan) : Prop := Forall (Forall (fun v => - M <= v <= M)) (rows c).

(* begin_c and num_c are uint32 *)
Definition sq_ok (p : sq) : Prop := is_u32 (begin_c p) /\ is_u32 (num_c p).

(* The channels that are squeezed have samples of magnitude below 2^29, where bs bounds the
   samples of each channel: an average keeps the bound, a residual is bounded by 3 times
   it.  The result are the bounds of the squeezed channels. *)
Fixpoint bound_loop (offset beginc k c : nat) (bs : list Z) : option (list Z) :=
  match k with
  | O => Some bs
  | S k' =>
      match nth_error bs c with
      | Some b => if b <? 2 ^ 29 then bound_loop offset beginc k' (S c) (insert_at (offset + c - beginc) (3 * b) bs) else None
      | None => None
      end
  end.
Fixpoint bound_squeeze (ps : list sq) (bs : list Z) : option (list Z) :=
  match ps with
  | [] => Some bs
  | p :: ps' =>
      let b := Z.to_nat (begin_c p) in
      let n := Z.to_nat (num_c p) in
      let offset := if in_place p then (b + n)%nat else length bs in
      match bound_loop offset b n b bs with Some bs' => bound_squeeze ps' bs' | None => None end
  end.
