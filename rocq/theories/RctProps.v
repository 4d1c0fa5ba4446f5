(* Properties C20 and C26: reversible colour transforms, clamped gradient. *)
From Verif Require Import Base RctModel RctSpec RctProofs.

(* C26: the gradient predictor is n + w - l limited to the interval spanned by n and w. *)
Theorem C26_clamped_gradient : forall n w l, is_i32 n -> is_i32 w -> is_i32 l ->
  clamped_gradient n w l = clamp (Z.min n w) (Z.max n w) (n + w - l).
Proof. exact clamped_gradient_spec. Qed.
Print Assumptions C26_clamped_gradient.

Example C26_case : is_i32 2147483647 /\ is_i32 2147483000 /\ is_i32 (-5) /\
  clamped_gradient 2147483647 2147483000 (-5) = 2147483647 /\
  clamped_gradient (-2147483648) (-2147483640) 2147483647 = -2147483648 /\
  clamped_gradient 10 20 13 = 17.
Proof. unfold is_i32. cbn. repeat split; lia. Qed.

(* C20: for each of the 42 types, every image of int32 samples, every vector length:
   forward then inverse is the identity, channels in the original order. *)
Theorem C20_rct_is_lossless : forall lanes rct_type c, 0 <= rct_type < 42 -> chans_ok c ->
  inv_rct lanes rct_type (fwd_rct rct_type c) = Some c.
Proof. exact rct_roundtrip. Qed.
Print Assumptions C20_rct_is_lossless.

Example C20_case : chans_ok ([[2147483647; 3; -8]; []], [[-2147483648; 5; 1]; []], [[7; -1; 2]; []]) /\
  fwd_rct 27 ([[2147483647; 3; -8]; []], [[-2147483648; 5; 1]; []], [[7; -1; 2]; []])
  = ([[1073741827; 1; -1]; []], [[-1; -2; -9]; []], [[-2147483640; -5; 6]; []]).
Proof.
  split; [|reflexivity]. unfold chans_ok, same_shape, chan_ok. cbn.
  repeat split; repeat (first [apply Forall_cons|apply Forall_nil]); unfold is_i32; lia.
Qed.

(* The scalar forward transform, when it does not overflow, computes the same. *)
Theorem C20_scalar_forward_agrees : forall t p q, px_ok p -> fwd_px_scalar t p = Some q -> fwd_px_simd t p = q.
Proof. exact fwd_scalar_simd. Qed.
Print Assumptions C20_scalar_forward_agrees.

Example C20_scalar_case : fwd_px_scalar 6 (100, -50, 7) = Some (1, 93, -103) /\ fwd_px_scalar 6 (2147483647, 0, -1) = None.
Proof. split; reflexivity. Qed.

(* The inverse does not depend on the vector length. *)
Theorem C20_inverse_independent_of_vector_size : forall lanes lanes' rct_type c,
  inv_rct lanes rct_type c = inv_rct lanes' rct_type c.
Proof. exact inv_rct_lanes. Qed.
Print Assumptions C20_inverse_independent_of_vector_size.

Example C20_lanes_case : inv_row 2 6 [(1, 2, 3); (4, 5, 6); (7, 8, 9)] = [(1, 3, -1); (4, 7, -1); (7, 12, -1)].
Proof. reflexivity. Qed.
