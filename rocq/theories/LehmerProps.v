(* Property C17: permutations and their Lehmer codes. *)
From Verif Require Import Base LehmerModel LehmerSpec LehmerProofs.

(* The code of each element is the number of smaller elements that have not come before. *)
Theorem C17_code_meaning : forall n p, 0 <= n < 2 ^ 31 -> is_permutation n p ->
  exists c, compute_lehmer p = Some c /\ zlen c = n /\
    forall i v, nth_error p i = Some v -> nth_error c i = Some (rank_among (firstn i p) v).
Proof. exact lehmer_code_meaning. Qed.
Print Assumptions C17_code_meaning.

Theorem C17_permutation_round_trip : forall n p, 0 < n <= 2 ^ 30 -> is_permutation n p ->
  exists c, compute_lehmer p = Some c /\ valid_code n c /\ decode_lehmer c = Some p.
Proof. exact lehmer_roundtrip. Qed.
Print Assumptions C17_permutation_round_trip.

Theorem C17_every_code_is_a_permutation : forall n c, 0 < n <= 2 ^ 30 -> valid_code n c ->
  exists p, decode_lehmer c = Some p /\ is_permutation n p /\ compute_lehmer p = Some c.
Proof. exact lehmer_surjective. Qed.
Print Assumptions C17_every_code_is_a_permutation.

Theorem C17_invalid_codes_rejected : forall c p, Forall is_u32 c -> decode_lehmer c = Some p -> valid_code (zlen c) c.
Proof. exact lehmer_rejects. Qed.
Print Assumptions C17_invalid_codes_rejected.

Example C17_case : is_permutation 5 [3; 0; 4; 1; 2] /\ compute_lehmer [3; 0; 4; 1; 2] = Some [3; 0; 2; 0; 0] /\
  valid_code 5 [3; 0; 2; 0; 0] /\ decode_lehmer [3; 0; 2; 0; 0] = Some [3; 0; 4; 1; 2] /\ decode_lehmer [3; 0; 2; 2; 0] = None.
Proof.
  split; [|split; [reflexivity|split; [|split; reflexivity]]].
  - split; [reflexivity|]. split.
    + repeat constructor; cbn; intuition lia.
    + cbn. intros v. lia.
  - split; [reflexivity|]. intros i v. unfold znth. destruct (Z.ltb_spec i 0); [discriminate|].
    intros E. assert (K : (Z.to_nat i < 5)%nat) by (apply (nth_error_Some [3; 0; 2; 0; 0]); congruence).
    replace i with (Z.of_nat (Z.to_nat i)) by lia. revert E K. generalize (Z.to_nat i). intros k E K.
    do 5 (destruct k as [|k]; [cbn in E; injection E as <-; lia|]). lia.
Qed.
