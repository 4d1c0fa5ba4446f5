(* Properties C21 and C22: squeeze. *)
From Verif Require Import Base SqueezeModel SqueezeSpec SqueezeStep SqueezeProofs SqueezeImage.

(* C21: every list of squeeze steps accepted for the image: when the forward transform does
   not overflow, the channels have the dimensions that the decoder derives, and the inverse
   transform restores the image with its channel order and number of meta-channels. *)
Theorem C21_squeeze_is_lossless : forall ps nm l nm' d' l', Forall sq_ok ps -> Forall chan_ok l ->
  meta_squeeze ps (nm, map dims l) = Some (nm', d') -> fwd_squeeze ps l = Some l' ->
  map dims l' = d' /\ inv_squeeze false ps (nm', l') = Some (nm, l).
Proof. exact squeeze_lossless. Qed.
Print Assumptions C21_squeeze_is_lossless.

(* C21, C22: with samples of moderate magnitude the forward transform does not overflow, and
   the inverse restores the image with and without vector code. *)
Theorem C21_moderate_samples : forall ps nm l nm' d' bs bs', Forall sq_ok ps -> Forall chan_ok l -> Forall2 within bs l ->
  meta_squeeze ps (nm, map dims l) = Some (nm', d') -> bound_squeeze ps bs = Some bs' ->
  exists l', fwd_squeeze ps l = Some l' /\ map dims l' = d' /\ Forall2 within bs' l' /\
    forall simd, inv_squeeze simd ps (nm', l') = Some (nm, l).
Proof. exact squeeze_any_cpu. Qed.
Print Assumptions C21_moderate_samples.

Definition ex_image : list chan :=
  [Chan 3 3 [[10; -20; 30]; [7; 7; -9]; [100; 0; 1]]; Chan 2 1 [[255; 254]]].
Definition ex_steps : list sq := [Sq true false 0 2; Sq false true 0 1].
Example C21_case : Forall sq_ok ex_steps /\ Forall chan_ok ex_image /\ Forall2 within [255; 255] ex_image /\
  (exists d', meta_squeeze ex_steps (0%nat, map dims ex_image) = Some (0%nat, d')) /\
  bound_squeeze ex_steps [255; 255] = Some [255; 765; 255; 765; 765] /\
  exists l', fwd_squeeze ex_steps ex_image = Some l' /\ l' <> ex_image.
Proof.
  split; [|split; [|split; [|split; [|split]]]].
  - repeat constructor; cbn; lia.
  - unfold chan_ok, is_i32. repeat constructor; cbn; lia.
  - unfold within. repeat constructor; cbn; lia.
  - eexists. vm_compute. reflexivity.
  - reflexivity.
  - eexists. split; [vm_compute; reflexivity|]. intros H. discriminate H.
Qed.

(* C22: one step of the vector code computes what the scalar code computes. *)
Theorem C22_vector_step : forall top avg next r, - 2 ^ 29 < top < 2 ^ 29 -> - 2 ^ 29 < avg < 2 ^ 29 -> - 2 ^ 29 < next < 2 ^ 29 ->
  - 3 * 2 ^ 29 <= r <= 3 * 2 ^ 29 -> unsqueeze_simd top avg next r = unsqueeze_scalar top avg next r.
Proof. exact simd_scalar. Qed.
Print Assumptions C22_vector_step.

Example C22_case : unsqueeze_simd (-536870911) 536870911 (-5) 1610612736 = (1342177279, -268435457) /\
  unsqueeze_simd (-100) 20 77 13 = (0, 41).
Proof. split; reflexivity. Qed.

(* C22: decoding any stream: if all samples of the image and of the intermediate images of
   the scalar code are of magnitude below 2^29, then the vector code gives the same image. *)
Theorem C22_any_stream : forall simd ps nm0 d0 nm l nm' l', Forall sq_ok ps ->
  meta_squeeze ps (nm0, d0) = Some (nm, map dims l) ->
  (forall ps1 ps2 im, ps = ps1 ++ ps2 -> inv_squeeze false ps2 (nm, l) = Some im -> Forall (within (2 ^ 29 - 1)) (snd im)) ->
  inv_squeeze false ps (nm, l) = Some (nm', l') -> inv_squeeze simd ps (nm, l) = Some (nm', l').
Proof. exact inv_any_stream. Qed.
Print Assumptions C22_any_stream.

Example C22_stream_case :
  let l := [Chan 1 2 [[5]; [-5]]; Chan 1 2 [[3]; [9]]] in
  meta_squeeze [Sq true true 0 1] (0%nat, [(2%nat, 2%nat)]) = Some (0%nat, map dims l) /\
  inv_squeeze false [Sq true true 0 1] (0%nat, l) = Some (0%nat, [Chan 2 2 [[6; 3]; [-1; -10]]]).
Proof. split; vm_compute; reflexivity. Qed.

(* Without the bound the two differ. *)
Theorem C22_any_magnitude_refuted : exists top avg next r, is_i32 top /\ is_i32 avg /\ is_i32 next /\ is_i32 r /\
  unsqueeze_simd top avg next r <> unsqueeze_scalar top avg next r.
Proof. exact simd_scalar_differ. Qed.
Print Assumptions C22_any_magnitude_refuted.
