(* C35: skipping frames passes over no frame that a shown frame needs *)
From Verif Require Import Base OMap SkipModel SkipSpec SkipDeps SkipProofs SkipTop.

(* Whatever the user asks for, in whatever order, rewinding and skipping at any point of any pass: the decoder
   makes no access out of bounds, and when it starts a frame that will be shown, every frame that this one
   needs, directly or not, has been decoded since the decoder last started from the beginning. *)
Theorem C35_needed_frames : forall coalescing full fs ops,
  Forall frame_ok fs -> zlen fs < 2 ^ 62 -> history coalescing ops ->
  exists tr, run fs (new_decoder coalescing full) ops = Some tr /\
    forall pre k post j, tr = pre ++ Started k true :: post -> needs fs k j -> decoded pre j.
Proof. exact needed_frames. Qed.
Print Assumptions C35_needed_frames.

(* If no Skip is asked for in the middle of another, this holds for every frame that is decoded, shown or not. *)
Theorem C35_decoded_frames : forall coalescing full fs ops,
  Forall frame_ok fs -> zlen fs < 2 ^ 62 -> history coalescing ops -> calm fs (new_decoder coalescing full) ops ->
  exists tr, run fs (new_decoder coalescing full) ops = Some tr /\
    forall pre k shown post j, tr = pre ++ Started k shown :: post -> uses fs k j -> decoded pre j.
Proof. exact calm_frames. Qed.
Print Assumptions C35_decoded_frames.

(* After any history, skipping n from the beginning hides the frames of the first n stills, and shows all others,
   whether or not the decoder has seen the frames before. *)
Theorem C35_skip_count : forall coalescing full fs ops n rest tr,
  Forall frame_ok fs -> zlen fs < 2 ^ 62 -> history coalescing ops -> 0 <= n < 2 ^ 62 -> Forall quiet rest ->
  run fs (new_decoder coalescing full) (ops ++ Rewind coalescing true :: Skip n :: rest) = Some tr ->
  exists before after, tr = before ++ Rewound :: after /\
    Forall (fun ev => match ev with
      | Started k shown => shown = (n <=? stills coalescing fs k)
      | Passed k => stills coalescing fs k < n
      | _ => True end) after.
Proof. exact skip_count. Qed.
Print Assumptions C35_skip_count.

Local Ltac frames := repeat (apply Forall_cons; [unfold frame_ok, op_ok; cbn; first [exact Logic.I|reflexivity|lia|split; [lia|split; [discriminate|lia]]]|]); apply Forall_nil.

(* Five frames.  1 is drawn over 0, 3 over 1; nothing is drawn over 2 *)
Definition film : list frame :=
  [Frame false 1 true false 0 1 0; Frame false 1 true false 0 2 2; Frame false 1 true false 0 0 0; Frame false 1 true false 0 3 4; Frame true 1 true false 0 0 0].

Example film_ok : Forall frame_ok film /\ history true ([Header; Finish; Header; Finish; Header; Finish; Header; Finish; Rewind true true; Skip 3; Header; Finish; Header; Finish; Header; Header; Finish]) /\
  calm film (new_decoder true true) [Header; Finish; Header; Finish; Header; Finish; Header; Finish; Rewind true true; Skip 3; Header; Finish; Header; Finish; Header; Header; Finish].
Proof.
  split; [|split].
  - unfold film. frames.
  - split; [frames|cbn; lia].
  - vm_compute. repeat split.
Qed.
Example film_needs : needs film 3 1 /\ needs film 3 0.
Proof.
  assert (U1 : uses film 3 1).
  { exists 2, (Frame false 1 true false 0 3 4), (Frame false 1 true false 0 2 2). repeat (split; [first [reflexivity|lia|unfold saved_in; cbn; split; [reflexivity|split; [right; lia|reflexivity]]]|]). intros i fi Hi. assert (i = 2) as -> by lia. vm_compute. intros E. injection E as <-. intros (_ & _ & K). discriminate. }
  assert (U0 : uses film 1 0).
  { exists 1, (Frame false 1 true false 0 2 2), (Frame false 1 true false 0 1 0). repeat (split; [first [reflexivity|lia|unfold saved_in; cbn; split; [reflexivity|split; [right; lia|reflexivity]]]|]). intros i fi Hi. lia. }
  split; [constructor; exact U1|apply (needs_more film 3 1); [constructor; exact U1|exact U0]].
Qed.
(* on the second pass the frames 0 and 1 are decoded but not shown, and 2 is passed over *)
Example film_run : run film (new_decoder true true) [Header; Finish; Header; Finish; Header; Finish; Header; Finish; Rewind true true; Skip 3; Header; Finish; Header; Finish; Header; Header; Finish] =
  Some [Started 0 true; Done 0; Started 1 true; Done 1; Started 2 true; Done 2; Started 3 true; Done 3; Rewound; Started 0 false; Done 0; Started 1 false; Done 1; Passed 2; Started 3 true; Done 3].
Proof. vm_compute. reflexivity. Qed.
(* passed over when nothing needs them: the target is frame 4, saved nowhere, drawn over nothing and the last *)
Definition film2 : list frame :=
  [Frame false 1 true false 0 1 0; Frame false 1 true false 0 1 2; Frame false 1 true false 0 1 0; Frame true 1 true false 0 0 2].
Example film2_run : run film2 (new_decoder true true) [Header; Finish; Header; Finish; Header; Finish; Header; Finish; Rewind true true; Skip 3; Header; Header; Header; Finish; Header; Finish] =
  Some [Started 0 true; Done 0; Started 1 true; Done 1; Started 2 true; Done 2; Started 3 true; Done 3; Rewound; Passed 0; Passed 1; Started 2 false; Done 2; Started 3 true; Done 3].
Proof. vm_compute. reflexivity. Qed.

(* With a Skip in the middle of another, a frame that will not be shown can be decoded although a frame it is
   drawn over was passed over: the second target is not known, and the list of required frames is dropped. *)
Theorem C35_skip_in_skip_refuted : exists fs ops tr pre k j post,
  Forall frame_ok fs /\ history true ops /\ run fs (new_decoder true true) ops = Some tr /\
  tr = pre ++ Started k false :: post /\ uses fs k j /\ ~ decoded pre j.
Proof.
  exists film2, [Header; Finish; Header; Finish; Header; Finish; Rewind true true; Skip 2; Header; Skip 5; Header].
  exists [Started 0 true; Done 0; Started 1 true; Done 1; Started 2 true; Done 2; Rewound; Passed 0; Started 1 false].
  exists [Started 0 true; Done 0; Started 1 true; Done 1; Started 2 true; Done 2; Rewound; Passed 0], 1, 0, [].
  split; [unfold film2; frames|]. split; [split; [frames|cbn; lia]|]. split; [vm_compute; reflexivity|]. split; [reflexivity|]. split.
  - exists 1, (Frame false 1 true false 0 1 2), (Frame false 1 true false 0 1 0). repeat (split; [first [reflexivity|lia|unfold saved_in; cbn; split; [reflexivity|split; [right; lia|reflexivity]]]|]). intros i fi Hi. lia.
  - unfold decoded. cbn. intros [K|[]]. discriminate.
Qed.
Print Assumptions C35_skip_in_skip_refuted.

(* The user may change the coalescing setting after rewinding.  The table of stills is kept from the pass with
   the other setting, and a frame that a shown frame is drawn over is passed over. *)
Definition film3 : list frame :=
  [Frame false 0 true false 0 1 0; Frame false 1 true false 0 1 2; Frame false 1 true false 0 1 0; Frame true 1 true false 0 0 2].
Theorem C35_coalescing_refuted : exists fs ops tr pre k j post,
  Forall frame_ok fs /\ Forall (fun o => match o with Skip n => 0 <= n < 10 | _ => True end) ops /\ run fs (new_decoder true true) ops = Some tr /\
  tr = pre ++ Started k true :: post /\ uses fs k j /\ ~ decoded pre j.
Proof.
  exists film3, [Header; Finish; Header; Finish; Header; Finish; Rewind false true; Skip 1; Header; Header].
  exists [Started 0 true; Done 0; Started 1 true; Done 1; Started 2 true; Done 2; Rewound; Passed 0; Started 1 true].
  exists [Started 0 true; Done 0; Started 1 true; Done 1; Started 2 true; Done 2; Rewound; Passed 0], 1, 0, [].
  split; [unfold film3; frames|]. split; [frames|]. split; [vm_compute; reflexivity|]. split; [reflexivity|]. split.
  - exists 1, (Frame false 1 true false 0 1 2), (Frame false 0 true false 0 1 0). repeat (split; [first [reflexivity|lia|unfold saved_in; cbn; split; [reflexivity|split; [right; lia|reflexivity]]]|]). intros i fi Hi. lia.
  - unfold decoded. cbn. intros [K|[]]. discriminate.
Qed.
Print Assumptions C35_coalescing_refuted.
