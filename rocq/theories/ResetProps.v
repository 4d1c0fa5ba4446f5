(* C36.  After JxlDecoderReset the decoder behaves as one newly created, except for the level of
   progressive detail and what JPEG reconstruction left behind.  The full statement is
     forall V L memory1 memory2 history calls,
       behaviour L (reset L (after L (create L memory1) history)) calls = behaviour L (create L memory2) calls
   It is false: see the theorems at the end. *)
From Verif Require Import Base ResetModel ResetSpec ResetProofs.
Ltac Zify.zify_post_hook ::= idtac.

(** Whatever was called before (also JxlDecoderReset and JxlDecoderRewind) and wherever it left
    the decoder: after JxlDecoderReset all further calls do what they do with a new decoder for
    which the same level of detail was chosen.  The memory of the new decoder may contain
    anything. *)
Theorem C36_finished_partial : forall V (L : library V) memory1 memory2 history calls,
  jpeg_finished (after L (create L memory1) history) ->
  behaviour L (reset L (after L (create L memory1) history)) calls =
  behaviour L (after L (create L memory2) [CSetProgressiveDetail (last_detail history)]) calls.
Proof.
  intros V L m1 m2 h calls (J1 & J2 & J3 & J4 & J5). set (d := after L (create L m1) h) in *.
  set (e := after L (create L m2) [CSetProgressiveDetail (last_detail h)]).
  assert (P : l_prog_detail (d_left d) = last_detail h) by (apply (run_detail V L h)).
  assert (B : forall (h : list (call V)) x, 1 <= x <= 3 -> 1 <= fold_left choice h x <= 3).
  { clear. induction h as [|c h IH]; intros x Hx; cbn [fold_left]; [exact Hx|]. apply IH. destruct c; cbn [choice]; auto.
    destruct (Z.leb_spec 1 detail), (Z.leb_spec detail 3); cbn; lia. }
  specialize (B h 1 ltac:(lia)). fold (last_detail h) in B.
  assert (E : e = mkDec (d_rest (create L m2)) (d_guards (create L m2)) (d_settings (create L m2)) (with_detail (d_left (create L m2)) (last_detail h))).
  { unfold e, after. cbn [run step]. destruct (Z.leb_spec 1 (last_detail h)), (Z.leb_spec (last_detail h) 3); try lia. reflexivity. }
  unfold behaviour. apply run_rel. rewrite E. unfold create, reset, rewind, with_detail; cbn.
  split; [reflexivity|split; [reflexivity|split; [reflexivity|]]]. unfold lrel; cbn. fin; try solve [exfalso; intuition discriminate].
  - unfold jpeg_rel; cbn. repeat (split; [assumption|]). intros Q. rewrite J1 in Q. discriminate.
  - unfold icc_reset. destruct (l_icc (d_left d)); reflexivity.
Qed.
Print Assumptions C36_finished_partial.

(** Without JPEG reconstruction. *)
Theorem C36_detail_only_partial : forall V (L : library V) memory1 memory2 history calls,
  Forall no_jpeg history ->
  behaviour L (reset L (after L (create L memory1) history)) calls =
  behaviour L (after L (create L memory2) [CSetProgressiveDetail (last_detail history)]) calls.
Proof.
  intros V L m1 m2 h calls F. apply C36_finished_partial.
  destruct (run_untouched V L h (create L m1) F) as [J _]; [unfold untouched, create, reset, rewind; cbn; repeat split; try reflexivity; discriminate|].
  unfold jpeg_finished, after. rewrite J. cbn. auto.
Qed.
Print Assumptions C36_detail_only_partial.

(** And with the default level of detail. *)
Theorem C36_as_new_partial : forall V (L : library V) memory1 memory2 history calls,
  Forall no_jpeg history -> last_detail history = 1 ->
  behaviour L (reset L (after L (create L memory1) history)) calls = behaviour L (create L memory2) calls.
Proof.
  intros V L m1 m2 h calls F E. rewrite (C36_detail_only_partial V L m1 m2 h calls F), E. unfold behaviour. apply run_rel.
  unfold after. cbn [run step fst]. change ((1 <=? 1) && (1 <=? 3)) with true. cbn [fst].
  split; [reflexivity|split; [reflexivity|split; [reflexivity|]]]. unfold lrel; cbn. fin. all: unfold jpeg_rel; cbn; fin.
Qed.
Print Assumptions C36_as_new_partial.

(** A JPEG buffer that was released leaves nothing behind. *)
Theorem C36_buffer_released_partial : forall V (L : library V) memory1 memory2 history data size calls,
  Forall no_jpeg history ->
  behaviour L (reset L (after L (create L memory1) (history ++ [CSetJPEGBuffer data size; CReleaseJPEGBuffer]))) calls =
  behaviour L (after L (create L memory2) [CSetProgressiveDetail (last_detail history)]) calls.
Proof.
  intros V L m1 m2 h data size calls F.
  assert (D : last_detail (h ++ [CSetJPEGBuffer data size; CReleaseJPEGBuffer]) = last_detail h)
    by (unfold last_detail; rewrite fold_left_app; reflexivity).
  rewrite <- D. apply C36_finished_partial.
  destruct (run_untouched V L h (create L m1) F) as [J _]; [unfold untouched, create, reset, rewind; cbn; repeat split; try reflexivity; discriminate|].
  assert (R : forall (h1 h2 : list (call V)) d, fst (run L d (h1 ++ h2)) = fst (run L (fst (run L d h1)) h2)).
  { induction h1 as [|c h1 IH]; intros h2 d; [reflexivity|]. cbn [app run]. destruct (step L d c) as [d1 o]. specialize (IH h2 d1).
    destruct (run L d1 h1) as [d2 o2]. destruct (run L d1 (h1 ++ h2)) as [d3 o3]. cbn [fst] in *. exact IH. }
  unfold jpeg_finished, after. rewrite R. set (d := fst (run L (create L m1) h)) in *.
  cbn [run step]. destruct ((1 <? r_internal_frames (d_rest d)) || output_set (l_jpeg (d_left d))); cbn; rewrite J; cbn; repeat split.
Qed.
Print Assumptions C36_buffer_released_partial.

(** ** Cases.  A library that decodes one frame with progression, looking at the box contents and
    the profile on the way. *)
Definition case_next (r : rewound Z) (s : settings Z) (g : guards) (log : list (seen Z)) : rewound Z * settings Z * micro Z :=
  (r, s, match g_box_stage g, g_frame_stage g, zlen log with
         | SHeader, _, _ => MBoxHeader true true false false false 9 3
         | SRecon, FHeader, 0 => MJpegRecon [7; 8]
         | _, FHeader, 0 => MIcc
         | _, FHeader, 1 => MFrameHeader
         | _, FToc, _ => MToc true true
         | _, FFull, 3 => MFull
         | _, FFull, 4 => MFrameProgress
         | _, FFull, 5 => MFrameProgress
         | _, _, _ => MReturn 0
         end).
Definition case_lib : library Z := mkLib Z 1 2 0 case_next
  (fun c r s g log => (true, zlen log, r, s))
  (fun r => inl (mkIcc 5 6)) (fun r v => v) (fun r v => (mkIcc 7 (v + 1), true, v))
  (fun r b => (b, 3)) (fun bytes => (zlen bytes + 100, Some true)).
Definition case_memory (x : Z) : dec Z :=
  mkDec (rewound_init case_lib x) (guards_init x) (mkSettings None true true true true x [] [] [] true)
        (mkLeft None x x true x x x (mkBoxDec None true true true x x) (mkBoxDec None true true true x x) jpeg0).
Definition case_history : list (call Z) :=
  [CSetProgressiveDetail 3; CSubscribeEvents 20480; CProcessInput 9; CSetImageOutCallback 40 41; CSetImageOutBitDepth true 42;
   CSetBoxBuffer 8; CProcessInput 9; CSetProgressiveDetail 1; CRewind; CProcessInput 4].
Definition case_calls : list (call Z) :=
  [CSubscribeEvents 20480; CSetImageOutBuffer 50; CProcessInput 20].

Example C36_case : Forall no_jpeg case_history /\ last_detail case_history = 1 /\
  l_icc (d_left (after case_lib (create case_lib (case_memory 1)) case_history)) <> None /\
  behaviour case_lib (create case_lib (case_memory 2)) case_calls =
  [([], Some 0); ([], Some 0);
   ([VIcc true 6; VOutput false None; VDetail 1 false; VOutput false None; VFormat 50; VDetail 1 false], Some 0)].
Proof. split; [|vm_compute; repeat split; discriminate]. repeat constructor. Qed.

(** ** What JxlDecoderReset does not reset.  (The documentation says: all state and settings.) *)

(** The level of progressive detail. *)
Theorem C36_detail_refuted : exists (L : library Z) memory history calls, Forall no_jpeg history /\
  behaviour L (reset L (after L (create L memory) history)) calls <> behaviour L (create L memory) calls.
Proof.
  exists case_lib, (case_memory 0), [CSetProgressiveDetail 3], case_calls. split; [repeat constructor|]. vm_compute. discriminate.
Qed.
Print Assumptions C36_detail_refuted.

(** The buffer for the reconstructed JPEG: a new one is refused, and the old one would be
    written to. *)
Theorem C36_jpeg_buffer_refuted : forall (L : library Z) memory,
  behaviour L (create L memory) [CSetJPEGBuffer (Some 1) 10] = [([VOutput false None], Some (k_zero L))] /\
  behaviour L (reset L (after L (create L memory) [CSetJPEGBuffer (Some 1) 10])) [CSetJPEGBuffer (Some 2) 20] = [([VOutput true None], None)].
Proof. intros L memory. split; reflexivity. Qed.
Print Assumptions C36_jpeg_buffer_refuted.

(** The reconstruction data of the file before is given to the first frame of the next one,
    which has none. *)
Theorem C36_jpeg_data_refuted : exists (L : library Z) memory history calls,
  (forall data size, ~ In (CSetJPEGBuffer data size) history) /\
  behaviour L (create L memory) calls = [([VOutput false None], Some 0); ([VIcc true 6; VOutput true None], Some 0)] /\
  behaviour L (reset L (after L (create L memory) history)) calls = [([VOutput false None], Some 0); ([VIcc true 6; VOutput true (Some 100)], Some 0)].
Proof.
  exists (mkLib Z 1 2 0 (fun r s g log => let '(r, s, m) := case_next r s g log in (r, s, match g_frame_stage g with FHeader => m | _ => MReturn 0 end))
            (k_api case_lib) (k_icc_init case_lib) (k_icc_mixed case_lib) (k_icc_process case_lib) (k_box_process case_lib) (k_jpeg_decode case_lib)),
         (case_memory 0), [CSubscribeEvents 8192; CProcessInput 2], [CSetJPEGBuffer (Some 1) 10; CProcessInput 9].
  split; [intros data size [H|[H|[]]]; discriminate|]. vm_compute. split; reflexivity.
Qed.
Print Assumptions C36_jpeg_data_refuted.
