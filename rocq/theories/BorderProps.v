(* C39: each pixel is finalized exactly once, after all the groups it depends on. *)
From Verif Require Import Base FrameDimModel FrameDimSpec BorderModel BorderSpec BorderTop.

(* C39: after any history of rounds and clearings, a round in which the calls of GroupDone are interleaved
   in any order, and stopped anywhere, runs without an access out of bounds or a failed assertion; no pixel
   is delivered twice; a pixel is delivered only if each group within the padding of it is done or is at
   it in this round; and when all calls of the round are over, the pixels whose last missing group was in
   this round have been delivered. *)
Theorem C39_round : forall xpx ypx gs hs vs ups modular padx pady, params_ok xpx ypx gs hs vs ups ->
  let f := fd_set xpx ypx gs hs vs modular ups in
  padding_ok f padx -> padding_ok f pady ->
  forall l set order, valid f l (fun _ => false) -> allowed f (done_by l) (Paint set order) ->
  exists c0 c c' es, init_counters f = Some c0 /\ history f padx pady l c0 = Some c /\ act f padx pady (Paint set order) c = Some (c', es) /\ NoDup (map fst es) /\
  (forall g rs, In (g, rs) es -> 0 <= g < fd_num_groups f /\ set g = true /\ zlen rs <= 3 /\ Forall (in_frame f) rs) /\
  forall x y, 0 <= x < fd_xsize f -> 0 <= y < fd_ysize f -> times es x y <= 1 /\
    (times es x y = 1 -> (forall g, near f padx pady x y g -> done_by l g = true \/ (set g = true /\ 1 <= steps_of g order)) /\ exists g, near f padx pady x y g /\ set g = true) /\
    (complete f set order -> (forall g, near f padx pady x y g -> done_by l g = true \/ set g = true) -> (exists g, near f padx pady x y g /\ set g = true) -> times es x y = 1).
Proof. exact frame_round. Qed.
Print Assumptions C39_round.

(* C39: whatever the rounds and the interleavings, once all groups are done the rectangles delivered
   partition the frame. *)
Theorem C39_partition : forall xpx ypx gs hs vs ups modular padx pady, params_ok xpx ypx gs hs vs ups ->
  let f := fd_set xpx ypx gs hs vs modular ups in
  padding_ok f padx -> padding_ok f pady ->
  forall l, valid f l (fun _ => false) -> Forall paints l -> (forall g, 0 <= g < fd_num_groups f -> done_by l g = true) ->
  exists c0 es, init_counters f = Some c0 /\ delivered f padx pady l c0 = Some es /\ Forall (fun e => Forall (in_frame f) (snd e)) es /\
  forall x y, 0 <= x < fd_xsize f -> 0 <= y < fd_ysize f -> times es x y = 1.
Proof. exact frame_once. Qed.
Print Assumptions C39_partition.

(* four groups of 128 x 128: two rounds, the calls of the second interleaved *)
Definition case_frame := fd_set 200 150 0 0 0 false 1.
Definition case_rounds := [Paint (Z.eqb 3) [3; 3; 3; 3]; Paint (fun g => g <? 3) [0; 1; 1; 0; 2; 1; 0; 2; 0; 2; 1; 2]].
Example C39_case : params_ok 200 150 0 0 0 1 /\ padding_ok case_frame 16 /\ padding_ok case_frame 3 /\ valid case_frame case_rounds (fun _ => false) /\ Forall paints case_rounds /\
  (forall g, 0 <= g < fd_num_groups case_frame -> done_by case_rounds g = true).
Proof.
  assert (G : forall g, 0 <= g < fd_num_groups case_frame -> g = 0 \/ g = 1 \/ g = 2 \/ g = 3) by (intros g H; change (fd_num_groups case_frame) with 4 in H; lia).
  split; [unfold params_ok; lia|]. split; [unfold padding_ok; change (fd_group_dim case_frame) with 128; lia|]. split; [unfold padding_ok; change (fd_group_dim case_frame) with 128; lia|].
  split; [|split; [repeat constructor|intros g H; destruct (G g H) as [->|[->|[->| ->]]]; reflexivity]].
  cbn [valid case_rounds allowed done_after]. split; [intros g _ K; discriminate K|]. split; [|split; [|split; [|exact I]]].
  - intros g H K. destruct (G g H) as [->|[->|[->| ->]]]; try discriminate K; vm_compute; discriminate.
  - intros g H K. destruct (G g H) as [->|[->|[->| ->]]]; try discriminate K; reflexivity.
  - intros g H K. destruct (G g H) as [->|[->|[->| ->]]]; try discriminate K; vm_compute; discriminate.
Qed.
Example C39_case_delivered : match init_counters case_frame with Some c => delivered case_frame 16 3 case_rounds c | None => None end =
  Some [(3, [Rect 144 131 56 19]); (0, [Rect 0 0 144 125; Rect 0 125 112 6]); (1, [Rect 144 0 56 125; Rect 112 125 88 6]); (2, [Rect 0 131 144 19])].
Proof. vm_compute. reflexivity. Qed.
