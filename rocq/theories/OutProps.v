(** * C42: encoder output is independent of the output buffer sizes. *)
From Coq Require Import ZArith List Bool Lia.
From Verif Require Import Base ListAux OMap OutModel OutSpec OutInv OutRuns OutTop.
Import ListNotations.
Local Open Scope Z_scope.

(** After any history of queueing frames and boxes, closing the frames and
    collecting output, with buffers of any sizes: no check of the library
    failed, the bytes handed over so far are, up to some pending bytes, those
    of the inputs coded so far, each once and in the order queued; and however
    the output is collected from there, the calls return consecutive pieces of
    one byte string, each piece as large as the buffer allows, and
    NEED_MORE_OUTPUT exactly as long as bytes of it remain. *)
Theorem C42_every_history : forall evs, Forall event_ok evs ->
  exists e outs, run enc_init evs = Ok (e, outs) /\
  exists done flags pending,
    added evs = done ++ queue e /\ length flags = length done /\
    all_coded done flags = concat (map snd outs) ++ pending /\
    forall buffers, exists e' outs', run e (map ECall buffers) = Ok (e', outs')
      /\ map snd outs' = cut (pending ++ queue_bytes (closed e) (queue e)) (map (@length Z) buffers)
      /\ map fst outs' = statuses (pending ++ queue_bytes (closed e) (queue e)) (map (@length Z) buffers).
Proof.
  intros evs He. destruct (history_ok evs enc_init [] init_pending (Forall_nil _) He)
    as (e & outs & done & flags & pending & E & Hp & Hq & Ha & Lf & Ec).
  exists e, outs. split; [exact E|]. exists done, flags, pending. split; [exact Ha|]. split; [exact Lf|]. split; [symmetry; exact Ec|].
  intros buffers. exact (calls_ok buffers e pending Hp Hq).
Qed.
Print Assumptions C42_every_history.

(** The usual way: everything is queued, the frames are closed, and the output
    is collected. *)
Definition session (qs : list queued) (buffers : list (list Z)) : list event :=
  map EAdd qs ++ [EClose] ++ map ECall buffers.

Lemma run_app : forall evs1 evs2 e, run e (evs1 ++ evs2) =
  (let! (e1, o1) := run e evs1 in let! (e2, o2) := run e1 evs2 in Ok (e2, o1 ++ o2)).
Proof.
  induction evs1 as [|ev evs1 IH]; intros evs2 e.
  - cbn [app run obind]. destruct (run e evs2) as [[e2 o2]| | |]; reflexivity.
  - destruct ev as [q| |b]; cbn [app run]; [apply IH|apply IH|].
    destruct (process_output e b) as [[[e1 st] out]| | |]; cbn [obind]; [|reflexivity|reflexivity|reflexivity].
    rewrite IH. destruct (run e1 evs1) as [[e2 o2]| | |]; cbn [obind]; [|reflexivity|reflexivity|reflexivity].
    destruct (run e2 evs2) as [[e3 o3]| | |]; reflexivity.
Qed.

Lemma run_adds : forall qs e, run e (map EAdd qs) = Ok (Enc (queue e ++ qs) (closed e) (wrapper e), []).
Proof.
  induction qs as [|q qs IH]; intros e; cbn [map run].
  - rewrite app_nil_r. destruct e; reflexivity.
  - rewrite IH. cbn [queue closed wrapper]. rewrite <- app_assoc. reflexivity.
Qed.

Theorem C42_file : forall qs buffers, Forall queued_ok qs ->
  exists e outs, run enc_init (session qs buffers) = Ok (e, outs)
    /\ map snd outs = cut (queue_bytes true qs) (map (@length Z) buffers)
    /\ map fst outs = statuses (queue_bytes true qs) (map (@length Z) buffers).
Proof.
  intros qs buffers H. unfold session. rewrite run_app, run_adds. cbn [obind queue closed wrapper enc_init app].
  cbn [run]. destruct (calls_ok buffers (Enc qs true (wrapper enc_init)) [] init_pending H) as (e & outs & E & E1 & E2).
  cbn [queue closed wrapper enc_init] in *. rewrite E. cbn [obind]. exists e, outs. split; [reflexivity|]. split; assumption.
Qed.
Print Assumptions C42_file.

Lemma cut_all : forall sizes bytes, last (statuses bytes sizes) MoreOutput = Success -> concat (cut bytes sizes) = bytes.
Proof.
  induction sizes as [|n sizes IH]; intros bytes H; [discriminate|]. cbn [cut statuses concat] in *.
  destruct sizes as [|m sizes].
  - cbn in *. rewrite app_nil_r. destruct (skipn n bytes) eqn:E; [|discriminate].
    rewrite <- (firstn_skipn n bytes) at 2. rewrite E, app_nil_r. reflexivity.
  - rewrite IH; [apply firstn_skipn|]. cbn [statuses] in H. cbn [statuses]. cbn [last] in *. exact H.
Qed.

(** Two applications that collect output until JXL_ENC_SUCCESS get the same
    bytes, whatever buffers they use. *)
Theorem C42_sizes_do_not_matter : forall qs buffers1 buffers2 e1 outs1 e2 outs2,
  Forall queued_ok qs ->
  run enc_init (session qs buffers1) = Ok (e1, outs1) ->
  run enc_init (session qs buffers2) = Ok (e2, outs2) ->
  last (map fst outs1) MoreOutput = Success ->
  last (map fst outs2) MoreOutput = Success ->
  concat (map snd outs1) = concat (map snd outs2).
Proof.
  intros qs b1 b2 e1 o1 e2 o2 H R1 R2 L1 L2.
  destruct (C42_file qs b1 H) as (? & ? & E1 & C1 & S1). rewrite R1 in E1. inversion E1; subst.
  destruct (C42_file qs b2 H) as (? & ? & E2 & C2 & S2). rewrite R2 in E2. inversion E2; subst.
  rewrite C1, C2. rewrite S1 in L1. rewrite S2 in L2. rewrite !cut_all by assumption. reflexivity.
Qed.
Print Assumptions C42_sizes_do_not_matter.

Lemma statuses_done : forall sizes bytes, (length bytes <= list_sum sizes)%nat -> sizes <> [] ->
  last (statuses bytes sizes) MoreOutput = Success.
Proof.
  induction sizes as [|n sizes IH]; intros bytes H Hn; [congruence|]. cbn [statuses]. destruct sizes as [|m sizes].
  - cbn in *. rewrite skipn_all2 by lia. reflexivity.
  - change (last (statuses (skipn n bytes) (m :: sizes)) MoreOutput = Success).
    apply IH; [|discriminate]. rewrite skipn_length. unfold list_sum in *. cbn [fold_right] in *. lia.
Qed.

(** Collecting ends: buffers with room for the whole file are enough, however
    the room is divided. *)
Theorem C42_collecting_ends : forall qs buffers,
  Forall queued_ok qs -> buffers <> [] ->
  (length (queue_bytes true qs) <= list_sum (map (@length Z) buffers))%nat ->
  exists e outs, run enc_init (session qs buffers) = Ok (e, outs)
    /\ last (map fst outs) MoreOutput = Success /\ concat (map snd outs) = queue_bytes true qs.
Proof.
  intros qs b H Hn Hl. destruct (C42_file qs b H) as (e & outs & E & C & S). exists e, outs. split; [exact E|].
  assert (L : last (statuses (queue_bytes true qs) (map (@length Z) b)) MoreOutput = Success)
    by (apply statuses_done; [exact Hl|destruct b; [congruence|discriminate]]).
  rewrite S, C. split; [exact L|]. apply cut_all. exact L.
Qed.
Print Assumptions C42_collecting_ends.

(** The frames have to be closed before output is collected: when
    JxlEncoderCloseFrames comes between two calls, the size of the buffer given
    to the first one decides whether the last frame is marked as such.  (The
    documentation of JxlEncoderCloseFrames asks for this order.) *)
Theorem C42_close_late_refuted : exists qs b1 b2 e1 o1 e2 o2,
  Forall queued_ok qs /\
  run enc_init (map EAdd qs ++ [ECall b1; EClose; ECall (repeat 0 100)]) = Ok (e1, o1) /\
  run enc_init (map EAdd qs ++ [ECall b2; EClose; ECall (repeat 0 100)]) = Ok (e2, o2) /\
  last (map fst o1) MoreOutput = Success /\ last (map fst o2) MoreOutput = Success /\
  concat (map snd o1) <> concat (map snd o2).
Proof.
  exists [QBox (Input [] (BBox [1; 2] [3]));
          QFrame (fun last => Input [] (BFrame [] None [] (CStrings [[if last then 10 else 11; 12]]) None))],
         (repeat 0 1), (repeat 0 50).
  do 4 eexists. split.
  { constructor; [|constructor; [|constructor]].
    - split; [constructor|]. cbn. discriminate.
    - intros last. split; [constructor|]. cbn. split; [exact I|]. split; [discriminate|exact I]. }
  split; [vm_compute; reflexivity|]. split; [vm_compute; reflexivity|]. vm_compute.
  split; [reflexivity|]. split; [reflexivity|]. discriminate.
Qed.
Print Assumptions C42_close_late_refuted.

(** ** A case: a container header, a jxlp box with the codestream headers, a
    user box, and a frame coded in streaming mode in its own box, with a frame
    index box behind it. *)
Definition case_queue : list queued :=
  [ QBox (Input [PRaw [74; 88; 76]; PBoxPut [0; 0; 0; 14] [0; 0; 0; 0; 255; 10]] (BBox [8; 9] [40; 41; 42]));
    QFrame (fun last => Input []
      (BFrame [] (Some [60; 61; 62; if last then 128 else 0]) []
         (CStream 7 [1; 2] [3; 4; 5] [6] [0] [[70; 71; 72]; []; [73; 74]]) (Some ([90], [91; 92])))) ].

Example C42_case_hypotheses : Forall queued_ok case_queue.
Proof.
  constructor; [|constructor; [|constructor]].
  - split; [constructor; [exact I|constructor; [split; discriminate|constructor]]|]. cbn. discriminate.
  - intros last. split; [constructor|]. cbn. split; [reflexivity|]. split; discriminate.
Qed.

Example C42_case :
  let file := [74; 88; 76; 0; 0; 0; 14; 0; 0; 0; 0; 255; 10; 8; 9; 40; 41; 42;
               60; 61; 62; 128; 1; 2; 3; 4; 5; 6; 0; 70; 71; 72; 73; 74; 90; 91; 92] in
  queue_bytes true case_queue = file /\
  match run enc_init (session case_queue [[99; 99]; repeat 7 17; []; repeat 5 12; repeat 0 100]) with
  | Ok (_, outs) => map fst outs = [MoreOutput; MoreOutput; MoreOutput; MoreOutput; Success]
                    /\ map (fun o => length (snd o)) outs = [2; 17; 0; 12; 6]%nat
                    /\ concat (map snd outs) = file
  | _ => False
  end.
Proof. vm_compute. repeat split. Qed.
