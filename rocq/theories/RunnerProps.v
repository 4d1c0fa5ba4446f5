(* C38: the parallel runner *)
From Coq Require Import Permutation.
From Verif Require Import Base ListAux OMap RunnerModel RunnerSpec RunnerProofs RunnerWork RunnerTerm.

Lemma every_schedule n js cs s : Z.of_nat n < 2 ^ 30 -> Forall (fits n) js -> no_spurious cs -> run (start n js) cs = Some s ->
  serves (Z.max (Z.of_nat n) 1) js (log s) /\ exists busy, replay (Z.max (Z.of_nat n) 1) [] (log s) = Some busy.
Proof.
  intros NB F NS E. assert (I := run_inv n js NB F cs _ s (inv_start n js NB F) NS E). split; [apply (inv_serves n js s I)|]. destruct (v_busy _ _ _ I) as (busy & B & _). eauto.
Qed.

(* With n worker threads, whatever jobs are given and whoever takes each next step: Runner serves the jobs one after
   the other; for a job that is not empty init is called once, with the number of threads; then the function is
   called for no task outside of the range and for none twice; when Runner returns, it was called for every task
   of the range, and no call is in progress; no thread number is ever used by two calls at the same time. *)
Theorem C38_every_schedule : forall n js cs s,
  Z.of_nat n < 2 ^ 30 -> Forall (fits n) js -> no_spurious cs -> run (start n js) cs = Some s ->
  serves (Z.max (Z.of_nat n) 1) js (log s) /\ exists busy, replay (Z.max (Z.of_nat n) 1) [] (log s) = Some busy.
Proof. exact every_schedule. Qed.
Print Assumptions C38_every_schedule.

(* There is no deadlock and no schedule goes on for ever; so all jobs are served in the end. *)
Lemma completes n js : Z.of_nat n < 2 ^ 30 -> Forall (fits n) js ->
  exists bound, forall cs s, no_spurious cs -> run (start n js) cs = Some s ->
    zlen cs <= bound /\
    (main s <> Over -> exists c s', no_spurious [c] /\ step s c = Some s') /\
    (main s = Over -> all_served (Z.max (Z.of_nat n) 1) js (log s)).
Proof.
  intros NB F. exists (mu n (start n js)). intros cs s NS E. assert (I := run_inv n js NB F cs _ s (inv_start n js NB F) NS E). split; [|split].
  - assert (K := run_bound n js NB F cs _ s (inv_start n js NB F) NS E). assert (K2 := mu_nonneg n js s I). lia.
  - intros M. destruct (inv_progress n js s I M) as (c & s' & H1 & H2). exists c, s'. split; [constructor; [destruct c; tauto|constructor]|exact H2].
  - intros M. apply (inv_over n js s I M).
Qed.
Theorem C38_completes : forall n js, Z.of_nat n < 2 ^ 30 -> Forall (fits n) js ->
  exists bound, forall cs s, no_spurious cs -> run (start n js) cs = Some s ->
    zlen cs <= bound /\
    (main s <> Over -> exists c s', no_spurious [c] /\ step s c = Some s') /\
    (main s = Over -> all_served (Z.max (Z.of_nat n) 1) js (log s)).
Proof. exact completes. Qed.
Print Assumptions C38_completes.

(* Two workers that take turns *)
Definition two_jobs := [Job 10 13 0; Job 5 5 0; Job 9 7 0; Job 7 9 3].
Definition round := [Main; Worker 1; Worker 0; Worker 1].
Fixpoint turns (fuel : nat) (next : list choice) (s : state) : list choice :=
  match fuel with
  | O => []
  | S fuel =>
      let next := match next with [] => round | _ => next end in
      match next with
      | c :: r => match step s c with Some s => c :: turns fuel r s | None => turns fuel r s end
      | [] => []
      end
  end.
Definition two := turns 300 [] (start 2 two_jobs).
Example two_ok : Forall (fits 2) two_jobs /\ forallb (fun c => match c with Spurious _ => false | _ => true end) two = true.
Proof. split; [|vm_compute; reflexivity]. unfold two_jobs, fits, is_u32. repeat constructor; cbn [j_start j_end]; try lia; intros _ _; vm_compute; reflexivity. Qed.
Example two_run : exists s, run (start 2 two_jobs) two = Some s /\ main s = Over /\
  log s = [Init 2; Call 10 1; Back 10 1; Call 11 0; Call 12 1; Back 12 1; Back 11 0; Return 0; Return 0; Return (-1); Init 2; Return 3].
Proof. eexists. vm_compute. repeat split; reflexivity. Qed.
Example many_ok : fits 48 (Job 0 (2 ^ 31) 0).
Proof. unfold fits, is_u32. cbn [j_start j_end]. split; [lia|]. split; [lia|]. intros _ _. vm_compute. reflexivity. Qed.

(* A wait for a condition variable may end without a notification.  A worker that has already counted itself
   ready and wakes up before the others are done finds the old command, does nothing, and counts itself again:
   Runner returns while a call is in progress. *)
Theorem C38_spurious_refuted : exists cs s before,
  run (start 2 [Job 0 2 0]) cs = Some s /\ log s = before ++ [Return success] /\ In (Call 0 0) before /\ ~ In (Back 0 0) before.
Proof.
  exists [Worker 0; Worker 1; Main; Main; Main; Main;
    Worker 0; Worker 0; Worker 0; Worker 0;      (* worker 0 is inside task 0 *)
    Worker 1; Worker 1; Worker 1; Worker 1; Worker 1; Worker 1; Worker 1; Worker 1;   (* worker 1 does task 1 and is ready *)
    Spurious 1; Worker 1; Worker 1; Worker 1; Worker 1; Main].
  eexists _, [Init 2; Call 0 0; Call 1 1; Back 1 1]. split; [vm_compute; reflexivity|]. split; [reflexivity|]. split; [cbn; tauto|]. cbn. intuition discriminate.
Qed.
Print Assumptions C38_spurious_refuted.

(* A range that ends near 2^32 is not covered: the number of tasks taken, added to the begin of the range, wraps
   around, and the function is called for a task outside of the range. *)
Theorem C38_end_of_range_refuted : exists j cs s t,
  is_u32 (j_start j) /\ is_u32 (j_end j) /\ no_spurious cs /\ run (start 2 [j]) cs = Some s /\ In (Call t 1) (log s) /\ ~ (j_start j <= t < j_end j).
Proof.
  exists (Job (2 ^ 32 - 3) (2 ^ 32 - 1) 0), [Worker 0; Worker 1; Main; Main; Main; Main;
    Worker 0; Worker 0; Worker 0; Worker 0; Worker 0; Worker 0; Worker 0; Worker 0; Worker 0; Worker 0; Worker 0; Worker 1; Worker 1; Worker 1; Worker 1].
  eexists _, 0. unfold is_u32. cbn [j_start j_end]. split; [lia|]. split; [lia|]. split; [repeat constructor|]. split; [vm_compute; reflexivity|]. split; [vm_compute; tauto|lia].
Qed.
Print Assumptions C38_end_of_range_refuted.
