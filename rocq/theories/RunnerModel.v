(* The thread pool: lib/threads/thread_parallel_runner_internal.{h,cc}.
   A schedule is a list of choices of who takes the next step.  A step is one access to shared memory, one
   section guarded by the mutex, or the begin or the end of a call of the user's function.  Memory is
   sequentially consistent.  One thread calls the constructor, then Runner for each job of a list, then the
   destructor; RunOnEachThread is not modelled. *)
From Verif Require Import Base OMap.

(* the arguments of Runner, and what the user's init returns *)
Record job := Job { j_start : Z; j_end : Z; j_init : Z }.

Inductive event :=
| Init (threads : Z)            (* init(jpegxl_opaque, threads) is called *)
| Call (task thread : Z)        (* func(jpegxl_opaque, task, thread) begins *)
| Back (task thread : Z)        (* and ends *)
| Return (code : Z).            (* Runner returns *)

(* JXL_PARALLEL_RET_SUCCESS and JXL_PARALLEL_RET_RUNNER_ERROR, include/jxl/parallel_runner.h *)
Definition success := 0.
Definition runner_error := -1.

(* thread_parallel_runner_internal.h:101-103 *)
Definition worker_wait := 2 ^ 64 - 2.
Definition worker_once := 2 ^ 64 - 3.
Definition worker_exit := 2 ^ 64 - 4.

(* Where a worker is in ThreadFunc and RunRange *)
Inductive worker :=
| Fresh                             (* before the lock, .cc:115 *)
| Asleep                            (* waits for worker_start_cv_, .cc:122 *)
| Woken                             (* needs the lock again, .cc:122 *)
| Top (command : Z)                 (* .cc:90, loads num_reserved_ *)
| Loaded (command size : Z)         (* .cc:97, adds to num_reserved_ *)
| Before (command task stop : Z)    (* .cc:105, calls the function *)
| Inside (command task stop : Z)    (* in the function *)
| Gone.                             (* .cc:132 *)

(* Where the calling thread is *)
Inductive caller :=
| Idle                       (* outside of Runner *)
| Serial (task stop : Z)     (* .cc:36 *)
| SerialIn (task stop : Z)   (* in the function *)
| Setting (command : Z)      (* StartWorkers before the lock, .h:126 *)
| Notifying (command : Z)    (* StartWorkers before notify_all, .h:130 *)
| Barrier (built : bool)     (* WorkersReadyBarrier before it has the lock; in the constructor if not built, .h:113 *)
| Blocked (built : bool)     (* waits for workers_ready_cv_, .h:116 *)
| Joining                    (* in the destructor, .cc:172 *)
| Over.

Record state := State {
  workers : list worker; main : caller; ready : Z; command : Z; reserved : Z; depth : Z; jobs : list job; log : list event }.

(* max(num_worker_threads, 1), .cc:143 *)
Definition num_threads (s : state) : Z := Z.max (zlen (workers s)) 1.

(* The constructor up to the barrier, .cc:141-158 *)
Definition start (n : nat) (js : list job) : state :=
  State (repeat Fresh n) (if Z.of_nat n =? 0 then Idle else Barrier false) 0 worker_wait 0 0 js [].

Definition set_main (s : state) (m : caller) : state := State (workers s) m (ready s) (command s) (reserved s) (depth s) (jobs s) (log s).
Definition set_worker (s : state) (i : Z) (w : worker) : state := State (put (workers s) i w) (main s) (ready s) (command s) (reserved s) (depth s) (jobs s) (log s).
Definition add_log (s : state) (e : event) : state := State (workers s) (main s) (ready s) (command s) (reserved s) (depth s) (jobs s) (log s ++ [e]).
(* Runner returns: the call is done *)
Definition return_ (s : state) (code : Z) : state := State (workers s) Idle (ready s) (command s) (reserved s) (depth s) (tl (jobs s)) (log s ++ [Return code]).

(* Runner up to StartWorkers, .cc:21-58.  A return before depth_ is decremented again leaves it as it is *)
Definition call_runner (s : state) (j : job) : state :=
  if j_end j <? j_start j then return_ s runner_error
  else if j_start j =? j_end j then return_ s success
  else
    let s := add_log s (Init (Z.max (zlen (workers s)) 1)) in
    if negb (j_init j =? success) then return_ s (j_init j)
    else if zlen (workers s) =? 0 then set_main s (Serial (j_start j) (j_end j))
    else
      let d := depth s in
      let s := State (workers s) (main s) (ready s) (command s) (reserved s) (w32 (d + 1)) (jobs s) (log s) in
      if negb (d =? 0) then return_ s runner_error
      else
        let c := w64 (w64 (j_start j * 2 ^ 32) + j_end j) in
        if (c =? worker_wait) || (c =? worker_once) || (c =? worker_exit) then return_ s runner_error
        else State (workers s) (Setting c) (ready s) (command s) 0 (depth s) (jobs s) (log s).

(* A step of the calling thread, if it can take one *)
Definition step_main (s : state) : option state :=
  match main s with
  | Idle =>
      match jobs s with
      | j :: _ => Some (call_runner s j)
      | [] => Some (set_main s (if zlen (workers s) =? 0 then Joining else Setting worker_exit)) (* the destructor, .cc:162-165 *)
      end
  | Serial t stop => Some (if t <? stop then add_log (set_main s (SerialIn t stop)) (Call t 0) else return_ s success)
  | SerialIn t stop => Some (add_log (set_main s (Serial (w32 (t + 1)) stop)) (Back t 0))
  | Setting c => Some (State (workers s) (Notifying c) (ready s) c (reserved s) (depth s) (jobs s) (log s))
  | Notifying c =>
      Some (State (map (fun w => match w with Asleep => Woken | w => w end) (workers s)) (if c =? worker_exit then Joining else Barrier true)
        (ready s) (command s) (reserved s) (depth s) (jobs s) (log s))
  | Barrier built =>
      if negb (ready s =? zlen (workers s)) then Some (set_main s (Blocked built))
      else
        let d := depth s in
        let s := State (workers s) Idle 0 worker_wait (reserved s) (if built then w32 (d - 1) else d) (jobs s) (log s) in
        Some (if built then return_ s (if d =? 1 then success else runner_error) else s)   (* .cc:61-64 *)
  | Blocked _ => None
  | Joining => if forallb (fun w => match w with Gone => true | _ => false end) (workers s) then Some (set_main s Over) else None
  | Over => None
  end.

(* A step of worker i *)
Definition step_worker (s : state) (i : Z) : option state :=
  match znth (workers s) i with
  | None => None
  | Some w =>
      match w with
      | Fresh =>    (* .cc:115-122 *)
          let r := w32 (ready s + 1) in
          let m := match main s with Blocked b => if r =? num_threads s then Barrier b else main s | m => m end in
          Some (State (put (workers s) i Asleep) m r (command s) (reserved s) (depth s) (jobs s) (log s))
      | Asleep => None
      | Woken =>    (* .cc:123-137; no one sends kWorkerOnce *)
          let c := command s in
          Some (set_worker s i (if c =? worker_wait then Asleep else if c =? worker_exit then Gone else Top c))
      | Top c =>    (* .cc:71-95 *)
          let num_tasks := w32 (c mod 2 ^ 32 - c / 2 ^ 32) in
          let num_remaining := num_tasks - Z.min (reserved s) num_tasks in
          Some (set_worker s i (Loaded c (Z.max (num_remaining / w32 (zlen (workers s) * 4)) 1)))
      | Loaded c size =>    (* .cc:97-103 *)
          let begin := c / 2 ^ 32 in
          let num_tasks := w32 (c mod 2 ^ 32 - begin) in
          let my_begin := w32 (begin + reserved s) in
          let my_end := Z.min (w32 (my_begin + size)) (w32 (begin + num_tasks)) in
          let s := State (workers s) (main s) (ready s) (command s) (w32 (reserved s + size)) (depth s) (jobs s) (log s) in
          Some (set_worker s i (if my_end <=? my_begin then Fresh else Before c my_begin my_end))
      | Before c t stop => Some (add_log (set_worker s i (Inside c t stop)) (Call t i))   (* .cc:105 *)
      | Inside c t stop =>    (* .cc:104-106 *)
          Some (add_log (set_worker s i (if w32 (t + 1) <? stop then Before c (w32 (t + 1)) stop else Top c)) (Back t i))
      | Gone => None
      end
  end.

(* Who goes next; a wait may also end without a notification *)
Inductive choice := Main | Worker (i : Z) | Spurious (i : Z).
Definition step (s : state) (c : choice) : option state :=
  match c with
  | Main => step_main s
  | Worker i => step_worker s i
  | Spurious i => match znth (workers s) i with Some Asleep => Some (set_worker s i Woken) | _ => None end
  end.
(* None if a choice cannot be taken *)
Fixpoint run (s : state) (cs : list choice) : option state :=
  match cs with
  | [] => Some s
  | c :: cs => match step s c with Some s => run s cs | None => None end
  end.
