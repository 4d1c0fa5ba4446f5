(* What the user of a parallel runner relies on *)
From Coq Require Import Permutation.
From Verif Require Import Base RunnerModel.

(* Calls in progress: each thread number is used by at most one call at a time, a call ends once, and Runner
   returns when no call is in progress *)
Definition replay1 (threads : Z) (busy : list (Z * Z)) (e : event) : option (list (Z * Z)) :=
  match e with
  | Call t th => if (0 <=? th) && (th <? threads) && negb (existsb (fun p => snd p =? th) busy) then Some ((t, th) :: busy) else None
  | Back t th => if existsb (fun p => (fst p =? t) && (snd p =? th)) busy then Some (filter (fun p => negb (snd p =? th)) busy) else None
  | Return _ => match busy with [] => Some [] | _ => None end
  | Init _ => Some busy
  end.
Fixpoint replay (threads : Z) (busy : list (Z * Z)) (l : list event) : option (list (Z * Z)) :=
  match l with
  | [] => Some busy
  | e :: l => match replay1 threads busy e with Some b => replay threads b l | None => None end
  end.

(* the tasks called *)
Fixpoint called (l : list event) : list Z :=
  match l with [] => [] | Call t _ :: l => t :: called l | _ :: l => called l end.
Definition is_call (e : event) : Prop := match e with Call _ _ | Back _ _ => True | _ => False end.

(* what happens while Runner serves a job, until it returns *)
Definition served (threads : Z) (j : job) (l : list event) (code : Z) : Prop :=
  if j_end j <? j_start j then l = [] /\ code = runner_error
  else if j_start j =? j_end j then l = [] /\ code = success
  else if negb (j_init j =? success) then l = [Init threads] /\ code = j_init j
  else exists r, l = Init threads :: r /\ Forall is_call r /\ code = success /\ Permutation (called r) (zseq (j_start j) (Z.to_nat (j_end j - j_start j))).
(* and when it has not yet returned *)
Definition being_served (threads : Z) (j : job) (l : list event) : Prop :=
  l = [] \/ exists r, l = Init threads :: r /\ Forall is_call r /\ NoDup (called r) /\ forall t, In t (called r) -> j_start j <= t < j_end j.

(* one job after the other *)
Inductive all_served (threads : Z) : list job -> list event -> Prop :=
| all_served_none : all_served threads [] []
| all_served_more js l j l' code : all_served threads js l -> served threads j l' code -> all_served threads (js ++ [j]) (l ++ l' ++ [Return code]).
(* and perhaps a last one not yet *)
Definition serves (threads : Z) (js : list job) (l : list event) : Prop :=
  exists done rest a b, js = done ++ rest /\ l = a ++ b /\ all_served threads done a /\
    match rest with [] => b = [] | j :: _ => being_served threads j b end.

(* a wait ends only when it is notified *)
Definition no_spurious (cs : list choice) : Prop := Forall (fun c => match c with Spurious _ => False | _ => True end) cs.

(* Numbers that fit: with n workers, a range can be exceeded by n + 1 times the largest piece *)
Definition fits (n : nat) (j : job) : Prop :=
  is_u32 (j_start j) /\ is_u32 (j_end j) /\
  (j_start j < j_end j -> Z.of_nat n <> 0 -> j_end j + (Z.of_nat n + 1) * Z.max ((j_end j - j_start j) / (4 * Z.of_nat n)) 1 < 2 ^ 32).
