(* Model of what the root of a TaskManager hands out for the different kinds of tasks:
   TaskManager._distribute_tasks (nbodykit/batch.py:226-266) as used by iterate (268-299) and map
   (301-346), one reply for every READY of the workers (the protocol itself is BatchModel).

   Items of the tasks are numbers, so that they may be keys of a dictionary. *)
From Verif Require Import Base.
Local Open Scope nat_scope.

Inductive tasks :=
| Sequence (l : list nat)            (* list, tuple, range, array *)
| Generator (l : list nat)           (* generator, iterator, map, zip *)
| SetOf (l : list nat)               (* set, dict views *)
| Dictionary (l : list (nat * nat)). (* keys and values *)

(* len(tasks) *)
Definition py_len (t : tasks) : res nat :=
  match t with
  | Sequence l | SetOf l => Ok (length l)
  | Generator _ => Err TypeError
  | Dictionary l => Ok (length l)
  end.
Fixpoint assoc (k : nat) (l : list (nat * nat)) : option nat :=
  match l with [] => None | (k', v) :: l => if k' =? k then Some v else assoc k l end.
(* tasks[i] *)
Definition py_getitem (t : tasks) (i : nat) : res nat :=
  match t with
  | Sequence l => match nth_error l i with Some x => Ok x | None => Err IndexError end
  | Generator _ | SetOf _ => Err TypeError
  | Dictionary l => match assoc i l with Some x => Ok x | None => Err KeyError end
  end.

Inductive reply := Start (i x : nat) | Exit.
(* 241-259 for a number of READY messages *)
Fixpoint serve (t : tasks) (ntasks task_index requests : nat) : res (list reply) :=
  match requests with
  | O => Ok []
  | S requests =>
      if task_index <? ntasks then
        let! x := py_getitem t task_index in
        let! r := serve t ntasks (S task_index) requests in Ok (Start task_index x :: r)
      else let! r := serve t ntasks task_index requests in Ok (Exit :: r)
  end.
Definition distribute_tasks (t : tasks) (requests : nat) : res (list reply) :=
  let! n := py_len t in serve t n 0 requests.
