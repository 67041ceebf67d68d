(* Model of leaving the loop over TaskManager.iterate before its end, batch.py iterate (268-294), _get_tasks (172-219) and
   __exit__ (348-372): the generator of a group is closed at its yield (198-201), so neither DONE nor EXIT is sent, and the
   ranks of the group go on to the Barrier of __exit__, where they wait for the root.  The messages are those of BatchModel. *)
From Verif Require Import Base BatchModel.
Local Open Scope nat_scope.

(* quit: the groups whose ranks are out of the loop by break, return or an exception caught outside of it *)
Record bstate := { base : state; quit : list nat }.
Inductive baction := Do (a : action) | Leave (w : nat).
(* the group that acts; the root acts for all *)
Definition actor (a : action) : option nat := match a with AReady w | ARecv w | AMember w _ | ADone w | AExit w => Some w | AMaster _ => None end.
Definition gone (b : bstate) (w : nat) : bool := existsb (Nat.eqb w) (quit b).
Definition bstep (nworkers ntasks : nat) (gsize : nat -> nat) (b : bstate) (a : baction) : option bstate :=
  match a with
  | Do a =>
      if match actor a with Some w => gone b w | None => false end then None else
      match step nworkers ntasks gsize (base b) a with Some s => Some {| base := s; quit := quit b |} | None => None end
  | Leave w =>
      if negb (w <? nworkers) || gone b w then None else
      match ws (base b) w with Running _ _ => Some {| base := base b; quit := w :: quit b |} | _ => None end
  end.
Fixpoint brun (nworkers ntasks : nat) (gsize : nat -> nat) (b : bstate) (sched : list baction) : option bstate :=
  match sched with
  | [] => Some b
  | a :: sched => match bstep nworkers ntasks gsize b a with Some b' => brun nworkers ntasks gsize b' sched | None => None end
  end.
Definition binit : bstate := {| base := init; quit := [] |}.
