(* What shot noise is: the power that objects thrown at random onto the mesh points have on average. *)
From Verif Require Import Base Num.
From Coq Require Import Reals.
From Verif Require Import RandModel ThreeModel ConvModel MockModel MockSpec DftSpec LegProps.
From Verif Require PaintModel PaintSpec.
Local Open Scope R_scope.
Local Notation length := List.length.

(* all ways to put n objects on the mesh points *)
Fixpoint placements (N : mode) (n : nat) : list (list mode) :=
  match n with O => [[]] | S n => flat_map (fun x => map (cons x) (placements N n)) (cells N) end.
Definition mean {A} (f : A -> R) (l : list A) : R := rsum (map f l) / INR (length l).

(* a catalog without positions: per rank the number of objects and the columns Weight and Selection *)
Record rank := { objects : nat; weights : option (list Qc); chosen : option (list bool) }.
Definition complete (k : rank) : Prop := (forall l, weights k = Some l -> length l = objects k) /\ (forall l, chosen k = Some l -> length l = objects k).
Definition count (l : list rank) : nat := fold_right (fun k n => (objects k + n)%nat) 0%nat l.
(* the catalog with the given positions, rank after rank *)
Fixpoint placed (l : list rank) (xs : list mode) : list (PaintModel.columns mode) :=
  match l with
  | [] => []
  | k :: l => {| PaintModel.position := firstn (objects k) xs; PaintModel.weight := weights k; PaintModel.value := None; PaintModel.selection := chosen k |}
              :: placed l (skipn (objects k) xs)
  end.

(* kern is the window K on the periodic mesh, put on the position *)
Definition window (N : mode) (number : mode -> nat) (K : mode -> Qc) (kern : mode -> PaintModel.field) : Prop :=
  forall p x, is_mode N p -> is_mode N x -> kern p (number x) = K (moved N x (opposite N p)).
(* |sum_x K(x) exp(-ikx)|^2 *)
Definition window_power (N : mode) (K : mode -> Qc) (m : mode) : R :=
  let c := rsum (map (fun x => real_of (K x) * cos (angle N m x)) (cells N)) in
  let s := rsum (map (fun x => real_of (K x) * sin (angle N m x)) (cells N)) in c * c + s * s.
(* all of the mass in the nearest cell *)
Definition nearest (x : mode) : Qc := if eqm x (0, 0, 0)%nat then 1%Qc else 0%Qc.
(* |sum_i w_i exp(-ikx_i)|^2 *)
Definition structure (N : mode) (l : list (PaintModel.particle mode)) (m : mode) : R :=
  let c := rsum (map (fun p => real_of (PaintModel.w p) * cos (angle N m (PaintModel.pos p))) l) in
  let s := rsum (map (fun p => real_of (PaintModel.w p) * sin (angle N m (PaintModel.pos p))) l) in c * c + s * s.
