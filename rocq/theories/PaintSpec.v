(* What is painted: the selected rows of a rank, with the defaults for absent columns. *)
From Verif Require Import Base Num PaintModel.
Local Open Scope Qc_scope.

Definition at_row {A} (x : option (list A)) (dflt : A) (i : nat) : A :=
  match x with None => dflt | Some l => nth i l dflt end.

Definition selected {P} (r : columns P) : list (particle P) :=
  map (fun ip => {| pos := snd ip; w := at_row (weight r) 1 (fst ip); v := at_row (value r) 1 (fst ip) |})
      (filter (fun ip => at_row (selection r) true (fst ip)) (combine (seq 0 (length (position r))) (position r))).

(* the columns of a catalog have one length *)
Definition same_length {A B} (l : list A) (x : option (list B)) : Prop := forall y, x = Some y -> length y = length l.
Definition aligned {P} (r : columns P) : Prop :=
  same_length (position r) (weight r) /\ same_length (position r) (value r) /\ same_length (position r) (selection r).

Definition all_selected {P} (ranks : list (columns P)) : list (particle P) := concat (map selected ranks).

(* the sum over the mesh *)
Definition total (ncell : nat) (f : field) : Qc := qsum (map f (seq 0 ncell)).

(* what a set of particles adds to a cell *)
Definition deposit {P} (k : P -> field) (ps : list (particle P)) : field :=
  fun c => qsum (map (fun p => w p * v p * k (pos p) c) ps).

(* the field before normalisation, from the deposits on the two meshes, added to `out` *)
Definition painted (compose : field -> field -> field) (interlaced : bool) (out : option field) (f1 f2 : field) : field :=
  let o := match out with Some f => f | None => fzero end in
  if interlaced then fadd o (compose f1 f2) else fadd o f1.

(* the contract of pmesh: windows have unit mass, and so has the average of two meshes *)
Definition conserves {P} (kern kern2 : P -> field) (ncell : nat) (compose : field -> field -> field) : Prop :=
  (forall p, total ncell (kern p) = 1) /\ (forall p, total ncell (kern2 p) = 1) /\
  (forall f g, total ncell (compose f g) = (total ncell f + total ncell g) / zq 2).
