(* Model of nbodykit/algorithms/kdtree.py, class KDDensity (9-86), over the real numbers.
   Particles are numbered 0 .. n-1 over all ranks; pos gives their positions; the box is a cube of side L
   (run() asserts it, line 74).
   External: GridND.decompose (an argument: the smoothing to the particles held by every rank), scipy's cKDTree
   (the distances to all points it holds, in increasing order, infinity beyond the last one). *)
From Verif Require Import Base.
From Coq Require Import Reals.
From Verif Require Import RandModel ThreeModel SkyModel.
Local Open Scope R_scope.
Local Notation length := List.length.

(* 43: (csize / BoxSize.prod()) ** (1.0 / len(BoxSize)) *)
Definition meansep (n : nat) (L : R) : R := Rpower (INR n / (L * L * L)) (1 / 3).

(* 75-76: xpos[...] /= BoxSize; xpos %= 1 *)
Definition to_unit (L : R) (p : point) : point := let '(x, y, z) := p in (fmod (x / L) 1, fmod (y / L) 1, fmod (z / L) 1).

(* cKDTree(xpos, boxsize = 1): distances in the periodic unit box *)
Definition wrap1 (u v : R) : R := Rmin (Rabs (u - v)) (1 - Rabs (u - v)).
Definition kd_dist (p q : point) : R :=
  let '(x, y, z) := p in let '(u, v, w) := q in
  sqrt (wrap1 x u * wrap1 x u + wrap1 y v * wrap1 y v + wrap1 z w * wrap1 z w).
Fixpoint insertR (x : R) (l : list R) : list R :=
  match l with [] => [x] | y :: l' => if rleb x y then x :: l else y :: insertR x l' end.
Definition sortR (l : list R) : list R := fold_right insertR [] l.
(* 80-81: d, i = tree.query(xpos, k=[8]); None stands for infinity *)
Definition query8 (u : nat -> point) (held : list nat) (p : nat) : option R :=
  nth_error (sortR (map (fun q => kd_dist (u p) (u q)) held)) 7.

(* 84: layout.gather(d, mode=numpy.fmin): the least over the ranks holding the particle *)
Definition fmin (a b : option R) : option R :=
  match a, b with Some x, Some y => Some (Rmin x y) | Some x, None => Some x | None, b => b end.
Definition gather_min (u : nat -> point) (ranks : list (list nat)) (p : nat) : option R :=
  fold_right fmin None (map (fun held => query8 u held p) (filter (fun held => existsb (Nat.eqb p) held) ranks)).

(* 85: 1 / (d ** 3 * BoxSize.prod()); None stands for infinity *)
Definition inverse_cube (L : R) (d : option R) : option R :=
  match d with None => Some 0 | Some d => if rltb 0 d then Some (1 / (d * d * d * (L * L * L))) else None end.

Definition KDDensity (n : nat) (L : R) (pos : nat -> point) (margin : R) (decompose : R -> list (list nat)) (p : nat) : option R :=
  let ranks := decompose (margin * meansep n L) in
  inverse_cube L (gather_min (fun q => to_unit L (pos q)) ranks p).
