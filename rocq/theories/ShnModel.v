(* Model of the path from particles on mesh points to the power they are reported to have: the field of
   source/mesh/catalog.py CatalogMesh.to_real_field (PaintModel, exact rationals) read as a field of the Fourier transforms
   (DftModel, real numbers), and the shot noise of algorithms/fftpower.py FFTBase._compute_3d_power (134-140).

   A position is a mesh point (i, j, k); the cell with this index has the number [number N (i, j, k)] (the array is in C order).
   Positions between mesh points are not modelled here. *)
From Verif Require Import Base Num.
From Coq Require Import Reals.
From Verif Require Import RandModel ThreeModel SkyModel ConvModel MockModel DftModel LegProps.
From Verif Require PaintModel.
Local Open Scope R_scope.

Definition number (N x : mode) : nat := let '(n0, n1, n2) := N in let '(i, j, k) := x in ((i * n1 + j) * n2 + k)%nat.
Definition size (N : mode) : nat := let '(n0, n1, n2) := N in (n0 * n1 * n2)%nat.
Definition read (N : mode) (r : PaintModel.result) (x : mode) : R := real_of (PaintModel.cells r (number N x)).

(* _compute_3d_power 134-140: the real field of a catalog keeps its attrs in c1.attrs *)
Definition reported (first_is_second : bool) (c1 : PaintModel.result) : option Qc :=
  if first_is_second then PaintModel.shotnoise c1 else Some 0%Qc.
(* the 3-d power of two painted catalogs; first is second for an auto power *)
Definition catalog_power (N : mode) (L : point) (c1 : PaintModel.result) (c2 : option PaintModel.result) : (mode -> comp) * option Qc :=
  (power N L (read N c1) (read N (match c2 with Some c => c | None => c1 end)), reported (match c2 with Some _ => false | None => true end) c1).
