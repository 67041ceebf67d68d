(* A mesh of given coordinates along its axes, cut into slabs. *)
From Coq Require Import Reals List Bool.
From Verif Require Import Base SlabModel.
Import ListNotations.
Local Open Scope nat_scope.

(* the coordinate arrays of a mesh with coordinates xs along the axes, as pmesh gives them *)
Definition mesh_coords (xs : list (list R)) : list (nd R) :=
  map (fun ix => {| shape := axis_shape (length xs) (fst ix) (length (snd ix)); val := fun idx => nth (nth (fst ix) idx 0) (snd ix) 0%R |}) (combine (seq 0 (length xs)) xs).
(* a cell of the mesh: an index along every axis *)
Definition cell (xs : list (list R)) (g : list nat) : Prop := Forall2 (fun i x => i < length x) g xs.
(* its coordinates *)
Definition position (xs : list (list R)) (g : list nat) : list R := map (fun ix => nth (fst ix) (snd ix) 0%R) (combine g xs).
Definition rdot (a b : list R) : R := fold_right (fun xy acc => (fst xy * snd xy + acc)%R) 0%R (combine a b).
(* index j of an array of this shape *)
Definition inside (j s : list nat) : Prop := Forall2 lt j s.
Definition mesh_dims (xs : list (list R)) : list nat := map (@length R) xs.
(* the axis meant by a possibly negative number *)
Definition means (n : nat) (z : Z) (a : nat) : Prop := a < n /\ (z = Z.of_nat a \/ z = Z.of_nat a - Z.of_nat n)%Z.
(* a weight is one number or an array *)
Definition weight_at (w : R + nd R) (j : list nat) : R := match w with inl x => x | inr t => val t j end.
(* the cosine of the angle between p and the line of sight, a unit vector; zero at the origin *)
Definition is_mu (p los : list R) (m : R) : Prop :=
  (sqrt (rdot p p) = 0%R /\ m = 0%R) \/ (sqrt (rdot p p) <> 0%R /\ m = (rdot p los / sqrt (rdot p p))%R).
(* two where the coordinate along the compressed axis is positive, else one; one if nothing is compressed *)
Definition is_weight (n : nat) (sym : option Z) (p : list R) (w : R) : Prop :=
  match sym with
  | None => w = 1%R
  | Some y => forall b, means n y b -> (0 < nth b p 0 /\ w = 2)%R \/ (nth b p 0 <= 0 /\ w = 1)%R
  end.
