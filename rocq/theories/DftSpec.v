(* What Fourier transforms, power spectra, correlation functions and interlaced meshes are meant to be. *)
From Verif Require Import Base.
From Coq Require Import Reals.
From Verif Require Import RandModel ThreeModel ConvModel MockModel MockSpec.
Local Open Scope R_scope.

(* the cell reached from x by r on the periodic mesh *)
Definition moved (N x r : mode) : mode :=
  let '(n0, n1, n2) := N in let '(a, b, c) := x in let '(i, j, k) := r in ((a + i) mod n0, (b + j) mod n1, (c + k) mod n2)%nat.
(* mean over all cells of the mesh *)
Definition average (N : mode) (f : mode -> R) : R := grid_mean N f.
(* phase in turns of the wave with integer wave numbers q at the position p, in cells *)
Definition wave (N : mode) (q : Z * Z * Z) (p : R * R * R) : R :=
  let '(n0, n1, n2) := N in let '(q0, q1, q2) := q in let '(a, b, c) := p in
  2 * PI * (IZR q0 * a / INR n0 + IZR q1 * b / INR n1 + IZR q2 * c / INR n2).
(* positions of the cells of the mesh, and of the mesh whose points are shifted by half a cell *)
Definition at_cell (x : mode) : R * R * R := let '(a, b, c) := x in (INR a, INR b, INR c).
Definition at_half (x : mode) : R * R * R := let '(a, b, c) := x in (INR a - / 2, INR b - / 2, INR c - / 2).
(* q is an image of the mode m: its wave numbers differ by multiples s of the mesh size; the sum of s is the order *)
Definition image (N m : mode) (q s : Z * Z * Z) : Prop :=
  let '(n0, n1, n2) := N in let '(i, j, k) := m in let '(q0, q1, q2) := q in let '(s0, s1, s2) := s in
  exists f0 f1 f2, frequency n0 i f0 /\ frequency n1 j f1 /\ frequency n2 k f2 /\
    (q0 = f0 + Z.of_nat n0 * s0 /\ q1 = f1 + Z.of_nat n1 * s1 /\ q2 = f2 + Z.of_nat n2 * s2)%Z.
Definition order (s : Z * Z * Z) : Z := let '(s0, s1, s2) := s in (s0 + s1 + s2)%Z.
Definition mesh_size (N : mode) : Prop := let '(n0, n1, n2) := N in (0 < n0 /\ 0 < n1 /\ 0 < n2)%nat.
(* equal indices *)
Definition eqm (x y : mode) : bool := let '(a, b, c) := x in let '(a', b', c') := y in ((a =? a') && (b =? b') && (c =? c'))%nat.
