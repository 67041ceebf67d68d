(* What Gaussian fields, lognormal fields and filters are meant to be. *)
From Verif Require Import Base.
From Coq Require Import Reals.
From Verif Require Import RandModel ThreeModel ConvModel MockModel.
Local Open Scope R_scope.
Local Notation length := List.length.

Definition is_mode (N m : mode) : Prop := let '(n0, n1, n2) := N in let '(i, j, k) := m in (i < n0)%nat /\ (j < n1)%nat /\ (k < n2)%nat.
(* the index of the opposite wave vector *)
Definition opposite (N m : mode) : mode := let '(n0, n1, n2) := N in let '(i, j, k) := m in ((n0 - i) mod n0, (n1 - j) mod n1, (n2 - k) mod n2)%nat.
(* the transform of a real field *)
Definition hermitian (N : mode) (F : mode -> comp) : Prop := forall m, is_mode N m -> F (opposite N m) = (fst (F m), - snd (F m)).
(* a mode without a Nyquist frequency along an axis *)
Definition below_nyquist (N m : mode) : Prop := let '(n0, n1, n2) := N in let '(i, j, k) := m in (2 * i <> n0 /\ 2 * j <> n1 /\ 2 * k <> n2)%nat.
(* k is the wave vector of the index m: 2 pi f / L with the frequency f = m mod n closest to 0 along every axis *)
Definition frequency (n i : nat) (f : Z) : Prop := (exists q, f = Z.of_nat i + Z.of_nat n * q)%Z /\ (- Z.of_nat n <= 2 * f < Z.of_nat n)%Z.
Definition wavevector (N : mode) (L : point) (m : mode) (k : point) : Prop :=
  let '(n0, n1, n2) := N in let '(l0, l1, l2) := L in let '(i, j, l) := m in
  exists f0 f1 f2, frequency n0 i f0 /\ frequency n1 j f1 /\ frequency n2 l f2 /\
    k = (2 * PI * IZR f0 / l0, 2 * PI * IZR f1 / l1, 2 * PI * IZR f2 / l2).
Definition cabs2 (a : comp) : R := fst a * fst a + snd a * snd a.
Definition positive3 (L : point) : Prop := let '(a, b, c) := L in 0 < a /\ 0 < b /\ 0 < c.
Definition box_volume (L : point) : R := let '(a, b, c) := L in a * b * c.
Definition size3 (p : point) : R := let '(x, y, z) := p in sqrt (x * x + y * y + z * z).
Definition axis (i : nat) (p : point) : R := let '(x, y, z) := p in match i with 0%nat => x | 1%nat => y | _ => z end.
Definition grid_mean (N : mode) (f : mode -> R) : R := rsum (map f (cells N)) / INR (length (cells N)).
