(* Model of the initial condition of RadiationDominated (nbodykit/cosmology/background.py:293-310), over
   GrowModel. *)
From Verif Require Import Base GrowModel.
From Coq Require Import Reals.
Local Open Scope R_scope.

Definition a_H : R := 522281250 / 10 ^ 13.   (* 5.22281250e-05 *)
(* get_initial_condition, 293-310 *)
Definition radiation_initial (b : background) (lna0 : R) : state :=
  let a0 := exp lna0 in
  let om := Om b a0 in
  let D1i := ln (a0 / a_H) in
  (D1i, 1, - (3 / 2) * om * (D1i ^ 2 - 4 * D1i + 6), - (3 / 2) * om * (D1i ^ 2 - 2 * D1i + 2)).
Definition RadiationDominated (c_efunc c_efunc_prime Omega_b Omega_cdm : R -> R)
    (odeint : (state -> R -> state) -> state -> list R -> list state) (a : option (list R)) (a_normalize : R) : growth :=
  let b := radiation c_efunc c_efunc_prime Omega_b Omega_cdm in
  Perturbation b odeint (radiation_initial b) a a_normalize.
