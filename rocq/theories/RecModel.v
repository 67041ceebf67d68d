(* Model of the displacement solved by algorithms/fftrecon.py FFTRecon._compute_s (217-256), on the mesh and over the real
   numbers, with the transforms of DftModel.  [delta] is the painted mesh of the data in units of its mean (work_with:
   SurveyModel); reading the displacement out at the particles is pmesh's. *)
From Verif Require Import Base.
From Coq Require Import Reals.
From Verif Require Import RandModel ThreeModel SkyModel ConvModel MockModel DftModel.
Local Open Scope R_scope.

Definition comp3 (d : nat) (p : point) : R := let '(a, b, c) := p in match d with 0%nat => a | 1%nat => b | _ => c end.
Definition dot3 (p q : point) : R := let '(a, b, c) := p in let '(x, y, z) := q in a * x + b * y + c * z.
Section Kernel.
Variables (N : mode) (L los : point) (bias f radius : R).
(* 222-223 *)
Definition safe2 (k : point) : R := if ceq0 (norm2 k) then 1 else norm2 k.
Definition mu_of (k : point) : R := dot3 k los / sqrt (safe2 k).                         (* 226 *)
Definition frac (k : point) : R := bias * (1 + f / bias * (mu_of k * mu_of k)).         (* 230 *)
(* 228-234 *)
Definition kernel (d : nat) (k : point) (v : comp) : comp :=
  let v := cscale (exp (- (/ 2) * safe2 k * (radius * radius))) v in
  let v := cscale (/ frac k) v in
  cmul (0, 1) (cscale (comp3 d k / safe2 k) v).
(* delta_d.apply(kernel(d)).c2r(), 246-247 *)
Definition displacement (delta : mode -> R) (d : nat) : mode -> R :=
  inverse N (fun m => kernel d (kvec N L m) (r2c N delta m)).
End Kernel.
