(* Model of the spherical harmonics made with sympy: get_real_Ylm (nbodykit/algorithms/convpower/fkp.py 11-72) and
   YlmCache._get_Ylm (nbodykit/algorithms/threeptcf.py 483-534), over the real numbers.

   External: sympy's algebra.  The expressions are modelled as written, before sympy simplifies them; at
   x = y = 0 the factor sin(theta)^m makes them 0 for m > 0, as in the simplified polynomials.
   The cache of powers (threeptcf.py 426-475) only names powers of the arguments. *)
From Verif Require Import Base.
From Coq Require Import Reals Factorial.
From Verif Require Import RandModel ThreeModel.
Local Open Scope R_scope.

(* polynomials by their coefficients *)
Fixpoint peval (p : list R) (x : R) : R := match p with [] => 0 | c :: p => c + x * peval p x end.
Fixpoint padd (p q : list R) : list R := match p, q with [], q => q | p, [] => p | a :: p, b :: q => (a + b) :: padd p q end.
Definition pscale (c : R) (p : list R) : list R := map (Rmult c) p.
Fixpoint pderiv (p : list R) : list R := match p with [] => [] | c :: q => padd q (0 :: pderiv q) end.   (* (c + x q)' = q + x q' *)
(* Legendre polynomials P_l, P_(l+1) by Bonnet's recursion *)
Fixpoint lpoly2 (l : nat) : list R * list R :=
  match l with
  | O => ([1], [0; 1])
  | S n => let (p, q) := lpoly2 n in (q, pscale (/ INR (n + 2)) (padd (pscale (INR (2 * n + 3)) (0 :: q)) (pscale (- INR (n + 1)) p)))
  end.
Definition lpoly (l : nat) : list R := fst (lpoly2 l).
(* the m-th derivative of P_l *)
Definition dlegendre (l m : nat) (x : R) : R := peval (Nat.iter m pderiv (lpoly l)) x.
(* sympy.assoc_legendre(l, m, x) = (-1)^m (1 - x^2)^(m/2) P_l^(m)(x) *)
Definition assoc_legendre (l m : nat) (x : R) : R := (-1) ^ m * sqrt (1 - x * x) ^ m * dlegendre l m x.

(* cos(m phi) and sin(m phi), expanded in cos(phi) and sin(phi) *)
Fixpoint expand_trig (m : nat) (c s : R) : R * R :=
  match m with O => (1, 0) | S m => let (a, b) := expand_trig m c s in (a * c - b * s, a * s + b * c) end.
(* cos(phi), sin(phi) of x, y: the list defs *)
Definition cos_phi (x y : R) : R := x / sqrt (x * x + y * y).
Definition sin_phi (x y : R) : R := y / sqrt (x * x + y * y).
Definition fact_ratio (l m : nat) : R := INR (fact (l - m)) / INR (fact (l + m)).

(* get_real_Ylm(l, m) of a unit vector; m from -l to l *)
Definition real_Ylm (l : nat) (m : Z) (n : point) : R :=
  let '(x, y, z) := n in
  let k := Z.abs_nat m in
  let amp := if (m =? 0)%Z then sqrt (INR (2 * l + 1) / (4 * PI)) else sqrt (2 * INR (2 * l + 1) / (4 * PI) * fact_ratio l k) in
  let expr := (-1) ^ k * assoc_legendre l k z in
  let trig := expand_trig k (cos_phi x y) (sin_phi x y) in
  amp * (if (m <? 0)%Z then expr * snd trig else if (0 <? m)%Z then expr * fst trig else expr).

(* YlmCache._get_Ylm(l, m) for 0 <= m <= l, as (real part, imaginary part) *)
Definition cache_Ylm (l m : nat) (n : point) : comp :=
  let '(x, y, z) := n in
  let trig := expand_trig m (cos_phi x y) (sin_phi x y) in
  let amp := sqrt (INR (2 * l + 1) / (4 * PI) * fact_ratio l m) in
  (amp * (assoc_legendre l m z * fst trig), amp * (assoc_legendre l m z * snd trig)).
