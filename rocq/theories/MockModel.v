(* Model of nbodykit/mockmaker.py gaussian_complex_fields (7-140), lognormal_transform (213-243), the mean counts of
   poisson_sample_to_points (284-297), of source/mesh/linear.py LinearMesh.to_complex_field (65-98), of
   source/catalog/lognormal.py _makesource (171-191) and of the filters in filters.py, over the real numbers.

   A mode of the mesh is its index (i, j, k) with 0 <= i < N0 and so on; a complex field is a function of the mode (all
   modes, the half that pmesh does not store being given by the reality condition), a real field a list over ranks.
   External: pm.generate_whitenoise (an argument), pmesh's wave numbers, c2r as the sum of plane waves. *)
From Verif Require Import Base.
From Coq Require Import Reals.
From Verif Require Import RandModel ThreeModel SkyModel ConvModel.
Local Open Scope R_scope.
Local Notation length := List.length.

Notation mode := (nat * nat * nat)%type.
(* wave number of index i of n: the Nyquist frequency is the negative one *)
Definition freq (n i : nat) : Z := if (2 * i <? n)%nat then Z.of_nat i else (Z.of_nat i - Z.of_nat n)%Z.
Definition kaxis (n : nat) (L : R) (i : nat) : R := 2 * PI * IZR (freq n i) / L.
Definition kvec (N : mode) (L : point) (m : mode) : point :=
  let '(n0, n1, n2) := N in let '(l0, l1, l2) := L in let '(i, j, k) := m in (kaxis n0 l0 i, kaxis n1 l1 j, kaxis n2 l2 k).

Section Gauss.
Variables (N : mode) (L : point) (P : R -> R) (white : mode -> comp) (inverted : bool).
Definition norm : R := 1 / volume L.                                                      (* 100 *)
Definition k2 (m : mode) : R := norm2 (kvec N L m).                                       (* 112 *)
Definition zero_idx (m : mode) : bool := ceq0 (k2 m).                                     (* 113 *)
Definition k2_safe (m : mode) : R := if zero_idx m then 1 else k2 m.                      (* 115 *)
Definition seeded (m : mode) : comp := if inverted then cscale (-1) (white m) else white m.     (* 88-89 *)
Definition delta (m : mode) : comp :=
  if zero_idx m then (0, 0) else cscale (sqrt (P (sqrt (k2_safe m)) * norm)) (seeded m).  (* 117-124 *)
Definition kcomp (i : nat) (m : mode) : R := let '(a, b, c) := kvec N L m in match i with 0%nat => a | 1%nat => b | _ => c end.
Definition disp (i : nat) (m : mode) : comp :=
  if zero_idx m then (0, 0) else cmul (0, 1) (cscale (kcomp i m / k2_safe m) (delta m)).  (* 127-134 *)
(* 74-75; the seed is an integer or not *)
Definition gaussian_complex_fields (integral compute_displacement : bool) : res ((mode -> comp) * option (nat -> mode -> comp)) :=
  if integral then Ok (delta, if compute_displacement then Some disp else None) else Err ValueError.
(* linear.py 81-95 *)
Definition linear_complex (m : mode) : comp :=
  let '(a, b, c) := kvec N L m in if ceq0 a && ceq0 b && ceq0 c then (1, 0) else delta m.
Definition LinearMesh (integral : bool) : res (mode -> comp) :=
  let! _ := gaussian_complex_fields integral false in Ok linear_complex.
End Gauss.

(* c2r: the value at the cell x, the real part of the sum of the plane waves *)
Definition cells (N : mode) : list mode := let '(n0, n1, n2) := N in list_prod (list_prod (seq 0 n0) (seq 0 n1)) (seq 0 n2).
Definition angle (N m x : mode) : R :=
  let '(n0, n1, n2) := N in let '(i, j, k) := m in let '(a, b, c) := x in
  2 * PI * (INR (i * a) / INR n0 + INR (j * b) / INR n1 + INR (k * c) / INR n2).
Definition c2r (N : mode) (F : mode -> comp) (x : mode) : R :=
  rsum (map (fun m => fst (F m) * cos (angle N m x) - snd (F m) * sin (angle N m x)) (cells N)).

(* 239-241, per rank; cmean: the sum over all ranks over the number of cells *)
Definition cmean_ranks (ranks : list (list R)) : R := rsum (map rsum ranks) / INR (length (List.concat ranks)).
Definition lognormal_transform (bias : R) (ranks : list (list R)) : list (list R) :=
  let e := map (map (fun d => exp (bias * d))) ranks in map (map (fun v => v / cmean_ranks e)) e.
(* 286-297: mean number of objects of every cell; cell volume h *)
Definition cellmean (bias h nbar : R) (ranks : list (list R)) : list (list R) := map (map (fun v => v * (h * nbar))) (lognormal_transform (bias - 1) ranks).

(* lognormal.py 171-189 for one particle along one axis: position, velocity, velocity offset *)
Definition make_particle (f efunc z L : R) (pos d : R) : R * R * R :=
  (fmod (pos + d) L, f * 100 * efunc / (1 + z) * d, f * d).

(* filters.py 27-33 and 55-58: the factor of a mode; None: not a number *)
Definition tophat (r : R) (k : point) : option R :=
  let kk := sqrt (norm2 k) in let kr := kk * r in
  if ceq0 kk then Some 1 else if ceq0 kr then None else Some (3 * (sin kr / (kr * kr * kr) - cos kr / (kr * kr))).
Definition gaussian (r : R) (k : point) : R := exp (- (1 / 2) * norm2 k * (r * r)).
