(* Model of the discrete Fourier transforms behind nbodykit: pmesh's RealField.r2c and ComplexField.c2r, the composition
   of interlaced meshes in source/mesh/catalog.py CatalogMesh.to_real_field (340-354), the 3-d power of
   algorithms/fftpower.py FFTBase._compute_3d_power (105-128) and the 3-d correlation of algorithms/fftcorr.py
   FFTCorr.run (151-158), over the real numbers.

   A cell or mode is its index (i, j, k); a real field is a function of the cell, a complex field a function of the mode.
   r2c carries the factor 1 / Nmesh^3 and the sign exp(-ikx); c2r is the plain sum.  Only the modes whose last index is at
   most N2 / 2 are stored by pmesh: [restore] gives the others by the reality condition, as c2r does.
   Not modelled: the distribution over ranks (slabs are in SlabModel), rounding, the dtypes. *)
From Verif Require Import Base.
From Coq Require Import Reals.
From Verif Require Import RandModel ThreeModel SkyModel ConvModel MockModel.
Local Open Scope R_scope.
Local Notation length := List.length.

Definition ncell (N : mode) : R := let '(n0, n1, n2) := N in INR n0 * INR n1 * INR n2.
(* RealField.r2c *)
Definition r2c (N : mode) (f : mode -> R) (m : mode) : comp :=
  (/ ncell N * rsum (map (fun x => f x * cos (angle N m x)) (cells N)), - (/ ncell N * rsum (map (fun x => f x * sin (angle N m x)) (cells N)))).
(* the index of -k *)
Definition minus (N m : mode) : mode :=
  let '(n0, n1, n2) := N in let '(i, j, k) := m in ((n0 - i) mod n0, (n1 - j) mod n1, (n2 - k) mod n2)%nat.
(* is the mode stored? *)
Definition stored (N m : mode) : bool := let '(n0, n1, n2) := N in let '(i, j, k) := m in (k <=? n2 / 2)%nat.
Definition restore (N : mode) (F : mode -> comp) (m : mode) : comp := if stored N m then F m else conj (F (minus N m)).
(* ComplexField.c2r *)
Definition inverse (N : mode) (F : mode -> comp) : mode -> R := c2r N (restore N F).

(* to_real_field 340-354 *)
(* kH = sum(k[i] * H[i]), 346, with k = 2 pi freq / BoxSize and H = BoxSize / Nmesh *)
Definition kh (N : mode) (L : point) (m : mode) : R :=
  let '(n0, n1, n2) := N in let '(l0, l1, l2) := L in let '(i, j, k) := m in
  kaxis n0 l0 i * (l0 / INR n0) + kaxis n1 l1 j * (l1 / INR n1) + kaxis n2 l2 k * (l2 / INR n2).
(* s1 * 0.5 + s2 * 0.5 * exp(0.5j * kH), 347 *)
Definition combine2 (N : mode) (L : point) (c1 c2 : mode -> comp) (m : mode) : comp :=
  cadd (cscale (/ 2) (c1 m)) (cmul (cscale (/ 2) (c2 m)) (cos (/ 2 * kh N L m), sin (/ 2 * kh N L m))).
Definition interlace (N : mode) (L : point) (real1 real2 : mode -> R) : mode -> R :=
  inverse N (combine2 N L (r2c N real1) (r2c N real2)).

(* _compute_3d_power 105-128 *)
Definition is_zero (m : mode) : bool := let '(i, j, k) := m in ((i =? 0) && (j =? 0) && (k =? 0))%nat.
Definition power (N : mode) (L : point) (f g : mode -> R) (m : mode) : comp :=
  let p := cmul (r2c N f m) (conj (r2c N g m)) in                                     (* 116-117 *)
  let p := if is_zero m then (0, 0) else p in                                         (* 119-124 *)
  cscale (let '(l0, l1, l2) := L in l0 * l1 * l2) p.                                  (* 128 *)
(* FFTCorr.run 151-158 *)
Definition correlation (N : mode) (L : point) (f g : mode -> R) (x : mode) : R :=
  inverse N (power N L f g) x * (1 / (let '(l0, l1, l2) := L in l0 * l1 * l2)).
