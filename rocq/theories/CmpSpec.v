(* The kernels of interpolation and what they do to a density field. *)
From Coq Require Import Reals List Bool String.
From Coquelicot Require Import Coquelicot.
Import ListNotations.
Local Open Scope R_scope.

(* the weight of a grid point at distance t (in cells) from a particle: B-splines of orders 2, 3 and 4 *)
Definition cic (t : R) : R := if Rle_dec (Rabs t) 1 then 1 - Rabs t else 0.
Definition tsc (t : R) : R := if Rle_dec (Rabs t) (1 / 2) then 3 / 4 - t ^ 2 else if Rle_dec (Rabs t) (3 / 2) then (3 / 2 - Rabs t) ^ 2 / 2 else 0.
Definition pcs (t : R) : R := if Rle_dec (Rabs t) 1 then (4 - 6 * t ^ 2 + 3 * Rabs t ^ 3) / 6 else if Rle_dec (Rabs t) 2 then (2 - Rabs t) ^ 3 / 6 else 0.
Inductive kernel : string -> (R -> R) -> Prop := k_cic : kernel "cic" cic | k_tsc : kernel "tsc" tsc | k_pcs : kernel "pcs" pcs.

(* the Fourier transform of a kernel, which is even and vanishes beyond two cells *)
Definition transform (k : R -> R) (w : R) : R := RInt (fun t => k t * cos (w * t)) (-2) 2.
(* the power of a particle at distance u from a grid point: the square of the transform of its weights on the grid *)
Definition points : list R := [-3; -2; -1; 0; 1; 2; 3].
Definition sum_over (l : list R) (f : R -> R) : R := fold_right (fun j acc => f j + acc) 0 l.
Definition particle (k : R -> R) (w u : R) : R * R := (sum_over points (fun j => k (j - u) * cos (w * j)), - sum_over points (fun j => k (j - u) * sin (w * j))).
Definition norm2 (v : R * R) : R := fst v ^ 2 + snd v ^ 2.
Definition particle_power (k : R -> R) (w u : R) : R := norm2 (particle k w u).
(* the average over all positions of the particle in a cell *)
Definition shot_noise (k : R -> R) (w : R) : R := RInt (particle_power k w) 0 1.
Definition cmul (a b : R * R) : R * R := (fst a * fst b - snd a * snd b, fst a * snd b + snd a * fst b).
(* in three dimensions weights are products, so are transforms *)
Definition particle3 (k : R -> R) (w : nat -> R) (u0 u1 u2 : R) : R * R := cmul (cmul (particle k (w 0%nat) u0) (particle k (w 1%nat) u1)) (particle k (w 2%nat) u2).
Definition average3 (f : R -> R -> R -> R) : R := RInt (fun u0 => RInt (fun u1 => RInt (fun u2 => f u0 u1 u2) 0 1) 0 1) 0 1.
Definition scale (r : R) (v : R * R) : R * R := (r * fst v, r * snd v).
