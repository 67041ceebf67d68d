(* Model of AnalyticUniformRandoms.get_filling_factor, nbodykit/algorithms/paircount_tpcf/estimators.py 73-106,
   over the real numbers of the standard library. *)
From Coq Require Import List Reals.
Import ListNotations.
Local Open Scope R_scope.

(* numpy.diff *)
Fixpoint diff (l : list R) : list R :=
  match l with
  | a :: (b :: _) as t => (b - a) :: diff t
  | _ => []
  end.
Fixpoint rsum (l : list R) : R := match l with [] => 0 | x :: l => x + rsum l end.
Definition volume (L : R * R * R) : R := let '(a, b, c) := L in a * b * c.
(* 81-85 *)
Definition fill_1d (r_edges : list R) (L : R * R * R) : list R :=
  map (fun v => v / volume L) (diff (map (fun r => 4 / 3 * PI * r ^ 3) r_edges)).
(* numpy.diff(numpy.diff(V, axis=0), axis=1) of V[i][j] = f a_i b_j *)
Fixpoint diff_rows (V : list (list R)) : list (list R) :=
  match V with
  | a :: (b :: _) as t => map (fun p => snd p - fst p) (combine a b) :: diff_rows t
  | _ => []
  end.
Definition diff2 (V : list (list R)) : list (list R) := map diff (diff_rows V).
Definition outer (f : R -> R -> R) (a b : list R) : list (list R) := map (fun x => map (f x) b) a.
(* 88-93 *)
Definition fill_2d (r_edges mu_edges : list R) (L : R * R * R) : list (list R) :=
  map (map (fun v => v / volume L)) (diff2 (outer (fun r mu => 2 / 3 * PI * (r ^ 3 * mu) * 2) r_edges mu_edges)).
(* 96-100 *)
Definition fill_proj (rp_edges pi_edges : list R) (L : R * R * R) : list (list R) :=
  map (map (fun v => v / volume L)) (diff2 (outer (fun rp p => PI * (rp ^ 2 * (2 * p))) rp_edges pi_edges)).
(* 103-109; None is nan *)
Definition np_sqrt (x : R) : option R := if Rle_dec 0 x then Some (sqrt x) else None.
Definition deg2rad (x : R) : R := x * PI / 180.
Definition cap_area (theta : R) : option R :=
  let chord := 2 * sin (1 / 2 * deg2rad theta) in
  match np_sqrt (1 - chord ^ 2) with
  | Some s => let h := 1 - s in Some (PI * (chord ^ 2 + h ^ 2))
  | None => None
  end.
Definition ominus (a b : option R) : option R := match a, b with Some a, Some b => Some (a - b) | _, _ => None end.
Fixpoint odiff (l : list (option R)) : list (option R) :=
  match l with
  | a :: (b :: _) as t => ominus b a :: odiff t
  | _ => []
  end.
Definition fill_angular (edges : list R) : list (option R) :=
  map (option_map (fun v => v / (4 * PI))) (odiff (map cap_area edges)).
