(* Specification of the transformations of transform.py, independent of the model's helpers. *)
From Verif Require Import Base.
From Coq Require Import Reals String.
Local Open Scope R_scope.
Local Notation length := List.length.

Definition degree : R := PI / 180.
(* the point at distance r from o in the direction ra, dec (in degrees) *)
Definition toward (o : R * R * R) (r ra dec : R) : R * R * R :=
  let '(a, b, c) := o in
  (a + r * cos (dec * degree) * cos (ra * degree), b + r * cos (dec * degree) * sin (ra * degree), c + r * sin (dec * degree)).
Definition separation (p o : R * R * R) : R :=
  let '(a, b, c) := p in let '(x, y, z) := o in sqrt ((a - x) * (a - x) + (b - y) * (b - y) + (c - z) * (c - z)).
(* velocity away from the observer *)
Definition radial (v p o : R * R * R) : R :=
  let '(a, b, c) := p in let '(x, y, z) := o in let '(u, w, t) := v in
  ((a - x) * u + (b - y) * w + (c - z) * t) / separation p o.

(* the values of an argument, given as a scalar or as an array of n elements *)
Definition spread {A} (n : nat) (a : list A) (i : nat) (v : A) : Prop :=
  (length a = n /\ nth_error a i = Some v) \/ a = [v].

(* the redshifts at which distances are tabulated and their ratio *)
Definition zmin : R := / 10 ^ 8.
Definition ratio (zmax : R) : R := Rpower (zmax / zmin) (/ 1023).
Definition node (zmax z : R) : Prop := z = 0 \/ exists i, (i <= 1023)%nat /\ z = zmin * Rpower (zmax / zmin) (INR i / 1023).
Definition increasing (f : R -> R) : Prop := forall a b, 0 <= a -> a < b -> f a < f b.
Definition speed_of_light : R := 299792.458.

(* rows *)
Definition inner (a b : list R) : R := fold_right Rplus 0 (map (fun p => fst p * snd p) (combine a b)).
Definition along (p d : list R) : Prop := exists t, p = map (Rmult t) d.
Definition minusv (a b : list R) : list R := map (fun p => fst p - snd p) (combine a b).

(* row i of a table: the value of every column *)
Definition row {V} (table : string -> option (list V)) (cols : list string) (i : nat) : list (option V) :=
  map (fun c => match table c with Some v => nth_error v i | None => None end) cols.
Definition rows {V} (table : string -> option (list V)) (n : nat) (cols : list string) : list (list (option V)) :=
  map (row table cols) (seq 0 n).
