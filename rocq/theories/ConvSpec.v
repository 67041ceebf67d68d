(* What the multipoles of a survey are: averages over the modes of a shell of A0 times the conjugate of
   the transform weighted with the Legendre polynomial of the angle between mode and line of sight. *)
From Verif Require Import Base.
From Coq Require Import Reals Sorted.
From Verif Require Import RandModel ThreeModel ThreeSpec ConvModel.
Local Open Scope R_scope.

(* the mean of complex and real numbers; None for none *)
Definition cmean (l : list comp) : option comp :=
  match l with [] => None | _ => Some (rsum (map fst l) / INR (length l), rsum (map snd l) / INR (length l)) end.
Definition rmean (l : list R) : option R := match l with [] => None | _ => Some (rsum l / INR (length l)) end.
Definition opp3 (a : point) : point := let '(x, y, z) := a in (- x, - y, - z).
Definition length3 (a : point) : R := sqrt (dot3 a a).
Definition cosine (a b : point) : R := dot3 a b / (length3 a * length3 b).

Section Spec.
Context {X K : Type}.
Variable grid : list X.
Variable xc : X -> point.
Variable e : K -> X -> comp.
Variable modes : list K.
Variable kc : K -> point.
Variable compressed : bool.
Variables center cell : point.
Variable volume norm : R.
Variables comp1 comp2 : K -> R.
Variables F1 F2 : X -> comp.
(* the position given to a cell: half a cell beyond its coordinate *)
Definition position (x : X) : point :=
  let '(x0, x1, x2) := xc x in let '(c0, c1, c2) := center in let '(h0, h1, h2) := cell in (x0 + c0 + h0 / 2, x1 + c1 + h1 / 2, x2 + c2 + h2 / 2).
(* all modes: a compressed field stores one of each pair k, -k off the planes kz = 0 and Nyquist *)
Definition all_modes : list (bool * K) :=
  flat_map (fun k => (false, k) :: if compressed && rltb 0 (snd (kc k)) then [(true, k)] else []) modes.
Definition wave (m : bool * K) : point := if fst m then opp3 (kc (snd m)) else kc (snd m).
Definition phase (m : bool * K) (x : X) : comp := if fst m then (fst (e (snd m) x), - snd (e (snd m) x)) else e (snd m) x.
Definition transform (f : X -> R) (F : X -> comp) (m : bool * K) : comp :=
  (rsum (map (fun x => f x * (fst (phase m x) * fst (F x) - snd (phase m x) * snd (F x))) grid),
   rsum (map (fun x => f x * (fst (phase m x) * snd (F x) + snd (phase m x) * fst (F x))) grid)).
Definition estimate (l : nat) (m : bool * K) : comp :=
  let a := transform (fun _ => 1) F1 m in
  let b := transform (fun x => rlegendre l (cosine (wave m) (position x))) F2 m in
  let c := norm * (volume * comp1 (snd m)) * (INR (2 * l + 1) * volume * comp2 (snd m)) in
  (c * (fst a * fst b + snd a * snd b), c * (snd a * fst b - fst a * snd b)).
Definition shell (kedges : list R) (b : nat) : list (bool * K) :=
  filter (fun m => rleb (nth b kedges 0) (length3 (wave m)) && rltb (length3 (wave m)) (nth (S b) kedges 0)) all_modes.
End Spec.

(* ---- wedges ---- *)
Definition even_ells (max_ell : nat) : list nat := filter Nat.even (seq 0 (S max_ell)).
(* P(mu) = sum of P_ell L_ell(mu) over the even multipoles *)
Definition series (max_ell : nat) (P : nat -> R) (mu : R) : R := rsum (map (fun l => P l * rlegendre l mu) (even_ells max_ell)).
(* v is the mean of f between a and b, by the antiderivatives of f *)
Definition mean_over (f : R -> R) (a b v : R) : Prop :=
  (exists G, forall x, derivable_pt_lim G x (f x)) /\ forall G, (forall x, derivable_pt_lim G x (f x)) -> v = (G b - G a) / (b - a).
(* sum of the wedges times their widths *)
Definition widths_sum (mu_edges : list R) (w : list R) : R := rsum (map (fun p => (snd (fst p) - fst (fst p)) * snd p) (combine (combine mu_edges (tl mu_edges)) w)).
