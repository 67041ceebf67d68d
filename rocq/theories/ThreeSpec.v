(* The sum over triplets. *)
From Verif Require Import Base.
From Coq Require Import Reals Sorted Permutation.
From Verif Require Import RandModel ThreeModel.
Local Open Scope nat_scope.

(* Legendre polynomials *)
Fixpoint rleg2 (l : nat) (x : R) : R * R :=
  match l with
  | 0 => (1, x)%R
  | S n => let (p, q) := rleg2 n x in (q, ((INR (2 * n + 3) * x * q - INR (n + 1) * p) / INR (n + 2))%R)
  end.
Definition rlegendre (l : nat) (x : R) : R := fst (rleg2 l x).
Definition dot3 (a b : point) : R := let '(a0, a1, a2) := a in let '(b0, b1, b2) := b in (a0 * b0 + a1 * b1 + a2 * b2)%R.
Definition unit3 (a : point) : Prop := dot3 a a = 1%R.
(* the addition theorem: sum over m from -l to l of Y_lm(a) conj(Y_lm(b)) *)
Definition re_prod (u v : comp) : R := (fst u * fst v + snd u * snd v)%R.
Definition addition (Y : nat -> nat -> point -> comp) (l : nat) : Prop :=
  forall a b, unit3 a -> unit3 b ->
    (fst (Y l O a) * fst (Y l O b) + 2 * rsum (map (fun m => re_prod (Y l m a) (Y l m b)) (seq 1 l)) = INR (2 * l + 1) / (4 * PI) * rlegendre l (dot3 a b))%R.

(* the periodic image of x between -L/2 and L/2 *)
Definition ceil (x : R) : Z := (- Int_part (- x))%Z.
Definition image (L x : R) : R := (x - L * IZR (ceil (x / L - / 2)))%R.
Definition separation (box : option point) (p s : point) : point :=
  let '(p0, p1, p2) := p in let '(s0, s1, s2) := s in
  match box with None => (s0 - p0, s1 - p1, s2 - p2)%R | Some (L0, L1, L2) => (image L0 (s0 - p0), image L1 (s1 - p1), image L2 (s2 - p2))%R end.
Definition distance (box : option point) (p s : point) : R := sqrt (dot3 (separation box p s) (separation box p s)).
Definition direction (box : option point) (p s : point) : point := over (separation box p s) (distance box p s).
Definition in_box (box : option point) (p : point) : Prop :=
  match box with None => True | Some (L0, L1, L2) => let '(x, y, z) := p in (0 <= x < L0 /\ 0 <= y < L1 /\ 0 <= z < L2)%R end.
(* objects at another place, with the distance in the bin (lo, hi] *)
Definition in_bin (edges : list R) (box : option point) (p : point) (a : nat) (s : point * R) : bool :=
  let r := distance box p (fst s) in
  rltb 0 r && rltb (nth a edges 0%R) r && rleb r (nth (S a) edges 0%R).
Definition triplets (edges : list R) (box : option point) (l : nat) (catalog : list (point * R)) (a b : nat) : R :=
  rsum (map (fun p => (snd p * rsum (map (fun s => rsum (map (fun t =>
    (snd s * snd t * rlegendre l (dot3 (direction box (fst p) (fst s)) (direction box (fst p) (fst t))))%R)
    (filter (in_bin edges box (fst p) b) catalog))) (filter (in_bin edges box (fst p) a) catalog)))%R) catalog).

Definition rmax (edges : list R) : R := last edges 0%R.
(* kdcount enumerates every secondary within rmax of the primary once *)
Definition enum_ok (edges : list R) (box : option point) (k : rank) : Prop :=
  length (bunches k) = length (prim k) /\
  forall i p w bs, nth_error (prim k) i = Some (p, w) -> nth_error (bunches k) i = Some bs ->
    Permutation (concat bs) (filter (fun ri => rleb (fst ri) (rmax edges)) (map (fun js => (distance box p (fst (snd js)), fst js)) (combine (seq 0 (length (sec k))) (sec k)))).
(* every object is a primary of one rank; a rank has all objects within rmax of its primaries *)
Definition decomposed (edges : list R) (box : option point) (catalog : list (point * R)) (ranks : list rank) : Prop :=
  Permutation (concat (map prim ranks)) catalog /\
  forall k p, In k ranks -> In p (prim k) ->
    Permutation (filter (fun s => rleb (distance box (fst p) (fst s)) (rmax edges)) (sec k)) (filter (fun s => rleb (distance box (fst p) (fst s)) (rmax edges)) catalog).
Definition at3 (t : list (list (list R))) (q a b : nat) : option R :=
  match nth_error t q with Some t => match nth_error t a with Some t => nth_error t b | None => None end | None => None end.
