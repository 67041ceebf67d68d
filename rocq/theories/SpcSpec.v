(* Specification of pair counts on the sky, independent of the model's helpers. *)
From Verif Require Import Base.
From Coq Require Import Reals.
From Verif Require Import SkySpec.
Local Open Scope R_scope.
Local Notation length := List.length.
Local Notation vec := (R * R * R)%type.

(* where an object at (ra, dec, distance) is *)
Definition place (p : vec) : vec := let '(ra, dec, d) := p in toward (0, 0, 0) d ra dec.
Definition scalar (u v : vec) : R := let '(a, b, c) := u in let '(x, y, z) := v in a * x + b * y + c * z.
Definition plus (u v : vec) : vec := let '(a, b, c) := u in let '(x, y, z) := v in (a + x, b + y, c + z).
Definition less (u v : vec) : vec := let '(a, b, c) := u in let '(x, y, z) := v in (a - x, b - y, c - z).
Definition inside (lo hi p : vec) : Prop :=
  let '(a, b, c) := lo in let '(u, v, w) := hi in let '(x, y, z) := p in (a < x < u) /\ (b < y < v) /\ (c < z < w).

(* The domain decomposition: every point of the box has a home rank.  Decomposed with smoothing s, rank r gets, once each, objects
   among which are all those within s of a point at home on r; with smoothing 0 it gets just the objects at home on r. *)
Definition grid_ok (nranks : nat) (domain : vec -> vec -> list vec -> list vec -> R -> list (list nat)) : Prop :=
  forall lo hi load, (exists p, inside lo hi p) -> exists home : vec -> nat,
    (forall p, inside lo hi p -> (home p < nranks)%nat) /\
    forall l s, (forall p, In p l -> inside lo hi p) -> 0 <= s ->
      length (domain lo hi load l s) = nranks /\
      forall r ids, nth_error (domain lo hi load l s) r = Some ids ->
        NoDup ids /\ (forall i, In i ids -> (i < length l)%nat) /\
        (forall i q, nth_error l i = Some q -> s = 0 -> (In i ids <-> home q = r)) /\
        (forall i q p, nth_error l i = Some q -> inside lo hi p -> home p = r -> separation p q <= s -> In i ids).

(* Two objects in reach of the bins: a separation, or a separation across and along the line of sight to the middle of the pair,
   or the angle, at most one of the edges (and pimax) *)
Definition distance_within (edges : list R) (p q : vec) : Prop := exists e, In e edges /\ separation (place p) (place q) <= e.
Definition projected_within (edges : list R) (pimax : R) (p q : vec) : Prop :=
  let s := less (place p) (place q) in let l := plus (place p) (place q) in
  exists rp pi e, 0 <= rp /\ pi * sqrt (scalar l l) = scalar s l /\ scalar s s = rp * rp + pi * pi /\ In e edges /\ rp <= e /\ Rabs pi <= pimax.
Definition angle_within (edges : list R) (c : R) : Prop := exists theta e, 0 <= theta <= e /\ In e edges /\ cos (theta * degree) = c.

(* the sum over all pairs in bin b *)
Definition total {A} (bin : A -> A -> option nat) (f : (A * R) -> (A * R) -> R) (b : nat) (a c : list (A * R)) : R :=
  fold_right Rplus 0 (map (fun pq => match bin (fst (fst pq)) (fst (snd pq)) with Some k => if Nat.eqb k b then f (fst pq) (snd pq) else 0 | None => 0 end) (list_prod a c)).
Definition totals {A} (bin : A -> A -> option nat) (sep : A -> A -> R) (b : nat) (a c : list (A * R)) : R * R * R :=
  (total bin (fun _ _ => 1) b a c, total bin (fun p q => sep (fst p) (fst q)) b a c, total bin (fun p q => snd p * snd q) b a c).

(* objects not all in one plane x = const, y = const or z = const *)
Definition spread_out (l : list vec) : Prop :=
  (exists p q, In p l /\ In q l /\ fst (fst p) < fst (fst q)) /\
  (exists p q, In p l /\ In q l /\ snd (fst p) < snd (fst q)) /\
  (exists p q, In p l /\ In q l /\ snd p < snd q).

(* the objects of a survey catalog with distances in place of redshifts *)
Definition at_distance (D : R -> R) (c : list vec * list R) : list (vec * R) := combine (map (fun p => let '(ra, dec, z) := p in (ra, dec, D z)) (fst c)) (snd c).
Definition regular (D : R -> R) (c : list vec * list R) : Prop :=
  length (fst c) = length (snd c) /\ spread_out (map (fun o => place (fst o)) (at_distance D c)).

(* box: the centre from which angles are measured *)
Definition centre_of (L : vec) (pos : list vec) (o : vec) : Prop :=
  (Forall (inside (0, 0, 0) L) pos /\ o = (let '(a, b, c) := L in (a / 2, b / 2, c / 2))) \/
  (Forall (inside (let '(a, b, c) := L in (- a / 2, - b / 2, - c / 2)) (let '(a, b, c) := L in (a / 2, b / 2, c / 2))) pos /\
   (exists p, In p pos /\ (let '(x, y, z) := p in x <= 0 \/ y <= 0 \/ z <= 0)) /\ o = (0, 0, 0)).
Definition direction (o p : vec) : vec := let '(a, b, c) := less p o in let r := separation p o in (a / r, b / r, c / r).
Definition seen_from (o : vec) (c : list vec * list R) : list (vec * R) := combine (map (direction o) (fst c)) (snd c).
Definition around (o : vec) (c : list vec * list R) : Prop :=
  length (fst c) = length (snd c) /\ (forall p, In p (fst c) -> p <> o) /\ spread_out (map (direction o) (fst c)).
