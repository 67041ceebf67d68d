(* What the density proxy is meant to be, without the sorting, unit box or gathering of the code. *)
From Verif Require Import Base.
From Coq Require Import Reals.
From Verif Require Import RandModel ThreeModel.
Local Open Scope R_scope.
Local Notation length := List.length.

(* m is the distance of x and y in a periodic interval of length L: the least over all images *)
Definition axis_dist (L x y m : R) : Prop :=
  (exists k, m = Rabs (x - y + IZR k * L)) /\ forall k, m <= Rabs (x - y + IZR k * L).
Definition torus (L : R) (p q : point) (d : R) : Prop :=
  let '(x, y, z) := p in let '(u, v, w) := q in
  exists a b c, axis_dist L x u a /\ axis_dist L y v b /\ axis_dist L z w c /\ d = sqrt (a * a + b * b + c * c).
Definition distances (L : R) (pos : nat -> point) (n p : nat) (ds : list R) : Prop :=
  Forall2 (fun q d => torus L (pos p) (pos q) d) (seq 0 n) ds.

(* d is the value at place k (from zero) of the list in increasing order *)
Definition kth (ds : list R) (k : nat) (d : R) : Prop :=
  In d ds /\ (length (filter (fun x => rltb x d) ds) <= k)%nat /\ (k < length (filter (fun x => rleb x d) ds))%nat.

(* ranks hold particles once, and some rank holding p holds all particles within s of p *)
Definition covers (L : R) (pos : nat -> point) (n : nat) (s : R) (ranks : list (list nat)) : Prop :=
  (forall held, In held ranks -> NoDup held /\ forall q, In q held -> (q < n)%nat) /\
  forall p, (p < n)%nat -> exists held, In held ranks /\ In p held /\ forall q d, (q < n)%nat -> torus L (pos p) (pos q) d -> d <= s -> In q held.

(* slabs along the first axis, each held with the particles within s of it *)
Definition slab_holds (L : R) (slab : R * R) (s : R) (p : point) : Prop :=
  exists y k, fst slab <= y <= snd slab /\ Rabs (fst (fst p) - y + IZR k * L) <= s.
Definition slabs (L : R) (pos : nat -> point) (n : nat) (bounds : list (R * R)) (s : R) (ranks : list (list nat)) : Prop :=
  Forall2 (fun slab held => NoDup held /\ forall q, In q held <-> (q < n)%nat /\ slab_holds L slab s (pos q)) bounds ranks.
