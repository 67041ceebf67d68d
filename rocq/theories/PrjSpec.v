(* What the projected power is meant to be: the power of the field averaged along the other axes, that is, of the modes whose
   wave vectors have no component along them. *)
From Verif Require Import Base.
From Coq Require Import Reals.
From Verif Require Import RandModel ThreeModel ConvModel MockModel MockSpec DftSpec.
Local Open Scope R_scope.
Local Notation length := List.length.

Definition component (a : nat) (m : mode) : nat := let '(i, j, k) := m in nth a [i; j; k] 0%nat.
Definition extent (a : nat) (L : point) : R := let '(x, y, z) := L in nth a [x; y; z] 0.
(* one or two different axes *)
Definition some_axes (axes : list nat) : Prop := NoDup axes /\ (forall a, In a axes -> (a < 3)%nat) /\ (length axes = 1 \/ length axes = 2)%nat.
(* no component along the other axes *)
Definition flat (axes : list nat) (m : mode) : Prop := forall a, (a < 3)%nat -> ~ In a axes -> component a m = 0%nat.
(* the last axis has an even number of cells, or one *)
Definition even_last (N : mode) (axes : list nat) : Prop := let n := component (last axes 0%nat) N in n = 1%nat \/ Nat.even n = true.
(* the product of the sides along the other axes *)
Definition depth (L : point) (axes : list nat) : R :=
  fold_right (fun a r => if existsb (Nat.eqb a) axes then r else extent a L * r) 1 [0; 1; 2]%nat.
Definition area (L : point) (axes : list nat) : R := fold_right (fun a r => extent a L * r) 1 axes.
(* l lists the flat modes of a shell once each *)
Definition shell (N : mode) (L : point) (axes : list nat) (lo hi : R) (l : list mode) : Prop :=
  NoDup l /\ forall m, In m l <-> is_mode N m /\ flat axes m /\ lo <= size3 (kvec N L m) < hi.
Definition mean_of (f : mode -> R) (l : list mode) : option R := match l with [] => None | _ => Some (rsum (map f l) / INR (length l)) end.
(* the cells with the same indices along the axes *)
Definition column (axes : list nat) (x y : mode) : Prop := forall a, In a axes -> component a x = component a y.
(* average of the field along the other axes, as a field on the mesh *)
Definition along (axes : list nat) (x y : mode) : bool := forallb (fun a => (component a x =? component a y)%nat) axes.
Definition flattened (N : mode) (axes : list nat) (f : mode -> R) (x : mode) : R :=
  let l := filter (along axes x) (cells N) in rsum (map f l) / INR (length l).
(* the width of the bins: by default the fundamental mode of the shortest side of the box *)
Definition width (L : point) (dk : option R) : R := match dk with Some d => d | None => 2 * PI / Rmin (extent 0 L) (Rmin (extent 1 L) (extent 2 L)) end.
(* the wave number up to which the bins go: that of the least number of cells and the longest side *)
Definition nyquist (N : mode) (L : point) (axes : list nat) (K : R) : Prop :=
  exists a b, In a axes /\ In b axes /\ (forall c, In c axes -> (component a N <= component c N)%nat /\ extent c L <= extent b L) /\ K = PI * INR (component a N) / extent b L.
(* the reported power of a bin *)
Definition times_modes (modes : R) (p : option comp) : R := match p with Some z => modes * fst z | None => 0 end.
