(* Modes of a box, shells and means, without reference to how they are stored. *)
From Verif Require Import Base Num FiberModel PowModel.
From Coq Require Import Sorted Permutation.
Local Open Scope nat_scope.

Section Box.
Variables n0 n1 n2 : nat.            (* Nmesh *)
Variables u0 u1 u2 : Qc.             (* 2 pi / BoxSize, or the cell size *)
Definition is_mode (m : cell3) : Prop := let '(i, j, l) := m in i < n0 /\ j < n1 /\ l < n2.
(* the frequency of an index, between -n/2 and n/2 - 1 *)
Definition freq (n i : nat) : Z := if 2 * i <? n then Z.of_nat i else (Z.of_nat i - Z.of_nat n)%Z.
Definition axis_coord (u : Qc) (n i : nat) : Qc := (u * zq (freq n i))%Qc.
Definition k2 (m : cell3) : Qc :=
  let '(i, j, l) := m in
  (axis_coord u0 n0 i * axis_coord u0 n0 i + axis_coord u1 n1 j * axis_coord u1 n1 j + axis_coord u2 n2 l * axis_coord u2 n2 l)%Qc.
Definition along (los : vec) (m : cell3) : Qc :=
  let '(i, j, l) := m in (axis_coord u0 n0 i * v0 los + axis_coord u1 n1 j * v1 los + axis_coord u2 n2 l * v2 los)%Qc.
Definition mu_of (root : Qc -> Qc) (los : vec) (m : cell3) : Qc :=
  if Qc_eq_dec (root (k2 m)) 0 then 0%Qc else (along los m / root (k2 m))%Qc.
(* the mode with the opposite wavevector *)
Definition neg (n i : nat) : nat := if i =? 0 then 0 else n - i.
Definition opposite (m : cell3) : cell3 := let '(i, j, l) := m in (neg n0 i, neg n1 j, neg n2 l).
Definition hermitian (F : cell3 -> cplx) : Prop := forall m, is_mode m -> F (opposite m) = conj (F m).
(* a compressed field stores the modes with last index up to n2/2 *)
Definition is_stored (m : cell3) : bool := let '(_, _, l) := m in l <=? n2 / 2.
Definition rep (m : cell3) : cell3 := if is_stored m then m else opposite m.
Definition shell (lo hi : Qc) (m : cell3) : Prop := is_mode m /\ (lo * lo <= k2 m)%Qc /\ (k2 m < hi * hi)%Qc.
(* how the blocks of the ranks make up the mesh *)
Definition cells3 (l0 l1 l2 : list nat) : list cell3 := list_prod (list_prod l0 l1) l2.
Definition blocks_hold (blocks : list block) (len2 : nat) : Prop :=
  Permutation (concat (map (fun b => cells3 (b0 b) (b1 b) (b2 b)) blocks)) (cells3 (seq 0 n0) (seq 0 n1) (seq 0 len2)).
Definition on_nyquist (m : cell3) : Prop := let '(i, j, l) := m in 2 * i = n0 \/ 2 * j = n1 \/ 2 * l = n2.
End Box.

Definition increasing (l : list Qc) : Prop := StronglySorted Qclt l.
(* the last bin includes its upper edge (and anything above) *)
Definition in_mubin (edges : list Qc) (im : nat) (x : Qc) : Prop :=
  exists a b, nth_error edges im = Some a /\ nth_error edges (S im) = Some b /\ (a <= x)%Qc /\ ((x < b)%Qc \/ S (S im) = length edges).
Definition mean (l : list Qc) : option Qc := match l with [] => None | _ => Some (qsum l / nq (length l))%Qc end.
Definition cmean (l : list cplx) : option cplx :=
  match l with [] => None | _ => Some (qsum (map fst l) / nq (length l), qsum (map snd l) / nq (length l))%Qc end.
Definition times (a : Qc) (z : cplx) : cplx := (a * fst z, a * snd z)%Qc.
Definition at2 {A} (t : list (list A)) (i j : nat) : option A := match nth_error t i with Some r => nth_error r j | None => None end.
(* the elements with a property, each once *)
Definition listing (Q : cell3 -> Prop) (L : list cell3) : Prop := NoDup L /\ forall m, In m L <-> Q m.

(* the power spectrum, without the zero mode *)
Definition spectrum (volume : Qc) (f g : cell3 -> cplx) (m : cell3) : cplx :=
  match m with (0, 0, 0) => (0, 0)%Qc | _ => times volume (cmul (f m) (conj (g m))) end.
(* no index at the Nyquist frequency on an axis the line of sight points along *)
Definition clear_of_nyquist (n0 n1 n2 : nat) (los : vec) (m : cell3) : Prop :=
  let '(i, j, l) := m in (v0 los = 0%Qc \/ 2 * i <> n0) /\ (v1 los = 0%Qc \/ 2 * j <> n1) /\ (v2 los = 0%Qc \/ 2 * l <> n2).
Definition along_axis (los : vec) : Prop :=
  v1 los = 0%Qc /\ v2 los = 0%Qc \/ v0 los = 0%Qc /\ v2 los = 0%Qc \/ v0 los = 0%Qc /\ v1 los = 0%Qc.
Definition length2 (los : vec) : Qc := (v0 los * v0 los + v1 los * v1 los + v2 los * v2 los)%Qc.

(* the projected mesh *)
Definition is_mode2 (n0 n1 : nat) (m : nat * nat) : Prop := fst m < n0 /\ snd m < n1.
Definition kmag2 (root : Qc -> Qc) (n0 n1 : nat) (u0 u1 : Qc) (m : nat * nat) : Qc :=
  root (axis_coord u0 n0 (fst m) * axis_coord u0 n0 (fst m) + axis_coord u1 n1 (snd m) * axis_coord u1 n1 (snd m))%Qc.
Definition hermitian2 (n0 n1 : nat) (F : nat * nat -> cplx) : Prop := forall m, is_mode2 n0 n1 m -> F (neg n0 (fst m), neg n1 (snd m)) = conj (F m).
