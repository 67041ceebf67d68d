From Verif Require Import Base Num FiberModel CgmModel.
From Coq Require Import Sorted Permutation.
Local Open Scope nat_scope.

(* ---- geometry ---- *)
(* e is the separation d up to whole boxes, between -box/2 and box/2 *)
Definition image (box d e : Qc) : Prop := (exists k : Z, e = d + zq k * box)%Qc /\ (- box < e + e)%Qc /\ (e + e <= box)%Qc.
Definition apart (boxsize : option point) (p q d : point) : Prop :=
  match boxsize with
  | None => px d = (px p - px q)%Qc /\ py d = (py p - py q)%Qc /\ pz d = (pz p - pz q)%Qc
  | Some b => image (px b) (px p - px q) (px d) /\ image (py b) (py p - py q) (py d) /\ image (pz b) (pz p - pz q) (pz d)
  end.
Definition scalar (p q : point) : Qc := (px p * px q + py p * py q + pz p * pz q)%Qc.
(* l2 is the square of the part of d along the line of sight: a fixed direction, or
   the direction from the origin to the pair *)
Definition along (los : option point) (p q d : point) (l2 : Qc) : Prop :=
  match los with
  | Some n => l2 = (scalar d n * scalar d n)%Qc
  | None => let c := (px p + px q, py p + py q, pz p + pz q)%Qc in
            scalar c c <> 0%Qc /\ (l2 * scalar c c = scalar d c * scalar d c)%Qc
  end.
Definition in_cylinder (los boxsize : option point) (rperp rpar : Qc) (p q : point) : Prop :=
  exists d l2, apart boxsize p q d /\ along los p q d l2 /\
    (l2 <= rpar * rpar)%Qc /\ (- (rperp * rperp) <= scalar d d - l2)%Qc /\ (scalar d d - l2 <= rperp * rperp)%Qc.
Definition in_box (boxsize : option point) (p : point) : Prop :=
  match boxsize with
  | None => True
  | Some b => ((0 <= px p)%Qc /\ (px p < px b)%Qc) /\ ((0 <= py p)%Qc /\ (py p < py b)%Qc) /\ ((0 <= pz p)%Qc /\ (pz p < pz b)%Qc)
  end.
Definition within (boxsize : option point) (r2 : Qc) (p q : point) : Prop := exists d, apart boxsize p q d /\ (scalar d d <= r2)%Qc.

(* ---- groups ---- *)
Section Groups.
Variables (n : nat) (near : nat -> nat -> Prop) (above : nat -> nat -> Prop) (out : list (Z * Z * Z)).
Definition type_of (a : nat) (t : Z) : Prop := exists h k, nth_error out a = Some (t, h, k).
Definition halo_of (a : nat) (h : Z) : Prop := exists t k, nth_error out a = Some (t, h, k).
Definition sats_of (a : nat) (k : Z) : Prop := exists t h, nth_error out a = Some (t, h, k).
Definition how_many (Q : nat -> Prop) (k : Z) : Prop := exists l, NoDup l /\ (forall b, In b l <-> Q b) /\ k = zlen l.
Record cylinder_groups : Prop := {
  cg_length : length out = n;
  cg_type : forall a t, type_of a t -> t = 0%Z \/ t = 1%Z;
  (* an object is a central iff it is in the cylinder of no central ranked above it *)
  cg_central : forall a, a < n -> type_of a 0 <-> forall b, b < n -> above b a -> near a b -> ~ type_of b 0;
  (* centrals are numbered from the one ranked first *)
  cg_number : forall a h, type_of a 0 -> halo_of a h -> how_many (fun b => type_of b 0 /\ above b a) h;
  (* a satellite belongs to the central ranked first among those it is near to *)
  cg_satellite : forall a h, type_of a 1 -> halo_of a h -> exists b, type_of b 0 /\ above b a /\ near a b /\ halo_of b h /\
    forall b', type_of b' 0 -> near a b' -> b' = b \/ above b b';
  cg_count : forall a h k, type_of a 0 -> halo_of a h -> sats_of a k -> how_many (fun b => type_of b 1 /\ halo_of b h) k;
  cg_none : forall a k, type_of a 1 -> sats_of a k -> k = 0%Z
}.
End Groups.
(* order: the objects from the one ranked last to the one ranked first *)
Definition ranked_above (order : list nat) (b a : nat) : Prop := exists s t, s < t /\ nth_error order s = Some a /\ nth_error order t = Some b.

(* ---- what is assumed of pmesh, kdcount and pandas ---- *)
Definition by_desc_contract (by_desc : (row -> nat) -> list row -> list row) : Prop :=
  forall key l, Permutation (by_desc key l) l /\ StronglySorted (fun a b => key b <= key a) (by_desc key l).
(* close: within the largest distance in a cylinder *)
Record exchange_ok (n : nat) (close : nat -> nat -> Prop) (prims ghosts : list (list nat)) (batches : list (list (list (nat * nat)))) : Prop := {
  ex_ranks : length ghosts = length prims /\ length batches = length prims;
  ex_once : Permutation (concat prims) (seq 0 n);
  ex_ghosts : forall g, In g ghosts -> NoDup g /\ forall j, In j g -> j < n;
  ex_covers : forall r p g i j, nth_error prims r = Some p -> nth_error ghosts r = Some g -> In i p -> j < n -> close i j -> In j g;
  ex_pairs : forall r p g bs, nth_error prims r = Some p -> nth_error ghosts r = Some g -> nth_error batches r = Some bs ->
    bs <> [] /\ NoDup (concat bs) /\
    forall a b, In (a, b) (concat bs) <-> a < length p /\ b < length g /\ close (nth a p 0) (nth b g 0)
}.
