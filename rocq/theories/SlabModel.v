(* Model of nbodykit/meshtools.py: MeshSlab (3-212) and SlabIterator (214-255).

   An array of numpy is its shape and its values by index.  Numbers are reals. *)
From Coq Require Import Reals List Bool.
From Verif Require Import Base.
Import ListNotations.
Local Open Scope nat_scope.

Record nd (V : Type) := { shape : list nat; val : list nat -> V }.
Arguments shape {V}. Arguments val {V}.
Definition remove_nth {A} (i : nat) (l : list A) : list A := (firstn i l ++ skipn (S i) l)%list.
Definition insert_nth {A} (i : nat) (x : A) (l : list A) : list A := (firstn i l ++ x :: skipn i l)%list.
(* numpy.take(a, i, axis) *)
Definition take {V} (a : nd V) (i axis : nat) : res (nd V) :=
  match nth_error (shape a) axis with
  | None => Err ValueError
  | Some n => if i <? n then Ok {| shape := remove_nth axis (shape a); val := fun idx => val a (insert_nth axis i idx) |} else Err IndexError
  end.
(* broadcasting of arrays of the same number of dimensions: a dimension of one is repeated *)
Definition bdim (a b : nat) : res nat := if a =? b then Ok a else if a =? 1 then Ok b else if b =? 1 then Ok a else Err ValueError.
Fixpoint bshape (s t : list nat) : res (list nat) :=
  match s, t with
  | [], [] => Ok []
  | a :: s, b :: t => let! d := bdim a b in let! r := bshape s t in Ok (d :: r)
  | _, _ => Err ValueError
  end.
Fixpoint clip (s idx : list nat) : list nat := match s, idx with n :: s, i :: idx => (if n =? 1 then 0 else i) :: clip s idx | _, _ => [] end.
Definition lift2 {V W} (op : V -> V -> W) (a b : nd V) : res (nd W) :=
  let! s := bshape (shape a) (shape b) in Ok {| shape := s; val := fun idx => op (val a (clip (shape a) idx)) (val b (clip (shape b) idx)) |}.
Definition lift1 {V W} (op : V -> W) (a : nd V) : nd W := {| shape := shape a; val := fun idx => op (val a idx) |}.
(* sum(generator): 0 + a + b + ...; the first addition is that of a number *)
Fixpoint sum_from (a : nd R) (l : list (nd R)) : res (nd R) := match l with [] => Ok a | b :: l => let! c := lift2 Rplus a b in sum_from c l end.
Definition py_sum (l : list (nd R)) : res (nd R) := match l with [] => Err TypeError | a :: l => sum_from (lift1 (Rplus 0) a) l end.

Record slab := { s_index : nat; s_coords : list (nd R); s_axis : nat; s_sym : option Z }.
(* __init__, 23-31 *)
Definition mesh_slab (islab : nat) (coords : list (nd R)) (axis : nat) (sym : option Z) : res slab :=
  match sym with
  | Some z => if (z <? 0)%Z then Err ValueError else Ok {| s_index := islab; s_coords := coords; s_axis := axis; s_sym := sym |}
  | None => Ok {| s_index := islab; s_coords := coords; s_axis := axis; s_sym := sym |}
  end.
Definition ndim (s : slab) : nat := length (s_coords s).
(* index, 41-48: what the index selects from an array of the mesh *)
Definition at_index {V} (s : slab) (a : nd V) : res (nd V) := take a (s_index s) (s_axis s).
(* meshshape 50-56 and shape 58-63 *)
Definition meshshape (s : slab) : list nat := map (fun i => match nth_error (s_coords s) i with Some c => nth i (shape c) 0 | None => 0 end) (seq 0 (ndim s)).
Definition slab_shape (s : slab) : list nat := remove_nth (s_axis s) (meshshape s).
(* coords, 72-104 *)
Definition coords (s : slab) (i : Z) : res (nd R) :=
  let i := if (i <? 0)%Z then (i + Z.of_nat (ndim s))%Z else i in
  if (i <? 0)%Z || (Z.of_nat (ndim s) <=? i)%Z then Err AssertionError else
  match nth_error (s_coords s) (Z.to_nat i) with
  | None => Err IndexError
  | Some c => if negb (Z.to_nat i =? s_axis s) then take c 0 (s_axis s) else take c (s_index s) (s_axis s)
  end.
Definition all_coords (s : slab) : res (list (nd R)) := rall (map (fun i => coords s (Z.of_nat i)) (seq 0 (ndim s))).
(* norm2, 106-119 *)
Definition norm2 (s : slab) : res (nd R) := let! cs := all_coords s in py_sum (map (lift1 (fun x => (x ^ 2)%R)) cs).
Definition reqb (x y : R) : bool := if Req_EM_T x y then true else false.
Definition rltb (x y : R) : bool := if Rlt_dec x y then true else false.
(* mu, 121-145; los[i]: IndexError when it is too short *)
Definition mu (s : slab) (los : list R) : res (nd R) :=
  let! n2 := norm2 s in
  let norm := lift1 sqrt n2 in
  let! cs := all_coords s in
  let! terms := rall (map (fun ic => match nth_error los (fst ic) with Some l => Ok (lift1 (fun x => (x * l)%R) (snd ic)) | None => Err IndexError end) (combine (seq 0 (length cs)) cs)) in
  let! dot := py_sum terms in
  let! result := lift2 Rdiv dot norm in
  lift2 (fun r n => if reqb n 0 then 0%R else r) result norm.
(* float(a): of one element *)
Definition to_float (a : nd R) : res R := if fold_right Nat.mul 1 (shape a) =? 1 then Ok (val a (repeat 0 (length (shape a)))) else Err TypeError.
(* idx[...] = b *)
Definition assign_all {V} (s : list nat) (b : nd V) : res (nd V) :=
  let! t := bshape s (shape b) in if list_eq_dec Nat.eq_dec t s then Ok {| shape := s; val := fun idx => val b (clip (shape b) idx) |} else Err ValueError.
Definition full {V} (s : list nat) (v : V) : nd V := {| shape := s; val := fun _ => v |}.
(* nonsingular, 147-187; symmetry_axis is not None *)
Definition nonsingular (s : slab) (sym : Z) : res (nd bool) :=
  if (sym =? Z.of_nat (s_axis s))%Z then
    let! c := coords s (Z.of_nat (s_axis s)) in let! x := to_float c in
    Ok (full (slab_shape s) (rltb 0 x))
  else
    match nth_error (s_coords s) (Z.to_nat sym) with
    | None => Err IndexError
    | Some c => let! b := take (lift1 (rltb 0) c) 0 (s_axis s) in assign_all (slab_shape s) b
    end.
(* hermitian_weights, 189-212: a number or an array *)
Definition hermitian_weights (s : slab) : res (R + nd R) :=
  match s_sym s with
  | None => Ok (inl 1%R)
  | Some sym =>
    if (Z.of_nat (s_axis s) =? sym)%Z then
      let! c := coords s sym in let! x := to_float c in Ok (inl (if rltb 0 x then 2%R else 1%R))
    else let! ns := nonsingular s sym in Ok (inr (lift1 (fun b : bool => if b then 2%R else 1%R) ns))
  end.

(* SlabIterator, 231-255 *)
Definition axis_shape (ndim i n : nat) : list nat := map (fun j => if j =? i then n else 1) (seq 0 ndim).
Definition slab_iterator (coords : list (nd R)) (axis : Z) (sym : option Z) : res (list slab) :=
  let ndim := length coords in
  if negb ((ndim =? 2) || (ndim =? 3)) then Err RuntimeError else                    (* NotImplementedError *)
  let axis := if (axis <? 0)%Z then (axis + Z.of_nat ndim)%Z else axis in
  if (axis <? 0)%Z || (Z.of_nat ndim <=? axis)%Z then Err AssertionError else
  let sym := match sym with Some z => Some (if (z <? 0)%Z then (z + Z.of_nat ndim)%Z else z) | None => None end in
  let a := Z.to_nat axis in
  if negb (forallb (fun ic => if list_eq_dec Nat.eq_dec (shape (snd ic)) (axis_shape ndim (fst ic) (nth (fst ic) (shape (snd ic)) 0)) then true else false) (combine (seq 0 ndim) coords)) then Err ValueError else
  let n := match nth_error coords a with Some c => nth a (shape c) 0 | None => 0 end in
  rall (map (fun i => mesh_slab i coords a sym) (seq 0 n)).
