(* Model of count (702-727) and centerofmass (647-700) of nbodykit/algorithms/fof.py and of
   the columns of fof_catalog (427-533) built from them, for one axis of the positions.
   Exact rationals stand for floats, None for inf in posmin and for nan in the results. *)
From Verif Require Import Base Num DaModel FofModel.
From Coq Require Import Qround.
Local Open Scope Z_scope.

(* comm.Allreduce(MPI.IN_PLACE, x, op) of one array per rank *)
Definition allreduce {V} (op : V -> V -> V) (ls : list (list V)) : list V :=
  match ls with [] => [] | l :: ls => fold_left (zipr op) ls l end.
(* numpy.bincount(label, minlength=n) *)
Definition bincount_min (l : list Z) (n : nat) : res (list Z) :=
  let! c := np_bincount 0 Z.add l (map (fun _ => 1) l) in
  Ok (c ++ repeat 0 (n - length c)).
(* Nhalo0, 674 and 722 *)
Definition nhalo0 (labels : list (list Z)) : res nat :=
  let! maxs := rall (map np_max labels) in Ok (Z.to_nat (zmax maxs + 1)).
(* count, 722-727 *)
Definition fof_count (labels : list (list Z)) : res (list Z) :=
  let! n0 := nhalo0 labels in
  let! n := rall (map (fun l => bincount_min l n0) labels) in
  Ok (allreduce Z.add n).

(* numpy.fmin, with inf *)
Definition omin (a b : option Qc) : option Qc :=
  match a, b with
  | None, x => x
  | x, None => x
  | Some x, Some y => Some (if Qclt_le_dec y x then y else x)
  end.
Definition half : Qc := Q2Qc (1 # 2).
(* 685-687 *)
Definition wrap (L d : Qc) : Qc :=
  let bhalf := (L * half)%Qc in
  let d := if Qclt_le_dec d (- bhalf)%Qc then (d + L)%Qc else d in
  if Qclt_le_dec d bhalf then d else (d - L)%Qc.
Definition qfloor (x : Qc) : Z := Qfloor (this x).
(* x % L *)
Definition qmod (x L : Qc) : Qc := (x - L * zq (qfloor (x / L)))%Qc.

Section Cm.
Variable argsort : list Z -> list nat.
Definition posmins (n0 : nat) (labels : list (list Z)) (pos : list (list Qc)) : res (list (option Qc)) :=
  let! pm := rall (zipr (fun l p => equiv_class omin argsort l (map Some p) true (Some None) (Some n0)) labels pos) in
  Ok (allreduce omin pm).
Definition dpos_rank (L : Qc) (pm : list (option Qc)) (l : list Z) (p : list Qc) : res (list Qc) :=
  rall (zipr (fun x v => match znth pm x with Some (Some m) => Ok (wrap L (v - m)%Qc) | _ => Err OutOfContract end) l p).
Definition label_sums (n0 : nat) (labels : list (list Z)) (d : list (list Qc)) : res (list Qc) :=
  let! s := rall (zipr (fun l v => equiv_class Qcplus argsort l v true (Some 0%Qc) (Some n0)) labels d) in
  Ok (allreduce Qcplus s).
Definition over_count (s : Qc) (n : Z) : option Qc := if n =? 0 then None else Some (s / zq n)%Qc.
Definition centerofmass (labels : list (list Z)) (pos : list (list Qc)) (boxsize : option Qc) : res (list (option Qc)) :=
  let! n0 := nhalo0 labels in                                                          (* 674 *)
  let! n := rall (map (fun l => bincount_min l n0) labels) in
  let n := allreduce Z.add n in                                                        (* 676-677 *)
  match boxsize with
  | Some L =>
      let! pm := posmins n0 labels pos in                                              (* 680-682 *)
      let! d := rall (zipr (dpos_rank L pm) labels pos) in                             (* 683-687 *)
      let! s := label_sums n0 labels d in                                              (* 690-692 *)
      Ok (zipr (fun m c => match m, c with Some m, Some c => Some (qmod (m + c)%Qc L) | _, _ => None end) pm (zipr over_count s n))   (* 693-697 *)
  | None =>
      let! s := label_sums n0 labels pos in
      Ok (zipr over_count s n)
  end.
(* the label of the particles at the peak, 506-510; the others get 0 *)
Definition omax (a b : option Qc) : option Qc :=
  match a, b with
  | None, x => x
  | x, None => x
  | Some x, Some y => Some (if Qclt_le_dec x y then y else x)
  end.
Definition peak_labels (labels : list (list Z)) (density : list (list Qc)) : res (list (list Z)) :=
  let! n := fof_count labels in
  let! dm := rall (zipr (fun l p => equiv_class omax argsort l (map Some p) true (Some None) (Some (length n))) labels density) in
  let dm := allreduce omax dm in
  rall (zipr (fun l p => rall (zipr (fun x v => match znth dm x with
     | Some (Some m) => Ok (if Qclt_le_dec v m then 0 else x) | _ => Err OutOfContract end) l p)) labels density).
(* Length, 479 and 522-523 *)
Definition fof_length (labels : list (list Z)) : res (list Z) :=
  let! n := fof_count labels in Ok (match n with [] => [] | _ :: n => 0 :: n end).
End Cm.

(* FOF.max_label, 105: on every rank the list of the local maxima *)
Definition fof_max_label (labels : list (list Z)) : res (list Z) := rall (map np_max labels).
