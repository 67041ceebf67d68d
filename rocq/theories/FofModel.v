(* Model of nbodykit/algorithms/fof.py: _assign_labels (197-287), _fof_local (289-309),
   _fof_merge (311-337), equiv_class (538-607), replacesorted (609-644), count (702-727),
   centerofmass (647-700) and the use of the first three in FOF.run (80-105) and fof
   (339-413).  The lists below hold one entry per rank.  The sort of mpsort, numpy's
   argsort, the domain decomposition of pmesh and the local friends-of-friends of kdcount
   are arguments. *)
From Verif Require Import Base DaModel.
Local Open Scope Z_scope.

Definition zipr {A B C} (f : A -> B -> C) (l : list A) (m : list B) : list C := map (fun p => f (fst p) (snd p)) (combine l m).

(* l[m] = 0 *)
Definition clear (l : list Z) (m : list bool) : res (list Z) :=
  if Nat.eqb (length l) (length m) then Ok (zipr (fun x b => if b : bool then 0 else x) l m) else Err IndexError.
(* numpy.repeat(b, n) *)
Definition np_repeat {A} (b : list A) (n : list Z) : res (list A) :=
  if Nat.eqb (length b) (length n) then Ok (concat (zipr (fun x k => repeat x (Z.to_nat k)) b n)) else Err ValueError.
(* l.max() *)
Definition np_max (l : list Z) : res Z :=
  match l with [] => Err ValueError | x :: l => Ok (fold_right Z.max x l) end.
(* p[idx] = vals, one after the other *)
Fixpoint set_nth {A} (i : nat) (x : A) (l : list A) : list A :=
  match l, i with [], _ => [] | _ :: l, O => x :: l | y :: l, S i => y :: set_nth i x l end.
Fixpoint put {A} (p : list A) (idx : list nat) (vals : list A) : list A :=
  match idx, vals with i :: idx, v :: vals => put (set_nth i v p) idx vals | _, _ => p end.

Section Labels.
Variable mpsort : (Z * Z -> Z) -> list (list (Z * Z)) -> list (list (Z * Z)).
Variable argsort : list Z -> list nat.

(* the rows (origind, fofid), 223-233 *)
Definition fof_rows (minid : list (list Z)) : list (list (Z * Z)) :=
  map (fun r => let l := nth r minid [] in
                combine (map (fun i => Z.of_nat i + zsum (map zlen (firstn r minid))) (seq 0 (length l))) l)
      (seq 0 (length minid)).
Definition ones (parts : list (list Z)) : list (list Z) := map (map (fun _ => 1)) parts.
Definition set_fofid (rows : list (Z * Z)) (l : list Z) : list (Z * Z) := zipr (fun r x => (fst r, x)) rows l.

Definition assign_labels (thresh : Z) (minid : list (list Z)) : res (list (list Z)) :=
  let! data := da_init (fof_rows minid) in                                            (* 235 *)
  let data := mpsort snd data in                                                      (* 238 *)
  let! label := unique_labels (map (map snd) data) in                                 (* 239 *)
  let! n := bincount 0 Z.add true label (ones label) in                               (* 241 *)
  let small := map (map (fun c => c <=? thresh)) n in                                 (* 244 *)
  let! nlocal := bincount_local 0 Z.add label (ones label) in                         (* 246 *)
  let! mask := rall (zipr np_repeat small nlocal) in                                  (* 248 *)
  let! label := rall (zipr (fun l m => clear (map (fun x => x + 1) l) m) label mask) in   (* 251-252 *)
  let data := zipr set_fofid data label in                                            (* 254 *)
  let data := mpsort snd data in                                                      (* 257 *)
  let! label := unique_labels (map (map snd) data) in                                 (* 259 *)
  let data := zipr set_fofid data label in
  let anysmall := existsb (fun x : bool => x) (concat small) in                       (* 264 *)
  let data := if anysmall then data else map (map (fun r => (fst r, snd r + 1))) data in   (* 265 *)
  let data := mpsort fst data in                                                      (* 267 *)
  let label := map (map snd) data in
  let! maxs := rall (map np_max label) in                                             (* 273 *)
  let nhalo0 := Z.to_nat (zmax maxs + 1) in
  let n := map (fun b => zsum (map (fun l => zlen (filter (fun x => x =? Z.of_nat b) l)) label)) (seq 0 nhalo0) in   (* 274-275 *)
  let arg := map S (rev (argsort (tl n))) in                                          (* 278 *)
  let p := put (map Z.of_nat (seq 0 nhalo0)) arg (map (fun i => Z.of_nat i + 1) (seq 0 (length arg))) in   (* 283-284 *)
  Ok (map (map (fun x => nth (Z.to_nat x) p 0)) label).                               (* 285; p holds i4 numbers, which suffice *)
End Labels.

(* ---- values of equivalence classes ---- *)
Section Equiv.
Context {V : Type}.
Variable op : V -> V -> V.
Variable argsort : list Z -> list nat.

Definition take_rows {A} (l : list A) (idx : list nat) : list A := flat_map (fun i => match nth_error l i with Some x => [x] | None => [] end) idx.
Definition fold1 (l : list V) : option V := match l with [] => None | x :: l => Some (fold_left op l x) end.
(* op.reduceat(vals, offsets): the segment up to the next offset, or the single value at
   the offset when the next offset is not larger; an offset out of range is an IndexError *)
Fixpoint reduceat (vals : list V) (offsets : list nat) : res (list V) :=
  match offsets with
  | [] => Ok []
  | o :: rest =>
      let stop := match rest with [] => length vals | o' :: _ => o' end in
      let seg := if Nat.ltb o stop then firstn (stop - o) (skipn o vals) else firstn 1 (skipn o vals) in
      match fold1 seg with
      | None => Err IndexError
      | Some v => let! r := reduceat vals rest in Ok (v :: r)
      end
  end.
(* 583-607; identity None stands for a ufunc without identity: the assignment is refused *)
Definition equiv_class (labels : list Z) (values : list V) (dense_labels : bool) (identity : option V) (minlength : option nat) : res (list V) :=
  let labels := if dense_labels then labels else unique_inverse labels in
  let! n := np_bincount 0 Z.add labels (map (fun _ => 1) labels) in
  let offsets := map Z.to_nat (firstn (length n) (0 :: cumsum n)) in
  let! red := reduceat (take_rows values (argsort labels)) offsets in
  let minlength := match minlength with Some m => m | None => length n end in
  if Nat.ltb minlength (length n) then Err ValueError else
  let! head := rall (zipr (fun v c => if c =? 0 then match identity with Some i => Ok i | None => Err TypeError end else Ok v) red n) in
  let! tail := rall (map (fun _ => match identity with Some i => Ok i | None => Err TypeError end) (seq (length n) (minlength - length n))) in
  Ok (head ++ tail).
End Equiv.

(* ---- merging ---- *)
(* a layout: for every rank the global indices of the particles it receives, in order.
   layout.exchange(x) of a distributed array, given as one global list *)
Definition exchange {A} (layout : list (list nat)) (x : list A) : res (list (list A)) :=
  rall (map (fun l => rall (map (fun p => match nth_error x p with Some v => Ok v | None => Err OutOfContract end) l)) layout).
(* layout.gather(x, mode=fmin): the minimum over the copies of each of n particles *)
Definition copies (layout : list (list nat)) (x : list (list Z)) (p : nat) : list Z :=
  concat (zipr (fun l m => map snd (filter (fun pv => Nat.eqb p (fst pv)) (combine l m))) layout x).
Definition zmin1 (l : list Z) : option Z := match l with [] => None | x :: l => Some (fold_left Z.min l x) end.
Definition gather_min (layout : list (list nat)) (n : nat) (x : list (list Z)) : res (list Z) :=
  rall (map (fun p => match zmin1 (copies layout x p) with Some v => Ok v | None => Err OutOfContract end) (seq 0 n)).

Section Merge.
Variable argsort : list Z -> list nat.
(* _fof_local, 289-309: labels are those of kdcount on the particles of each rank *)
Definition fof_local (layout : list (list nat)) (labels : list (list Z)) (n : nat) : res (list (list Z)) :=
  let! pid := exchange layout (map Z.of_nat (seq 0 n)) in                             (* 302-305 *)
  rall (zipr (fun l p => let! e := equiv_class Z.min argsort l p false None None in   (* 307 *)
                         rall (map (fun x => match znth e x with Some v => Ok v | None => Err IndexError end) l)) labels pid).

(* replacesorted, 633-644 *)
Definition replace_sorted (arr sorted b : list Z) : list Z :=
  match sorted with
  | [] => arr
  | _ => map (fun x => let ind := Nat.min (searchsorted sorted x) (length sorted - 1) in
                       if nth ind sorted 0 =? x then nth ind b 0 else x) arr
  end.
(* one rank of the loop body, 320-334 *)
Definition merge_rank (m m' : list Z) : list Z :=
  let merged := filter (fun p => negb (fst p =? snd p)) (combine m m') in
  let old := map fst merged in let new := map snd merged in
  let arg := argsort old in
  replace_sorted m (take_rows old arg) (take_rows new arg).
Definition n_merged (m m' : list (list Z)) : nat :=
  length (concat (zipr (fun a b => filter (fun p => negb (fst p =? snd p)) (combine a b)) m m')).

(* _fof_merge, 311-337; fuel bounds the number of passes *)
Fixpoint fof_merge (fuel : nat) (layout : list (list nat)) (n : nat) (m : list (list Z)) : res (list Z) :=
  match fuel with
  | O => Err OutOfFuel
  | S fuel =>
      let! g := gather_min layout n m in
      let! m' := exchange layout g in
      if Nat.eqb (n_merged m m') 0 then gather_min layout n m
      else fof_merge fuel layout n (zipr merge_rank m m')
  end.
End Merge.

(* FOF.run (97-104): the particles of the source, sizes.(r) of them on rank r *)
Fixpoint cut {A} (sizes : list nat) (l : list A) : list (list A) :=
  match sizes with [] => [] | k :: s => firstn k l :: cut s (skipn k l) end.
Definition fof_run mpsort argsort fuel (nmin : Z) (sizes : list nat) (layout : list (list nat)) (local_labels : list (list Z)) : res (list (list Z)) :=
  let n := nsum sizes in
  let! m := fof_local argsort layout local_labels n in
  let! ids := fof_merge argsort fuel layout n m in
  assign_labels mpsort argsort nmin (cut sizes ids).
