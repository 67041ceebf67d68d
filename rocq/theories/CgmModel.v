(* Cylindrical groups: algorithms/cgm.py *)
From Verif Require Import Base Num.
From Verif Require Import FiberModel.
Local Open Scope nat_scope.

(* ---- the test of one pair, callback 261-291 ---- *)
Definition dot (p q : point) : Qc := let '(x, y, z) := p in let '(x', y', z') := q in (x * x' + y * y' + z * z')%Qc.
Definition half : Qc := Q2Qc (1 # 2).
(* 268-271 for one axis *)
Definition wrap (box d : Qc) : Qc :=
  let d := if qltb (box * half) d then (d - box)%Qc else d in
  if qleb d (- (box * half)) then (d + box)%Qc else d.
Definition difference (boxsize : option point) (p q : point) : point :=
  let '(x, y, z) := p in let '(x', y', z') := q in
  match boxsize with
  | None => (x - x', y - y', z - z')%Qc
  | Some (bx, by_, bz) => (wrap bx (x - x'), wrap by_ (y - y'), wrap bz (z - z'))%Qc
  end.
Definition qabs (a : Qc) : Qc := if qltb a 0 then (- a)%Qc else a.
(* los None: the direction to the middle of the pair; 0/0 is not a number and
   compares as false *)
Definition valid (los boxsize : option point) (rperp2 rpar2 : Qc) (p q : point) : bool :=
  let d := difference boxsize p q in
  match (match los with
         | Some n => Some (dot d n * dot d n)%Qc
         | None =>
             let '(x, y, z) := p in let '(x', y', z') := q in
             let c := (half * (x + x'), half * (y + y'), half * (z + z'))%Qc in
             if Qc_eq_dec (dot c c) 0 then None else Some (dot d c * dot d c / dot c c)%Qc
         end) with
  | None => false
  | Some rlos2 => qleb (qabs (dot d d - rlos2)) rperp2 && qleb rlos2 rpar2
  end.

(* ---- one pair of the frame: places of i and j on the rank, and their sorted indices ---- *)
Record row := { ri : nat; rj : nat; si : nat; sj : nat }.
Definition mem (i : nat) (l : list nat) : bool := existsb (Nat.eqb i) l.
Definition add (i : nat) (l : list nat) : list nat := if mem i l then l else l ++ [i].
Definition nub (l : list nat) : list nat := fold_left (fun a i => add i a) l [].
(* numpy sort, descending *)
Fixpoint dinsert (x : nat) (l : list nat) : list nat := match l with [] => [x] | y :: l' => if y <=? x then x :: l else y :: dinsert x l' end.
Definition dsort (l : list nat) : list nat := fold_right dinsert [] l.
Fixpoint index_of (x : nat) (l : list nat) : option nat :=
  match l with [] => None | y :: l => if x =? y then Some 0 else option_map S (index_of x l) end.
Definition isnull {A} (o : option A) : bool := match o with None => true | Some _ => false end.

Section Cgm.
Variable near : nat -> nat -> bool.                       (* the test, by sorted indices *)
Variable by_desc : (row -> nat) -> list row -> list row.  (* pandas sort_values(ascending=False) *)
(* the objects of each rank after the first and the second exchange (237-247),
   by their sorted index *)
Variables prims ghosts : list (list nat).
(* what kdcount's enum passes to the callback on each rank, 301 *)
Variable batches : list (list (list (nat * nat))).

Definition owner (s : nat) : option nat := option_map fst (find (fun p => mem s (snd p)) (combine (seq 0 (length prims)) prims)).

(* 284-298 *)
Definition frame_rows (prim ghost : list nat) (bs : list (list (nat * nat))) : list row :=
  filter (fun w => near (si w) (sj w))
    (map (fun p => {| ri := fst p; rj := snd p; si := nth (fst p) prim 0; sj := nth (snd p) ghost 0 |}) (concat bs)).
Definition count_gt (rows : list row) (a : nat) : nat := length (filter (fun w => (ri w =? a) && (si w <? sj w)) rows).
Definition elsewhere (r s : nat) : bool := match owner s with Some q => negb (q =? r) | None => true end.
Definition count_wrong (r : nat) (rows : list row) (a : nat) : nat :=
  length (filter (fun w => (ri w =? a) && (si w <? sj w) && elsewhere r (sj w)) rows).
Definition places (test : nat -> bool) (prim : list nat) : list nat :=
  map snd (filter (fun p => test (fst p)) (combine (seq 0 (length prim)) prim)).

(* _remove_objects_paired_with, 404-424 *)
Definition remove_paired (bad : list nat) (df : list row) : list row :=
  let to_drop := map si (filter (fun w => mem (sj w) bad) df) in
  filter (fun w => negb (mem (si w) to_drop)) df.
Definition group_nums (df : list row) (g : nat) : list nat := map sj (filter (fun w => si w =? g) df).

(* find_local_centrals, 446-463 *)
Definition local_step (df : list row) (st : list nat * list nat) (g : nat) : list nat * list nat :=
  let (centrals, maybes) := st in
  let nums := group_nums df g in
  if existsb (fun n => mem n centrals) nums then (centrals, maybes)
  else if existsb (fun n => mem n maybes) nums then (centrals, add g maybes)
  else (add g centrals, maybes).

(* a rank up to the gather: frame, centrals, rows of the possible centrals; 303-331, 468-480 *)
Definition local_part (r : nat) (prim ghost : list nat) (bs : list (list (nat * nat))) : res (list row * list nat * list row) :=
  match bs with
  | [] => Err ValueError                                    (* numpy.concatenate([]), 312 *)
  | _ =>
      let rows := frame_rows prim ghost bs in
      let centrals := places (fun a => count_gt rows a =? 0) prim in
      let maybes := places (fun a => 0 <? count_wrong r rows a) prim in
      let df := by_desc si rows in
      let possible := filter (fun w => negb (mem (si w) centrals)) (filter (fun w => si w <? sj w) df) in
      let possible := remove_paired centrals possible in
      let same_rank := filter (fun w => negb (mem (si w) maybes)) possible in
      let (centrals, maybes) := fold_left (local_step same_rank) (nub (map si same_rank)) (centrals, maybes) in
      Ok (df, centrals, filter (fun w => mem (si w) maybes) possible)
  end.
(* finalize, 497-500 *)
Definition final_step (df : list row) (new : list nat) (g : nat) : list nat :=
  if existsb (fun n => mem n new) (group_nums df g) then new else add g new.
(* 482-516 *)
Definition all_centrals (parts : list (list row * list nat * list row)) : list nat :=
  let cens := concat (map (fun p => snd (fst p)) parts) in
  let maybes := remove_paired cens (concat (map snd parts)) in
  let df := by_desc si maybes in
  dsort (cens ++ fold_left (final_step df) (nub (map si df)) []).

(* ---- labels, types and counts of one rank, 338-380 ---- *)
Variable nan_int : Z.                                    (* what a missing label becomes as an integer *)
Section Labels.
Variables (all : list nat) (df : list row).
Definition label (s : nat) : option Z := option_map Z.of_nat (index_of s all).
Definition cens_label (a : nat) : Z :=
  match find (fun w => ri w =? a) (filter (fun w => negb (isnull (label (sj w)))) df) with
  | None => -1
  | Some w => match label (si w) with Some l => l | None => nan_int end
  end.
Definition sats : list row := by_desc sj (filter (fun w => isnull (label (si w)) && negb (isnull (label (sj w)))) df).
Definition first_of (g : nat) : list row := match find (fun w => si w =? g) sats with Some w => [w] | None => [] end.
Definition hosts : list row := flat_map first_of (nub (map si sats)).
Definition out_label (a : nat) : Z :=
  match find (fun w => ri w =? a) hosts with
  | Some w => match label (sj w) with Some l => l | None => nan_int end
  | None => cens_label a
  end.
Definition out_type (a : nat) : Z := if existsb (fun w => ri w =? a) hosts then 1%Z else 0%Z.
Definition out_count (b : nat) : Z := zlen (filter (fun w => rj w =? b) hosts).
End Labels.

(* layout2.gather(counts, mode='sum'), 383: the copies of an object on all ranks *)
Definition gather_sum (all : list nat) (parts : list (list row * list nat * list row)) (s : nat) : Z :=
  zsum (map (fun p => let '(ghost, (df, _, _)) := p in
               zsum (map (fun q => if snd q =? s then out_count all df (fst q) else 0%Z) (combine (seq 0 (length ghost)) ghost)))
            (combine ghosts parts)).

(* cgm_type, cgm_haloid, num_cgm_sats with the original index *)
Record cell := { c_type : Z; c_halo : Z; c_sats : Z; c_orig : Z }.
Variable order : list nat.                               (* original index of each sorted object *)
Variable mpsort : list Z -> (cell -> Z) -> list (list cell) -> list (list cell).
Definition cells (all : list nat) (parts : list (list row * list nat * list row)) : list (nat * cell) :=
  concat (map (fun p => let '(prim, (df, _, _)) := p in
     map (fun q => (snd q, {| c_type := out_type all df (fst q); c_halo := out_label all df (fst q);
                              c_sats := gather_sum all parts (snd q); c_orig := Z.of_nat (nth (snd q) order 0) |}))
         (combine (seq 0 (length prim)) prim)) (combine prims parts)).
(* layout1.gather(..., mode='any'), 393-396: the objects with sorted indices start.. *)
Definition gather_any (cs : list (nat * cell)) (start len : nat) : res (list cell) :=
  rall (map (fun s => match find (fun c => fst c =? s) cs with Some c => Ok (snd c) | None => Err IndexError end) (seq start len)).
Fixpoint gather_all (cs : list (nat * cell)) (start : nat) (sizes : list nat) : res (list (list cell)) :=
  match sizes with
  | [] => Ok []
  | n :: sizes => let! a := gather_any cs start n in let! r := gather_all cs (start + n) sizes in Ok (a :: r)
  end.
(* sizes: the number of objects of each rank of the sorted catalog *)
Definition cgm (sizes : list nat) : res (list (list (Z * Z * Z))) :=
  let! parts := rall (map (fun p => let '(r, (prim, (ghost, bs))) := p in local_part r prim ghost bs)
                          (combine (seq 0 (length prims)) (combine prims (combine ghosts batches)))) in
  let all := all_centrals parts in
  let! out := gather_all (cells all parts) 0 sizes in
  Ok (map (map (fun c => (c_type c, c_halo c, c_sats c))) (mpsort (map Z.of_nat sizes) c_orig out)).
End Cgm.

(* run, 143-174: an empty rank has no smallest position; pos_s are the positions
   in sorted order, rank by rank *)
Definition extent_ok {A} (sorted : list (list A)) : res unit :=
  if existsb (fun l => match l with [] => true | _ => false end) sorted then Err ValueError else Ok tt.
Definition run (los boxsize : option point) (rperp rpar : Qc) by_desc prims ghosts batches nan_int order mpsort
  (sorted : list (list point)) : res (list (list (Z * Z * Z))) :=
  let! _ := extent_ok sorted in
  let P := concat sorted in
  let at_s s := nth s P (0, 0, 0)%Qc in
  cgm (fun s t => valid los boxsize (rperp * rperp) (rpar * rpar) (at_s s) (at_s t)) by_desc prims ghosts batches nan_int order mpsort
      (map (@length point) sorted).

(* the edges of the domain grid, 163-167 *)
Definition linspace (a b : Qc) (n : nat) : list Qc := map (fun i => (a + (b - a) * nq i / nq n)%Qc) (seq 0 (S n)).
Definition axis_min (f : point -> Qc) (l : list point) : Qc := fold_right (fun p m => if qltb (f p) m then f p else m) (f (hd (0, 0, 0)%Qc l)) l.
Definition axis_max (f : point -> Qc) (l : list point) : Qc := fold_right (fun p m => if qltb m (f p) then f p else m) (f (hd (0, 0, 0)%Qc l)) l.
Definition px (p : point) : Qc := fst (fst p).
Definition py (p : point) : Qc := snd (fst p).
Definition pz (p : point) : Qc := snd p.
Definition cgm_grid (np : nat * nat * nat) (P : list point) : list (list Qc) :=
  let '(nx, ny, nz) := np in
  [linspace (axis_min px P) (axis_max px P) nx; linspace (axis_min px P) (axis_max py P) ny; linspace (axis_min px P) (axis_max pz P) nz].
