(* Fiber collisions: algorithms/fibercollisions.py *)
From Verif Require Import Base Num.
Local Open Scope nat_scope.

Definition qleb (a b : Qc) : bool := if Qclt_le_dec b a then false else true.
Definition qltb (a b : Qc) : bool := if Qclt_le_dec a b then true else false.
Notation point := (Qc * Qc * Qc)%type.
Definition d2 (p q : point) : Qc :=
  let '(x, y, z) := p in let '(x', y', z') := q in
  ((x - x') * (x - x') + (y - y') * (y - y') + (z - z') * (z - z'))%Qc.

(* numpy.random after seeding: the k-th draw; choice picks one of a list *)
Definition choice {A} (draw : nat) (l : list A) (default : A) : A := nth (draw mod (length l)) l default.

(* _assign_multiplets, 232-288.  Distances are compared by their squares; r2 is
   the square of the collision radius. *)
Section Multiplets.
Variables (r2 : Qc) (P : list point) (draws : nat -> nat).
Definition at_ (i : nat) : point := nth i P (0, 0, 0)%Qc.
Definition dist (i j : nat) : Qc := d2 (at_ i) (at_ j).
Definition collides (i j : nat) : bool := negb (i =? j) && qleb (dist i j) r2.                (* 251-253 *)
Definition n_collisions (group : list nat) (i : nat) : nat := length (filter (collides i) group). (* 256 *)
Definition n_other (group : list nat) (i : nat) : nat := nsum (map (n_collisions group) (filter (collides i) group)). (* 259 *)
Definition nmax (l : list nat) : nat := fold_right Nat.max 0 l.
Definition nmin (l : list nat) : nat := match l with [] => 0 | x :: l => fold_right Nat.min x l end.
Definition candidates (group : list nat) : list nat :=                                         (* 263-266 *)
  let top := nmax (map (n_collisions group) group) in
  let idx := filter (fun i => n_collisions group i =? top) group in
  filter (fun i => n_other group i =? nmin (map (n_other group) idx)) idx.
Definition remove_id (c : nat) (group : list nat) : list nat := filter (fun i => negb (i =? c)) group.
(* 246-275: ids of collided objects; k counts the draws *)
Fixpoint thin (fuel k : nat) (group coll : list nat) : list nat * nat :=
  match fuel with
  | O => (coll, k)
  | S fuel =>
      if length group <=? 1 then (coll, k) else
      let c := choice (draws k) (candidates group) 0 in
      thin fuel (S k) (remove_id c group) (if 0 <? n_collisions group c then coll ++ [c] else coll)
  end.
Definition mem (i : nat) (l : list nat) : bool := existsb (Nat.eqb i) l.
(* numpy.argmin: the first of the smallest *)
Fixpoint argmin (f : nat -> Qc) (best : nat) (l : list nat) : nat :=
  match l with [] => best | x :: l => argmin f (if qltb (f x) (f best) then x else best) l end.
(* 277-288: for every member its flag and, if collided, its neighbour *)
Definition multiplets (k : nat) : list (bool * nat) * nat :=
  let n := length P in
  let (coll, k) := thin n k (seq 0 n) [] in
  let free := filter (fun i => negb (mem i coll)) (seq 0 n) in
  (map (fun i => (mem i coll, match free with [] => 0 | b :: l => argmin (dist i) b l end)) (seq 0 n), k).
End Multiplets.

(* the rows of PIG, 153-174; coll and nbr are uninitialised at first *)
Record row := { w_pos : point; w_label : Z; w_rank : Z; w_index : Z; w_coll : Z; w_nbr : Z }.
Definition set_row (w : row) (c n : Z) : row :=
  {| w_pos := w_pos w; w_label := w_label w; w_rank := w_rank w; w_index := w_index w; w_coll := c; w_nbr := n |}.

Section Fibers.
Variables (r2 : Qc) (draws : nat -> nat).
(* the members of one group, 197-221 *)
Definition assign_group (k : nat) (ms : list row) : list row * nat :=
  match ms with
  | [a; b] =>
      if choice (draws k) [0; 1] 0 =? 0 then ([set_row a 1 (w_index b); set_row b 0 (-1)], S k)
      else ([set_row a 0 (-1); set_row b 1 (w_index a)], S k)
  | _ :: _ :: _ :: _ =>
      let (fl, k) := multiplets r2 (map w_pos ms) draws k in
      (map (fun p => let (w, f) := (p : row * (bool * nat)) in
              if fst f then set_row w 1 (match nth_error ms (snd f) with Some v => w_index v | None => -1 end)
              else set_row w 0 (-1)) (combine ms fl), k)
  | _ => (ms, k)
  end.
(* the loop over the groups of a rank, 190-221.  The rows are sorted by label,
   so a slice between searchsorted positions is the rows of that label. *)
Fixpoint assign_groups (labels : list Z) (k : nat) (rows : list row) : list row :=
  match labels with
  | [] => []
  | g :: labels =>
      let (out, k) := assign_group k (filter (fun w => (w_label w =? g)%Z) rows) in
      out ++ assign_groups labels k rows
  end.
(* numpy.unique *)
Fixpoint uinsert (x : Z) (l : list Z) : list Z :=
  match l with [] => [x] | y :: l' => if (x <? y)%Z then x :: l else if (x =? y)%Z then l else y :: uinsert x l' end.
Definition unique (l : list Z) : list Z := fold_right uinsert [] l.

(* mpsort.sort with a given layout of the output; numpy's sort on a rank *)
Variable mpsort : list Z -> (row -> Z) -> list (list row) -> list (list row).
Variable lsort : list row -> list row.
(* what is in new memory for the row of object i *)
Variable memory : Z -> Z * Z.

(* the rows of a rank, 153-174: the objects of offset, offset + 1, ... in groups *)
Fixpoint pig (nranks offset : Z) (objs : list (point * Z)) : list row :=
  match objs with
  | [] => []
  | (p, g) :: objs =>
      (if (g =? 0)%Z then [] else
       [{| w_pos := p; w_label := g; w_rank := g mod nranks; w_index := offset;
           w_coll := fst (memory offset); w_nbr := snd (memory offset) |}])
      ++ pig nranks (offset + 1) objs
  end.
(* collided[mask] = ..., 226-230 *)
Fixpoint scatter (objs : list (point * Z)) (vals : list (Z * Z)) : res (list (Z * Z)) :=
  match objs with
  | [] => match vals with [] => Ok [] | _ => Err ValueError end
  | (_, g) :: objs =>
      if (g =? 0)%Z then let! r := scatter objs vals in Ok ((0, -1)%Z :: r)
      else match vals with v :: vals => let! r := scatter objs vals in Ok (v :: r) | [] => Err ValueError end
  end.
Fixpoint with_offsets (off : Z) (ranks : list (list (point * Z))) : list (Z * list (point * Z)) :=
  match ranks with [] => [] | r :: ranks => (off, r) :: with_offsets (off + zlen r) ranks end.
(* _assign_fibers, 144-230 *)
Definition assign_fibers (ranks : list (list (point * Z))) : res (list (list (Z * Z))) :=
  let nranks := zlen ranks in
  let pigs := map (fun p => pig nranks (fst p) (snd p)) (with_offsets 0 ranks) in
  let counts := map (fun r => zlen (filter (fun w => (w_rank w =? Z.of_nat r)%Z) (concat pigs))) (seq 0 (length ranks)) in
  let pig2 := mpsort counts w_rank pigs in
  if negb (forallb (fun p => forallb (fun w => (w_rank w =? Z.of_nat (fst p))%Z) (snd p)) (combine (seq 0 (length ranks)) pig2))
  then Err AssertionError else
  let done := map (fun rows => assign_groups (unique (map w_label rows)) 0 (lsort rows)) pig2 in
  let back := mpsort (map zlen pigs) w_index done in
  rall (map (fun p => scatter (fst p) (map (fun w => (w_coll w, w_nbr w)) (snd p))) (combine ranks back)).
End Fibers.
