(* Model of the checks of the pair counts in a box before any counting:
   verify_input_sources (nbodykit/algorithms/pair_counters/base.py:126-159), PairCountBase.__init__
   (base.py:11-33) and SimulationBoxPairCount.__init__ (simbox.py:88-127).

   Exact rationals; names of columns are numbers.  The check of los is in PairModel (C41); it
   comes first and does not interfere. *)
From Verif Require Import Base.
From Coq Require Import QArith Qcanon.
Local Open Scope nat_scope.

(* a number, or an array of one dimension *)
Inductive size := Num (q : Qc) | Vec (l : list Qc).
Record source := { s_comm : nat; s_cols : list nat; s_box : option size }.
Inductive cmode := M1d | M2d | MProjected | MAngular | MBad.

(* _BoxSize[:] = array *)
Definition into3 (l : list Qc) : res (list Qc) :=
  match l with
  | [a; b; c] => Ok [a; b; c]
  | [a] => Ok [a; a; a]
  | _ => Err ValueError
  end.
(* _BoxSize[:] = BoxSize *)
Definition assign (s : size) : res (list Qc) := match s with Num q => Ok [q; q; q] | Vec l => into3 l end.
(* _BoxSize[:] = BoxSize1[:]; a number has no items (IndexError for numbers of numpy) *)
Definition assign_items (s : size) : res (list Qc) := match s with Num _ => Err TypeError | Vec l => into3 l end.

Fixpoint same_items (a b : list Qc) : bool :=
  match a, b with
  | [], [] => true
  | x :: a, y :: b => Qc_eq_bool x y && same_items a b
  | _, _ => false
  end.
(* numpy.all(a == b); arrays that do not fit compare as different *)
Definition all_equal (a b : size) : bool :=
  match a, b with
  | Num x, Num y => Qc_eq_bool x y
  | Num x, Vec l | Vec l, Num x | Vec [x], Vec l | Vec l, Vec [x] => forallb (Qc_eq_bool x) l
  | Vec l, Vec m => same_items l m
  end.

Definition has_cols (s : source) (cols : list nat) : bool := forallb (fun c => existsb (Nat.eqb c) (s_cols s)) cols.

(* verify_input_sources, 131-159 *)
Definition verify (first : source) (second : option source) (box : option size) (cols : list nat) : res (list Qc) :=
  let second := match second with Some s => s | None => first end in
  if negb (s_comm second =? s_comm first) then Err AssertionError else
  if negb (has_cols first cols && has_cols second cols) then Err ValueError else
  let! b := match s_box first with Some x => assign_items x | None => Ok [0%Qc; 0%Qc; 0%Qc] end in
  let! b := match box with Some x => assign x | None => Ok b end in
  if forallb (Qc_eq_bool 0%Qc) b then Err ValueError else
  match s_box first, s_box second with
  | Some x, Some y =>
      if negb (all_equal x y) then Err ValueError else
      if negb (all_equal x (Vec b)) then Err ValueError else Ok b
  | _, _ => Ok b
  end.

Definition qle (x y : Qc) : bool := match (x ?= y)%Qc with Gt => false | _ => true end.
Definition is_some {A} (o : option A) : bool := match o with Some _ => true | None => false end.
Definition mode_eqb (a b : cmode) : bool :=
  match a, b with M1d, M1d | M2d, M2d | MProjected, MProjected | MAngular, MAngular | MBad, MBad => true | _, _ => false end.

(* PairCountBase.__init__, 11-33; numpy.min of no edges is a ValueError *)
Definition base_checks (m : cmode) (edges : list Qc) (Nmu : option Z) (pimax : option Qc) : res unit :=
  if mode_eqb m MBad then Err ValueError else
  match edges with [] => Err ValueError | _ =>
  if existsb (fun e => qle e 0%Qc) edges then Err ValueError else
  if mode_eqb m M2d && negb (is_some Nmu) then Err ValueError else
  if is_some Nmu && negb (mode_eqb m M2d) then Err ValueError else
  if mode_eqb m MProjected && negb (is_some pimax) then Err ValueError else
  if is_some pimax && negb (mode_eqb m MProjected) then Err ValueError else
  match pimax with
  | Some p => if mode_eqb m MProjected && negb (qle 1%Qc p) then Err ValueError else Ok tt
  | None => Ok tt
  end end.

Definition half : Qc := Q2Qc (1 # 2).
(* SimulationBoxPairCount.__init__, 106-124: the box in use *)
Definition SimulationBoxPairCount (m : cmode) (first : source) (edges : list Qc) (box : option size) (periodic : bool)
    (second : option source) (Nmu : option Z) (pimax : option Qc) (cols : list nat) : res (list Qc) :=
  let! b := verify first second box cols in
  let! _ := base_checks m edges Nmu pimax in
  let smallest (x : Qc) := forallb (fun q => qle x (half * q)%Qc) b in
  if periodic && negb (mode_eqb m MAngular) then
    if negb (forallb smallest edges) then Err ValueError else
    match pimax with
    | Some p => if mode_eqb m MProjected && negb (smallest p) then Err ValueError else Ok b
    | None => Ok b
    end
  else Ok b.
