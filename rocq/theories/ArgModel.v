(* Model of the checks of arguments of SurveyDataPairCount (nbodykit/algorithms/pair_counters/
   mocksurvey.py:94-122), SimulationBox3PCF and SurveyData3PCF (nbodykit/algorithms/threeptcf.py:
   14-33, 234-252, 344-360) and CylindricalGroups (nbodykit/algorithms/cgm.py:58-119), and of what
   CylindricalGroups does to the columns of its source (cgm.py:158-162, 196).

   Exact rationals; names of columns are numbers.  What happens between is not looked at here, save
   that decompose_survey_data wants a cosmology (pair_counters/domain.py:199-202) and that numpy.max
   of no edges is a ValueError (mocksurvey.py:159, threeptcf.py:44, 382). *)
From Verif Require Import Base VisModel.
From Coq Require Import QArith Qcanon.
Local Open Scope nat_scope.

(* verify_input_sources with inspect_boxsize=False, base.py 131-140 *)
Definition verify_columns (first : source) (second : option source) (cols : list nat) : res unit :=
  let second := match second with Some s => s | None => first end in
  if negb (s_comm second =? s_comm first) then Err AssertionError else
  if negb (has_cols first cols && has_cols second cols) then Err ValueError else Ok tt.

(* SurveyDataPairCount.__init__, 100-110 *)
Definition SurveyDataPairCount {C} (m : cmode) (first : source) (edges : list Qc) (cosmo : option C) (second : option source)
    (Nmu : option Z) (pimax : option Qc) (ra dec redshift weight : nat) : res unit :=
  let required := [ra; dec; weight] ++ (if mode_eqb m MAngular then [] else [redshift]) in
  let! _ := verify_columns first second required in
  let! _ := base_checks m edges Nmu pimax in
  if negb (mode_eqb m MAngular) && negb (is_some cosmo) then Err ValueError else Ok tt.

(* SimulationBox3PCF.__init__, 236-249, with periodic True or False: the box of the search for
   neighbours, 273-277 *)
Definition SimulationBox3PCF (src : source) (edges : list Qc) (box : option size) (periodic : bool) (weight position : nat)
    : res (option (list Qc)) :=
  let! b := verify src None box [position; weight] in
  match edges with [] => Err ValueError | _ =>
  if periodic then
    if negb (forallb (fun x => forallb (fun q => qle x (half * q)%Qc) b) edges) then Err ValueError else Ok (Some b)
  else Ok None
  end.

(* SurveyData3PCF.__init__, 347-360 *)
Definition SurveyData3PCF {C} (src : source) (edges : list Qc) (cosmo : option C) (ra dec redshift weight : nat) : res unit :=
  let! _ := verify_columns src None [ra; dec; redshift; weight] in
  match edges with [] => Err ValueError | _ => if is_some cosmo then Ok tt else Err ValueError end.

(* ---- CylindricalGroups ---- *)
Inductive ranking := RankNone | RankOne (c : nat) | RankList (l : list nat).
Definition rank_list (r : ranking) : list nat := match r with RankNone => [] | RankOne c => [c] | RankList l => l end.
Definition tol : Qc := Q2Qc (1001 # 100000000).   (* atol + rtol * 1 of numpy.allclose *)
Fixpoint square (l : list Qc) : Qc := match l with [] => 0%Qc | x :: l => (x * x + square l)%Qc end.
Definition qabs (x : Qc) : Qc := if qle 0%Qc x then x else (- x)%Qc.
(* 86-90 *)
Definition check_los (los : option size) : res unit :=
  match los with
  | None => Ok tt
  | Some (Num _) => Err ValueError
  | Some (Vec l) => if negb (length l =? 3) then Err ValueError else if qle (qabs (square l - 1)%Qc) tol then Ok tt else Err ValueError
  end.
(* 61-90: the columns ranked by and attrs['BoxSize'], None being three nan *)
Definition cgm_checks (position : nat) (src : source) (rankby : ranking) (los : option size) (periodic : bool) (box : option size)
    : res (list nat * option (list Qc)) :=
  if negb (has_cols src [position]) then Err ValueError else
  let rankby := rank_list rankby in
  if negb (has_cols src rankby) then Err ValueError else
  let box := match s_box src with Some x => Some x | None => box end in
  if periodic && negb (is_some box) then Err ValueError else
  let! b := match box with Some x => let! b := assign x in Ok (Some b) | None => Ok None end in
  let! _ := check_los los in
  Ok (rankby, b).

(* the columns of a catalog that is not a view: hard-coded, set by the user, defaults *)
Record columns (V : Type) := Columns { hard : list (nat * V); overrides : list (nat * V); defaults : list (nat * V) }.
Arguments Columns {V}. Arguments hard {V}. Arguments overrides {V}. Arguments defaults {V}.
Fixpoint find {V} (n : nat) (l : list (nat * V)) : option V :=
  match l with [] => None | (m, v) :: l => if m =? n then Some v else find n l end.
(* __getitem__, base/catalog.py 343-391: what a name stands for *)
Definition lookup {V} (t : columns V) (n : nat) : option V :=
  match find n (overrides t) with Some v => Some v | None => match find n (hard t) with Some v => Some v | None => find n (defaults t) end end.
Definition drop {V} (n : nat) (l : list (nat * V)) : list (nat * V) := filter (fun p => negb (fst p =? n)) l.
(* __setitem__, 402-404 *)
Definition set_column {V} (t : columns V) (n : nat) (v : V) : columns V := Columns (hard t) ((n, v) :: drop n (overrides t)) (defaults t).
(* __delitem__, 414-426 *)
Definition del_column {V} (t : columns V) (n : nat) : res (columns V) :=
  match lookup t n with None => Err ValueError | Some _ =>
  match find n (hard t) with Some _ => Err ValueError | None =>
  match find n (overrides t) with Some _ => Ok (Columns (hard t) (drop n (overrides t)) (defaults t)) | None => Err ValueError end end end.
(* run, 158-196: the columns of the source afterwards, and the groups or what is raised *)
Definition cgm_run {V G} (origind : nat) (index : V) (work : columns V -> res G) (t : columns V) : columns V * res G :=
  let t1 := set_column t origind index in
  match work t1 with
  | Err e => (t1, Err e)
  | Ok g => match del_column t1 origind with Ok t2 => (t2, Ok g) | Err e => (t1, Err e) end
  end.
