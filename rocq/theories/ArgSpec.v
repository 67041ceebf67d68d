(* Which arguments SurveyDataPairCount, SimulationBox3PCF, SurveyData3PCF and CylindricalGroups are for. *)
From Verif Require Import Base VisModel VisSpec ArgModel.
From Coq Require Import QArith Qcanon.
Local Open Scope nat_scope.

Definition owns (s : source) (c : nat) : Prop := In c (s_cols s).
(* the catalogs, arguments and cosmology that pairs of a survey are counted with *)
Definition countable {C} (m : cmode) (first : source) (edges : list Qc) (cosmo : option C) (second : option source)
    (Nmu : option Z) (pimax : option Qc) (ra dec redshift weight : nat) : Prop :=
  (forall s, s = first \/ second = Some s -> owns s ra /\ owns s dec /\ owns s weight /\ (m <> MAngular -> owns s redshift)) /\
  proper m edges Nmu pimax /\ (m <> MAngular -> cosmo <> None).

(* the box given by keyword or attrs, which have to agree *)
Definition one_box (src : source) (box : option size) (b : list Qc) : Prop :=
  (s_box src = Some (Vec b) /\ (forall x, box = Some x -> stands x b)) \/ (s_box src = None /\ exists x, box = Some x /\ stands x b).

Definition within (edges : list Qc) (b : list Qc) : Prop := forall e q, In e edges -> In q b -> (e + e <= q)%Qc.

(* a direction, up to what is lost by rounding *)
Definition direction (l : list Qc) : Prop :=
  exists x y z, l = [x; y; z] /\ (1 - tol <= x * x + y * y + z * z)%Qc /\ (x * x + y * y + z * z <= 1 + tol)%Qc.
(* the box of attrs, else of the keyword; none only if not periodic *)
Definition cgm_box (src : source) (periodic : bool) (box : option size) (b : option (list Qc)) : Prop :=
  match s_box src, box with
  | Some x, _ | None, Some x => exists l, b = Some l /\ stands x l
  | None, None => periodic = false /\ b = None
  end.
Definition ranked (r : ranking) (l : list nat) : Prop :=
  match r with RankNone => l = [] | RankOne c => l = [c] | RankList m => l = m end.
Definition groupable (position : nat) (src : source) (rankby : ranking) (los : option size) (periodic : bool) (box : option size)
    (l : list nat) (b : option (list Qc)) : Prop :=
  owns src position /\ ranked rankby l /\ (forall c, In c l -> owns src c) /\ cgm_box src periodic box b /\
  (forall x, los = Some x -> exists d, x = Vec d /\ direction d).

(* two catalogs show the same columns *)
Definition alike {V} (t u : columns V) : Prop := forall n, lookup t n = lookup u n.
