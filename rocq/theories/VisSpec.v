(* Which sources and arguments the pair counts in a box are for. *)
From Verif Require Import Base VisModel.
From Coq Require Import QArith Qcanon.
Local Open Scope nat_scope.

(* a box in three dimensions given as a number or array *)
Definition stands (s : size) (b : list Qc) : Prop :=
  match s with
  | Num q => b = [q; q; q]
  | Vec l => (length l = 3 /\ b = l) \/ exists q, l = [q] /\ b = [q; q; q]
  end.
(* the BoxSize of attrs is missing or has three sides *)
Definition has_sides (s : source) : Prop := forall x, s_box s = Some x -> exists l, x = Vec l /\ length l = 3.

Definition chosen (first : source) (second : option source) : source := match second with Some s => s | None => first end.

(* the box asked for *)
Definition asked (first : source) (box : option size) (b : list Qc) : Prop :=
  match box with
  | Some x => stands x b
  | None => s_box first = Some (Vec b)
  end.
Definition proper (m : cmode) (edges : list Qc) (Nmu : option Z) (pimax : option Qc) : Prop :=
  m <> MBad /\ edges <> [] /\ (forall e, In e edges -> 0 < e)%Qc /\
  (Nmu <> None <-> m = M2d) /\ (pimax <> None <-> m = MProjected) /\ (forall p, pimax = Some p -> 1 <= p)%Qc.
(* no separation is larger than half of a side *)
Definition reaches (edges : list Qc) (pimax : option Qc) (b : list Qc) : Prop :=
  forall q, In q b -> (forall e, In e edges -> e + e <= q)%Qc /\ (forall p, pimax = Some p -> p + p <= q)%Qc.

Definition suitable (m : cmode) (first : source) (edges : list Qc) (box : option size) (periodic : bool)
    (second : option source) (Nmu : option Z) (pimax : option Qc) (cols : list nat) (b : list Qc) : Prop :=
  (forall c, In c cols -> In c (s_cols first) /\ In c (s_cols (chosen first second))) /\
  asked first box b /\ (exists q, In q b /\ q <> 0%Qc) /\
  (forall x y, s_box first = Some x -> s_box (chosen first second) = Some y -> x = Vec b /\ y = Vec b) /\
  proper m edges Nmu pimax /\
  (periodic = true -> m <> MAngular -> reaches edges pimax b).
