(* Model of the objects SimulationBox2PCF and SurveyData2PCF under repeated run()
   (nbodykit/algorithms/paircount_tpcf/tpcf.py:43-131, 492-507; estimators.py:142-276; pair_counters/base.py:48-61).

   Like TpcfModel, but with the attributes that run() replaces: data1, data2, randoms2 and R1R2.  Catalogs have an
   identity, since the pair counters ask `second is first`; what they count is an argument: counts a None for one
   catalog, counts a (Some b) for two.  A catalog selected by source[keep] is a new object. *)
From Verif Require Import Base Num PairModel TpcfModel.
From Coq Require Import QArith Qcanon.
Local Open Scope nat_scope.

Inductive bsize := BNum (q : Qc) | BVec (v : v3).
Definition object := (v3 * Qc)%type.                         (* position and weight *)
Record cat := { a_id : nat; a_objects : list object; a_box : option bsize }.
(* R1R2: not given, a pair counter, or the BinnedStatistic that run() leaves there *)
Inductive rr := RNone | RCounter (p : pcounts) | RStat (p : pcounts).
Record obj := { o_data1 : cat; o_data2 : option cat; o_randoms1 : option cat; o_randoms2 : option cat; o_R1R2 : rr; o_next : nat; o_out : option tpcf }.

Local Notation half := (Q2Qc (1 # 2)).
(* _restrict_to_spherical_volume, 492-507; id: the identity of the new catalog *)
Definition near (L : v3) (p : object) : bool :=
  let d i := (coord (fst p) i - half * coord L i)%Qc in let h := (half * vmin L)%Qc in
  qgt (h * h) (d 0%nat * d 0%nat + d 1%nat * d 1%nat + d 2%nat * d 2%nat)%Qc.
Definition restrict (id : nat) (c : cat) : res cat :=
  match a_box c with
  | None => Err KeyError
  | Some (BNum _) => Err AttributeError                      (* a number has no .min() *)
  | Some (BVec L) => Ok {| a_id := id; a_objects := filter (near L) (a_objects c); a_box := a_box c |}
  end.

Section Rer.
Variable counts : list object -> option (list object) -> pcounts.
Variable natural_of : pcounts -> nat -> option nat -> pcounts * list TpcfModel.num.     (* NaturalEstimator from DD, N1 and N2 *)
(* pair_counter(first, second) *)
Definition pair_count (a : cat) (b : option cat) : pcounts :=
  match b with
  | None => counts (a_objects a) None
  | Some b => if a_id b =? a_id a then counts (a_objects a) None else counts (a_objects a) (Some (a_objects b))
  end.
Definition is_cross (a : cat) (b : option cat) : bool := match b with None => false | Some b => negb (a_id b =? a_id a) end.
Definition csize (c : cat) : nat := length (a_objects c).

(* NaturalEstimator, 240-262 *)
Definition natural_result (a : cat) (b : option cat) : tpcf :=
  let DD := pair_count a b in
  let '(RR, corr) := natural_of DD (csize a) (if is_cross a b then option_map csize b else None) in
  {| t_D1D2 := DD; t_D1R2 := None; t_D2R1 := None; t_R1R2 := RR; t_corr := corr |}.
(* LandySzalayEstimator, 169-234, with a pair counter as R1R2 or none *)
Definition landy_result (d1 : cat) (d2 : option cat) (r1 : cat) (r2 : option cat) (given : option pcounts) : tpcf :=
  let r2 := match r2 with Some r => r | None => r1 end in
  let R1R2 := match given with Some x => x | None => pair_count r1 (Some r2) end in
  let D1D2 := pair_count d1 d2 in
  let D1R2 := pair_count d1 (Some r2) in
  let D2R1 := match d2 with Some d => pair_count d (Some r1) | None => D1R2 end in
  {| t_D1D2 := D1D2; t_D1R2 := Some D1R2; t_D2R1 := Some D2R1; t_R1R2 := R1R2;
     t_corr := ls_bins (c_total D1D2) (c_total D1R2) (c_total D2R1) (c_total R1R2) (c_bins D1D2) (c_bins D1R2) (c_bins D2R1) (c_bins R1R2) |}.

(* run(), 84-131: what it raises, and the object afterwards; periodic = None for SurveyData2PCF *)
Definition with_data (o : obj) (d1 : cat) (d2 : option cat) (next : nat) : obj :=
  {| o_data1 := d1; o_data2 := d2; o_randoms1 := o_randoms1 o; o_randoms2 := o_randoms2 o; o_R1R2 := o_R1R2 o; o_next := next; o_out := o_out o |}.
Definition with_result (o : obj) (t : tpcf) : obj :=
  {| o_data1 := o_data1 o; o_data2 := o_data2 o; o_randoms1 := o_randoms1 o; o_randoms2 := o_randoms2 o; o_R1R2 := RStat (t_R1R2 t); o_next := o_next o; o_out := Some t |}.
Definition with_randoms2 (o : obj) (r : option cat) : obj :=
  {| o_data1 := o_data1 o; o_data2 := o_data2 o; o_randoms1 := o_randoms1 o; o_randoms2 := r; o_R1R2 := o_R1R2 o; o_next := o_next o; o_out := o_out o |}.
Definition restricted (o : obj) : res unit * obj :=          (* 94-97 *)
  match restrict (o_next o) (o_data1 o) with
  | Err e => (Err e, o)
  | Ok d1 =>
      match o_data2 o with
      | None => (Ok tt, with_data o d1 None (S (o_next o)))
      | Some d2 =>
          match restrict (S (o_next o)) d2 with
          | Err e => (Err e, with_data o d1 (Some d2) (S (o_next o)))
          | Ok d2 => (Ok tt, with_data o d1 (Some d2) (S (S (o_next o))))
          end
      end
  end.
Definition run (periodic : option bool) (angular : bool) (o : obj) : res unit * obj :=
  match periodic, o_randoms1 o with
  | Some true, None =>
      let '(e, o) := if angular then restricted o else (Ok tt, o) in
      match e with
      | Err e => (Err e, o)
      | Ok _ => (Ok tt, with_result o (natural_result (o_data1 o) (o_data2 o)))
      end
  | _, None => (Err ValueError, o)
  | _, Some r1 =>
      let o := match o_data2 o, o_randoms2 o with Some _, None => with_randoms2 o (Some r1) | _, _ => o end in
      match o_R1R2 o with
      | RStat _ => (Err AttributeError, o)                   (* estimators.py:205, R1R2.pairs *)
      | RNone => (Ok tt, with_result o (landy_result (o_data1 o) (o_data2 o) r1 (o_randoms2 o) None))
      | RCounter p => (Ok tt, with_result o (landy_result (o_data1 o) (o_data2 o) r1 (o_randoms2 o) (Some p)))
      end
  end.
Fixpoint runs (n : nat) (periodic : option bool) (angular : bool) (o : obj) : res unit * obj :=
  match n with
  | O => (Ok tt, o)
  | S n => let '(e, o) := run periodic angular o in match e with Err e => (Err e, o) | Ok _ => runs n periodic angular o end
  end.
End Rer.
