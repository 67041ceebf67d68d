(* Halos and the tables that halotools is given, independent of the program. *)
From Coq Require Import Ascii String QArith Qcanon.
From Verif Require Import Base Num NamesModel RanksSpec DaSpec FofCmSpec HctModel.
Local Notation length := List.length.
Local Notation concat := List.concat.
Local Open Scope Z_scope.

(* a halo: position, velocity, mass *)
Record halo := { o_x : num; o_y : num; o_z : num; o_vx : num; o_vy : num; o_vz : num; o_m : num }.
Definition position (o : halo) : cell := Ve (o_x o) (o_y o) (o_z o).
Definition velocity (o : halo) : cell := Ve (o_vx o) (o_vy o) (o_vz o).
Definition mass (o : halo) : cell := Sc (o_m o).
Definition reweigh (o : halo) (m : num) : halo := {| o_x := o_x o; o_y := o_y o; o_z := o_z o; o_vx := o_vx o; o_vy := o_vy o; o_vz := o_vz o; o_m := m |}.

(* the three named columns of the source hold these halos *)
Definition source_holds (src : source) (m p v : str) (rows : list (list halo)) : Prop :=
  s_catalog src = true /\ s_sizes src = map (@length halo) rows /\
  dget (s_cols src) m = Some (map (map mass) rows) /\
  dget (s_cols src) p = Some (map (map position) rows) /\
  dget (s_cols src) v = Some (map (map velocity) rows).

(* what must be in the table of a rank, whose first halo has number off; rad and con: radius and concentration of a mass *)
Definition describes {K} (mdef : str) (cosmo : K) (z : Qc) (box pm : hval) (rad con : num -> num) (off : nat) (rows : list halo) (t : list (str * kval K)) : Prop :=
  Forall (fun kv => dget t (fst kv) = Some (snd kv))
   [(s_ "halo_x", KNums K (map o_x rows)); (s_ "halo_y", KNums K (map o_y rows)); (s_ "halo_z", KNums K (map o_z rows));
    (s_ "halo_vx", KNums K (map o_vx rows)); (s_ "halo_vy", KNums K (map o_vy rows)); (s_ "halo_vz", KNums K (map o_vz rows));
    (s_ "halo_m" ++ mdef, KNums K (map o_m rows)); (s_ "halo_r" ++ mdef, KNums K (map (fun o => rad (o_m o)) rows));
    (s_ "halo_nfw_conc", KNums K (map (fun o => con (o_m o)) rows));
    (s_ "halo_id", KInts K (map Z.of_nat (seq off (length rows)))); (s_ "halo_hostid", KInts K (map Z.of_nat (seq off (length rows))));
    (s_ "halo_upid", KInts K (repeat (-1) (length rows))); (s_ "halo_local_id", KInts K (map Z.of_nat (seq 0 (length rows))));
    (s_ "cosmology", KCosmo K cosmo); (s_ "redshift", KVal K (HNum z)); (s_ "Lbox", KVal K box);
    (s_ "particle_mass", KVal K pm); (s_ "mdef", KVal K (HStr mdef))].
Definition all_described {K} mdef (cosmo : K) z box pm rad con (rows : list (list halo)) (tables : list (list (str * kval K))) : Prop :=
  length tables = length rows /\
  forall r rs t, nth_error rows r = Some rs -> nth_error tables r = Some t ->
    describes mdef cosmo z box pm rad con (length (concat (firstn r rows))) rs t.
(* the box: the argument, else that of the source *)
Definition box_of (BoxSize : option hval) (d : dict) : option hval := match BoxSize with Some b => Some b | None => dget d (s_ "BoxSize") end.
Definition mass_of (d : dict) : hval := match dget d (s_ "particle_mass") with Some v => v | None => HNum 1 end.
(* the halos where the mask holds *)
Definition chosen (mask : list (list bool)) (rows : list (list halo)) : list (list halo) :=
  map (fun p => map snd (filter fst (combine (fst p) (snd p)))) (combine mask rows).

(* ---- groups of particles ---- *)
(* the members of a group where dens is greatest *)
Definition at_peak {V} (g : Z) (labels : list Z) (dens : list Qc) (values : list V) : list V :=
  map snd (filter (fun p => (fst (fst p) =? g) && forallb (fun w => if Qclt_le_dec (snd (fst p)) w then false else true) (of_label g labels dens))
                  (combine (combine labels dens) values)).
(* the centre of points on an axis, of a box of length L *)
Definition center (L : option Qc) (v : list Qc) (x : num) : Prop :=
  match L with
  | None => x = Some (mean v)
  | Some L => forall y, unwrapped L v y -> exists c, x = Some c /\ (0 <= c /\ c < L)%Qc /\ same_mod L (mean y) c
  end.
Definition center3 (L : list (option Qc)) (v : list (list Qc)) (c : cell) : Prop :=
  exists x y z lx ly lz vx vy vz, c = Ve x y z /\ L = [lx; ly; lz] /\ v = [vx; vy; vz] /\ center lx vx x /\ center ly vy y /\ center lz vz z.
Definition groups (labels : list Z) (m : Z) : list Z := filter (fun g => 0 <? count g labels) (map Z.of_nat (seq 1 (Z.to_nat m))).
Definition members (pd : posdef) (labels : list (list Z)) (dens : list (list Qc)) (g : Z) (v : list (list (list Qc))) : list (list Qc) :=
  map (fun axis => match pd with PPeak => at_peak g (global labels) (global dens) (global axis) | _ => of_label g (global labels) (global axis) end) v.

(* three axes, a value for every particle *)
Definition shaped (labels : list (list Z)) (v : list (list (list Qc))) : Prop := length v = 3%nat /\ Forall (fun axis => map (@length Z) labels = map (@length Qc) axis) v.
Definition in_axis (L : option Qc) (v : list Qc) : Prop := match L with None => True | Some L => (0 < L)%Qc /\ forall x, In x v -> (0 <= x /\ x <= L)%Qc end.
Definition boxed (L : list (option Qc)) (v : list (list (list Qc))) : Prop := length L = 3%nat /\ Forall (fun p => in_axis (fst p) (global (snd p))) (combine L v).
(* the box that is used *)
Definition used_box (periodic : bool) (a : dict) : option (list (option Qc)) :=
  if periodic then match dget a (s_ "BoxSize") with Some (HBox l) => Some (map Some l) | _ => None end else Some [None; None; None].
(* the halo of group g *)
Definition halo_of_group (pd : posdef) (labels : list (list Z)) (dens : list (list Qc)) (pos vel : list (list (list Qc))) (box : list (option Qc)) (pm : Qc) (g : Z) (o : halo) : Prop :=
  o_m o = Some (pm * zq (count g (global labels)))%Qc /\
  center3 box (members pd labels dens g pos) (position o) /\
  center3 [None; None; None] (members pd labels dens g vel) (velocity o).
Definition nums (l : list num) : list Qc := map (fun x => match x with Some v => v | None => 0%Qc end) l.

(* ---- columns that are set ---- *)
Inductive hop := SetMass (l : list (list num)) | SetPosition (l : list (list (num * num * num))) | SetVelocity (l : list (list (num * num * num))) | SetOther (n : str) (c : column).
Definition vec (p : num * num * num) : cell := let '(x, y, z) := p in Ve x y z.
Definition the_column (o : hop) : str * column :=
  match o with
  | SetMass l => (s_ "Mass", map (map Sc) l) | SetPosition l => (s_ "Position", map (map vec) l) | SetVelocity l => (s_ "Velocity", map (map vec) l)
  | SetOther n c => (n, c)
  end.
Definition same_shape {A B} (a : list (list A)) (b : list (list B)) : bool := if list_eq_dec Nat.eq_dec (map (@length A) a) (map (@length B) b) then true else false.
Definition merge {A} (f : halo -> A -> halo) (rows : list (list halo)) (l : list (list A)) : list (list halo) :=
  if same_shape l rows then map (fun p => map (fun q => f (fst q) (snd q)) (combine (fst p) (snd p))) (combine rows l) else rows.
Definition move (o : halo) (p : num * num * num) : halo :=
  let '(x, y, z) := p in {| o_x := x; o_y := y; o_z := z; o_vx := o_vx o; o_vy := o_vy o; o_vz := o_vz o; o_m := o_m o |}.
Definition push (o : halo) (p : num * num * num) : halo :=
  let '(x, y, z) := p in {| o_x := o_x o; o_y := o_y o; o_z := o_z o; o_vx := x; o_vy := y; o_vz := z; o_m := o_m o |}.
(* the halos after a column has been set; arrays of another shape are refused *)
Definition after_set (rows : list (list halo)) (o : hop) : list (list halo) :=
  match o with SetMass l => merge reweigh rows l | SetPosition l => merge move rows l | SetVelocity l => merge push rows l | SetOther _ _ => rows end.
Definition plain_names (o : hop) : Prop := match o with SetOther n _ => ~ In n hard | _ => True end.
