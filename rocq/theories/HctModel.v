(* Halo catalogs: FOF.to_halos (algorithms/fof.py 130-195) with fof_catalog (427-533), and
   HaloCatalog (source/catalog/halos.py 34-200): its columns, slices and to_halotools.

   A column has a list of rows on every rank; a row is a number or a vector, None stands for nan.
   Numbers are exact rationals (the program has f4 and i4 in fof_catalog).  Velocity dispersions, populate (C231-C235) and views are
   left out; the parent of a slice is not kept.  halotools is three parameters: concentrations and radii of single
   masses, and UserSuppliedHaloCatalog, which is its arguments. *)
From Coq Require Import Ascii String QArith Qcanon.
From Verif Require Import Base Num NamesModel RanksSpec RanksModel DistModel DaModel FofModel FofCmModel.
Local Notation length := List.length.
Local Notation concat := List.concat.
Local Open Scope Z_scope.

Definition num := option Qc.
Inductive cell := Sc (x : num) | Ve (x y z : num).
Definition column := list (list cell).             (* of every rank *)
Inductive hval := HNum (x : Qc) | HStr (s : str) | HBox (l : list Qc) | HBool (b : bool) | HCosmo.
Definition dict := list (str * hval).
Definition dupdate (d e : dict) : dict := fold_left (fun d kv => dset d (fst kv) (snd kv)) e d.

Record source := { s_catalog : bool; s_cols : list (str * column); s_sizes : list nat; s_attrs : dict }.

Section Halos.
Variable cosmology : Type.
Variable efunc : cosmology -> Qc -> Qc.
Variable conc radius : cosmology -> Qc -> str -> num -> num.   (* transform.HaloConcentration, HaloRadius *)

Record halos := { h_src : source; h_cosmo : cosmology; h_attrs : dict; h_over : list (str * column); h_sizes : list nat }.

(* 43-48 *)
Definition required (src : source) (col : option str) : res str :=
  match col with
  | None => Err ValueError
  | Some c => match dget (s_cols src) c with None => Err ValueError | Some _ => Ok c end
  end.
(* HaloCatalog.__init__, 36-79 *)
Definition new_halos (src : source) (cosmo : cosmology) (redshift : Qc) (mdef : str) (mass position velocity : option str) : res halos :=
  let! m := required src mass in
  let! p := required src position in
  let! v := required src velocity in
  if negb (s_catalog src) then Err TypeError else                                  (* 50-51 *)
  let a := dupdate [] (s_attrs src) in                                             (* 59 *)
  let a := dset a (s_ "redshift") (HNum redshift) in                               (* 62-67 *)
  let a := dset a (s_ "cosmo") HCosmo in
  let a := dset a (s_ "mass") (HStr m) in
  let a := dset a (s_ "velocity") (HStr v) in
  let a := dset a (s_ "position") (HStr p) in
  let a := dset a (s_ "mdef") (HStr mdef) in
  let a := dset a (s_ "halo_mass_key") (HStr (s_ "halo_m" ++ mdef)) in             (* 70-71 *)
  let a := dset a (s_ "halo_radius_key") (HStr (s_ "halo_r" ++ mdef)) in
  Ok {| h_src := src; h_cosmo := cosmo; h_attrs := a; h_over := []; h_sizes := s_sizes src |}.

Definition attr (h : halos) (k : str) : res hval := match dget (h_attrs h) k with Some v => Ok v | None => Err KeyError end.
Definition attr_str (h : halos) (k : str) : res str := let! v := attr h k in match v with HStr s => Ok s | _ => Err TypeError end.
Definition attr_num (h : halos) (k : str) : res Qc := let! v := attr h k in match v with HNum x => Ok x | _ => Err TypeError end.

(* self._source[name] *)
Definition src_col (h : halos) (k : str) : res column :=
  let! n := attr_str h k in
  match dget (s_cols (h_src h)) n with Some c => Ok c | None => Err KeyError end.
Definition mulc (f : Qc) (c : cell) : cell :=
  let g := option_map (fun x => (x * f)%Qc) in
  match c with Sc x => Sc (g x) | Ve x y z => Ve (g x) (g y) (g z) end.
Definition on_mass (f : num -> num) (c : cell) : res cell := match c with Sc x => Ok (Sc (f x)) | Ve _ _ _ => Err OutOfContract end.
Definition map_col (f : cell -> res cell) (c : column) : res column := rall (map (fun l => rall (map f l)) c).

(* the columns Mass, Position and Velocity, 81-100; what is set wins, base/catalog.py 370-391 *)
Definition given (h : halos) (n : str) (k : str) : res column :=
  match dget (h_over h) n with Some c => Ok c | None => src_col h k end.
(* 102-114 *)
Definition velocity_offset (h : halos) : res column :=
  let! z := attr_num h (s_ "redshift") in
  let e := (zq 100 * efunc (h_cosmo h) z)%Qc in
  if Qc_eq_dec e 0 then Err OutOfContract else
  let! v := given h (s_ "Velocity") (s_ "velocity") in
  map_col (fun c => Ok (mulc ((1 + z) / e)%Qc c)) v.
(* 116-141 *)
Definition analytic (f : cosmology -> Qc -> str -> num -> num) (h : halos) : res column :=
  let! z := attr_num h (s_ "redshift") in
  let! mdef := attr_str h (s_ "mdef") in
  let! m := given h (s_ "Mass") (s_ "mass") in
  map_col (on_mass (f (h_cosmo h) z mdef)) m.

Definition hard : list str := [s_ "Concentration"; s_ "Mass"; s_ "Position"; s_ "Radius"; s_ "Velocity"; s_ "VelocityOffset"].
Definition getcol (h : halos) (n : str) : res column :=
  match dget (h_over h) n with
  | Some c => Ok c
  | None =>
      if str_eqb n (s_ "Mass") then src_col h (s_ "mass")
      else if str_eqb n (s_ "Position") then src_col h (s_ "position")
      else if str_eqb n (s_ "Velocity") then src_col h (s_ "velocity")
      else if str_eqb n (s_ "VelocityOffset") then velocity_offset h
      else if str_eqb n (s_ "Concentration") then analytic conc h
      else if str_eqb n (s_ "Radius") then analytic radius h
      else Err KeyError
  end.
Definition with_over (h : halos) (o : list (str * column)) : halos :=
  {| h_src := h_src h; h_cosmo := h_cosmo h; h_attrs := h_attrs h; h_over := o; h_sizes := h_sizes h |}.
Definition with_attr (h : halos) (k : str) (v : hval) : halos :=
  {| h_src := h_src h; h_cosmo := h_cosmo h; h_attrs := dset (h_attrs h) k v; h_over := h_over h; h_sizes := h_sizes h |}.
(* halos[n] = column, base/catalog.py 955-972 *)
Definition setcol (h : halos) (n : str) (c : column) : res halos :=
  if list_eq_dec Nat.eq_dec (map (@length cell) c) (h_sizes h) then Ok (with_over h (dset (h_over h) n c)) else Err AssertionError.

(* halos[mask] for a boolean column, base/catalog.py 296-330: all columns are set in the new object *)
Definition hcols (h : halos) : list str := nodup str_eq_dec (hard ++ map fst (h_over h)).
Definition pick {A} (m : list bool) (l : list A) : list A := map snd (filter fst (combine m l)).
Definition slice (h : halos) (mask : list (list bool)) : res halos :=
  if list_eq_dec Nat.eq_dec (map (@length bool) mask) (h_sizes h) then
    let! cols := rall (map (fun n => let! c := getcol h n in Ok (n, zipr pick mask c)) (hcols h)) in
    Ok {| h_src := h_src h; h_cosmo := h_cosmo h; h_attrs := h_attrs h; h_over := cols;
          h_sizes := map (fun m => length (filter (fun b : bool => b) m)) mask |}
  else Err KeyError.

(* ---- to_halotools, 143-200 ---- *)
Inductive kval := KNums (l : list num) | KInts (l : list Z) | KVal (v : hval) | KCosmo (c : cosmology).
Definition comp (i : nat) (c : cell) : res num :=
  match c, i with Ve x _ _, 0%nat => Ok x | Ve _ y _, 1%nat => Ok y | Ve _ _ z, 2%nat => Ok z | _, _ => Err IndexError end.
Definition scalar (c : cell) : res num := match c with Sc x => Ok x | Ve _ _ _ => Err OutOfContract end.
(* one rank; its rows of the columns, its part of Index, its number of rows *)
Definition table (mkey rkey : str) (cosmo : cosmology) (redshift box pm mdef : hval)
  (pos vel mass rad con : list cell) (index : list Z) (size : nat) : res (list (str * kval)) :=
  let! x := rall (map (comp 0) pos) in
  let! y := rall (map (comp 1) pos) in
  let! z := rall (map (comp 2) pos) in
  let! vx := rall (map (comp 0) vel) in
  let! vy := rall (map (comp 1) vel) in
  let! vz := rall (map (comp 2) vel) in
  let! m := rall (map scalar mass) in
  let! r := rall (map scalar rad) in
  let! c := rall (map scalar con) in
  Ok (fold_left (fun d kv => dset d (fst kv) (snd kv))
   [(s_ "halo_x", KNums x); (s_ "halo_y", KNums y); (s_ "halo_z", KNums z);
    (s_ "halo_vx", KNums vx); (s_ "halo_vy", KNums vy); (s_ "halo_vz", KNums vz);
    (mkey, KNums m); (rkey, KNums r); (s_ "halo_nfw_conc", KNums c);
    (s_ "halo_id", KInts index); (s_ "halo_hostid", KInts index);
    (s_ "halo_upid", KInts (map (fun _ => -1) pos)); (s_ "halo_local_id", KInts (map Z.of_nat (seq 0 size)));
    (s_ "cosmology", KCosmo cosmo); (s_ "redshift", KVal redshift); (s_ "Lbox", KVal box);
    (s_ "particle_mass", KVal pm); (s_ "mdef", KVal mdef)] []).
Definition part {A} (l : list (list A)) (r : nat) : list A := nth r l [].
Definition to_halotools (h : halos) (BoxSize : option hval) : res (list (list (str * kval))) :=
  if Nat.eqb (list_sum (h_sizes h)) 0 then Err ValueError else                     (* 164-165 *)
  let! box := match BoxSize with                                                   (* 168-171 *)
              | Some b => Ok b
              | None => match dget (h_attrs h) (s_ "BoxSize") with Some b => Ok b | None => Err ValueError end
              end in
  let! pos := getcol h (s_ "Position") in                                          (* 174-176 *)
  let! vel := getcol h (s_ "Velocity") in
  let! mass := getcol h (s_ "Mass") in
  let! rad := getcol h (s_ "Radius") in
  let! con := getcol h (s_ "Concentration") in
  let! mkey := attr_str h (s_ "halo_mass_key") in                                  (* 179-180 *)
  let! rkey := attr_str h (s_ "halo_radius_key") in
  let index := index_column (map Z.of_nat (h_sizes h)) in                          (* 183 *)
  let! z := attr h (s_ "redshift") in
  let pm := match dget (h_attrs h) (s_ "particle_mass") with Some v => v | None => HNum 1 end in
  let! mdef := attr h (s_ "mdef") in
  rall (map (fun r => table mkey rkey (h_cosmo h) z box pm mdef (part pos r) (part vel r) (part mass r) (part rad r) (part con r) (part index r) (nth r (h_sizes h) O))
            (seq 0 (length (h_sizes h)))).

(* ---- FOF.to_halos ---- *)
(* the source of the particles: three axes of Position and Velocity, other columns, and the labels found *)
Record particles := {
  p_labels : list (list Z); p_pos : list (list (list Qc)); p_vel : option (list (list (list Qc)));
  p_cols : list (str * list (list Qc)); p_attrs : dict
}.
Variable argsort : list Z -> list nat.

Fixpoint zip3 (a b c : list num) : list cell :=
  match a, b, c with x :: a, y :: b, z :: c => Ve x y z :: zip3 a b c | _, _, _ => [] end.
(* centerofmass of the three axes *)
Definition centers (labels : list (list Z)) (v : list (list (list Qc))) (box : list (option Qc)) : res (list cell) :=
  match v, box with
  | [vx; vy; vz], [bx; by_; bz] =>
      let! x := centerofmass argsort labels vx bx in
      let! y := centerofmass argsort labels vy by_ in
      let! z := centerofmass argsort labels vz bz in
      Ok (zip3 x y z)
  | _, _ => Err OutOfContract
  end.
Definition open_box : list (option Qc) := [None; None; None].
Record frow := { f_pos : cell; f_vel : cell; f_len : Z; f_peak : option (cell * cell) }.
Fixpoint frows (pos vel : list cell) (len : list Z) (peak : option (list cell * list cell)) : list frow :=
  match pos, vel, len with
  | p :: pos, v :: vel, n :: len =>
      match peak with
      | None => {| f_pos := p; f_vel := v; f_len := n; f_peak := None |} :: frows pos vel len None
      | Some (q :: qs, w :: ws) => {| f_pos := p; f_vel := v; f_len := n; f_peak := Some (q, w) |} :: frows pos vel len (Some (qs, ws))
      | Some _ => []
      end
  | _, _, _ => []
  end.
(* fof_catalog, 427-533, with the default names of columns *)
Definition fof_catalog (p : particles) (peakcolumn : option str) (periodic : bool) : res (list (list frow)) :=
  match p_vel p with
  | None => Err ValueError                                                         (* 474-476 *)
  | Some vel =>
    let! n := fof_length (p_labels p) in                                           (* 479, 522-523 *)
    let! box := (if periodic then                                                  (* 481-487 *)
                   match dget (p_attrs p) (s_ "BoxSize") with
                   | None => Err ValueError
                   | Some (HBox l) => Ok (map Some l)
                   | Some _ => Err OutOfContract
                   end
                 else Ok open_box) in
    let! hpos := centers (p_labels p) (p_pos p) box in                             (* 490 *)
    let! hvel := centers (p_labels p) vel open_box in                              (* 493 *)
    let! peak := match peakcolumn with                                             (* 500-514 *)
                 | None => Ok None
                 | Some col =>
                     match dget (p_cols p) col with
                     | None => Err AssertionError
                     | Some density =>
                         let! label1 := peak_labels argsort (p_labels p) density in
                         let! ppos := centers label1 (p_pos p) box in
                         let! pvel := centers label1 vel open_box in
                         Ok (Some (ppos, pvel))
                     end
                 end in
    scatter_array 0 (length (p_labels p)) (frows hpos hvel n peak) None            (* 533 *)
  end.
Inductive posdef := PCm | PPeak | POther.
Definition reserved : list str := [s_ "self"; s_ "data"; s_ "comm"].
(* 169-195; fattrs: self.attrs of the FOF object *)
Definition to_halos (p : particles) (fattrs : dict) (periodic : bool) (particle_mass : Qc) (cosmo : cosmology) (redshift : Qc) (mdef : str)
  (pd : posdef) (peakcolumn : str) : res halos :=
  match pd with
  | POther => Err AssertionError
  | _ =>
    let attrs := dset (dupdate (p_attrs p) fattrs) (s_ "particle_mass") (HNum particle_mass) in   (* 172-174 *)
    let peak := match pd with PCm => None | _ => Some peakcolumn end in
    let! data := fof_catalog p peak periodic in                                     (* 182 *)
    let data := map (filter (fun r => 0 <? f_len r)) data in                        (* 183 *)
    if existsb (fun k => match dget attrs k with Some _ => true | None => false end) reserved then Err TypeError else   (* 184: **attrs *)
    let col {A} (f : frow -> A) : list (list A) := map (map f) data in
    let pos r := match f_peak r with Some qw => fst qw | None => f_pos r end in
    let vel r := match f_peak r with Some qw => snd qw | None => f_vel r end in
    let mass := col (fun r => Sc (Some (particle_mass * zq (f_len r))%Qc)) in       (* 192 *)
    let src := {| s_catalog := true; s_sizes := map (@length frow) data; s_attrs := dupdate [] attrs;
                  s_cols := [(s_ "Position", col pos); (s_ "Velocity", col vel); (s_ "Mass", mass);
                             (s_ "CMPosition", col f_pos); (s_ "CMVelocity", col f_vel); (s_ "Length", col (fun r => Sc (Some (zq (f_len r)))))] |} in
    new_halos src cosmo redshift mdef (Some (s_ "Mass")) (Some (s_ "Position")) (Some (s_ "Velocity"))
  end.
End Halos.
