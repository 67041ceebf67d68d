(* Model of the pair counts on the sky, over the real numbers: nbodykit/algorithms/pair_counters/mocksurvey.py (94-190),
   domain.py decompose_survey_data (135-283) and get_cartesian (285-318), corrfunc/mocks.py, the argument checks of base.py (11-33),
   and the angular mode of simbox.py (181-200, 227-266).

   Catalogs are given by the positions and weights of all ranks, one after the other; a layout lists for every rank the global
   indices of the objects it receives.  In angular mode positions have two columns, here a third one equal to 1.
   External: GridND (a function giving layouts), Corrfunc (a function giving the bin and the separation of two objects),
   cosmo.comoving_distance.  Averages over pairs are represented by sums: merging averages is C17. *)
From Verif Require Import Base.
From Coq Require Import Reals String.
From Verif Require Import RandModel ThreeModel SkyModel.
Local Open Scope R_scope.
Local Notation length := List.length.

Inductive smode := S1d | S2d | Sproj | Sang.
Definition deg2rad := SkyModel.deg2rad.
Definition lmin (l : list R) : R := fold_right Rmin (hd 0 l) l.
Definition lmax (l : list R) : R := fold_right Rmax (hd 0 l) l.
Definition px (p : point) : R := fst (fst p).
Definition py (p : point) : R := snd (fst p).
Definition pz (p : point) : R := snd p.
Definition lift1 (f : R -> R) (p : point) : point := (f (px p), f (py p), f (pz p)).
Definition lift2 (f : R -> R -> R) (p q : point) : point := (f (px p) (px q), f (py p) (py q), f (pz p) (pz q)).
Definition bmin (l : list point) : point := (lmin (map px l), lmin (map py l), lmin (map pz l)).
Definition bmax (l : list point) : point := (lmax (map px l), lmax (map py l), lmax (map pz l)).

(* get_cartesian 294-318: the Cartesian position of (ra, dec, z) *)
Definition cart (cosmo : option (R -> R)) (p : point) : point :=
  let u := unit_sphere (deg2rad (px p)) (deg2rad (py p)) in
  match cosmo with Some D => lift1 (Rmult (D (pz p))) u | None => u end.
(* 205-208: the comoving distance in place of the redshift *)
Definition with_distance (cosmo : option (R -> R)) (p : point) : point := (px p, py p, match cosmo with Some D => D (pz p) | None => 1 end).
Definition pad_lo (lo hi : point) : point := lift2 (fun a b => a - / 1000 * Rabs (b - a)) lo hi.
Definition pad_hi (lo hi : point) : point := lift2 (fun a b => b + / 1000 * Rabs (b - a)) lo hi.
(* without objects the bounds are infinite and the grid is not a number *)
Definition get_cartesian (cosmo : option (R -> R)) (pos : list point) : res (list point * point * point) :=
  match pos with
  | [] => Err OutOfContract
  | _ => let cpos := map (cart cosmo) pos in let lo := bmin cpos in let hi := bmax cpos in Ok (cpos, pad_lo lo hi, pad_hi lo hi)
  end.

(* layout.exchange *)
Definition exchange {A} (layout : list (list nat)) (a : list A) : list (list A) :=
  map (flat_map (fun i => match nth_error a i with Some v => [v] | None => [] end)) layout.
Notation catalog := (list point * list R)%type.

Section Decompose.
Variable nranks : nat.
(* GridND on the box lo, hi, balanced for the positions load; decompose(pos, smoothing) *)
Variable domain : point -> point -> list point -> list point -> R -> list (list nat).
Definition decompose_survey_data (angular : bool) (cosmo : option (R -> R)) (smoothing : R) (first : catalog) (second : option catalog)
  : res (list (list point) * list (list R) * (list (list point) * list (list R))) :=
  let cosmo := if angular then None else cosmo in                                          (* 200 *)
  if match cosmo with None => negb angular | Some _ => false end then Err ValueError else  (* 201-202 *)
  let '(pos1, w1) := first in
  let! c1 := get_cartesian cosmo pos1 in let '(cpos1, lo1, hi1) := c1 in                   (* 203 *)
  let pos1 := map (with_distance cosmo) pos1 in                                            (* 206-208 *)
  let! c2 := match second with
             | Some (pos2, w2) => let! c := get_cartesian cosmo pos2 in Ok (map (with_distance cosmo) pos2, w2, c)   (* 211-224 *)
             | None => Ok (pos1, w1, (cpos1, lo1, hi1))                                    (* 226-231 *)
             end in
  let '(pos2, w2, (cpos2, lo2, hi2)) := c2 in
  let lo := lift2 Rmin lo1 lo2 in let hi := lift2 Rmax hi1 hi2 in                          (* 234-239 *)
  let boxsize := lift2 Rminus hi lo in                                                     (* 241 *)
  let grid := domain lo hi cpos1 in                                                        (* 248-256 *)
  let layout := grid cpos1 0 in                                                            (* 267 *)
  let out1 := (exchange layout pos1, exchange layout w1) in                                (* 268-269 *)
  let out2 := if rltb (lmax [px boxsize; py boxsize; pz boxsize] * / 4) smoothing          (* 272 *)
              then (repeat pos2 nranks, repeat w2 nranks)
              else let layout := grid cpos2 smoothing in (exchange layout pos2, exchange layout w2) in
  Ok (fst out1, snd out1, out2).

(* Corrfunc: the bin of a pair, if any, and its separation; per bin the number of pairs, and the sums of separations and weights *)
Variable bin : point -> point -> option nat.
Variable sep : point -> point -> R.
Definition in_bin (b : nat) (p q : point) : bool := match bin p q with Some c => Nat.eqb c b | None => false end.
Definition bin_sum (f : point * R -> point * R -> R) (b : nat) (a c : list (point * R)) : R :=
  rsum (map (fun p => rsum (map (fun q => if in_bin b (fst p) (fst q) then f p q else 0) c)) a).
Definition corrfunc (pos1 : list point) (w1 : list R) (pos2 : list point) (w2 : list R) (b : nat) : R * R * R :=
  let a := combine pos1 w1 in let c := combine pos2 w2 in
  (bin_sum (fun _ _ => 1) b a c, bin_sum (fun p q => sep (fst p) (fst q)) b a c, bin_sum (fun p q => snd p * snd q) b a c).
Definition add3r (a b : R * R * R) : R * R * R := lift2 Rplus a b.
Fixpoint zip4 {A B C D} (a : list A) (b : list B) (c : list C) (d : list D) : list (A * B * C * D) :=
  match a, b, c, d with x :: a, y :: b, z :: c, t :: d => (x, y, z, t) :: zip4 a b c d | _, _, _, _ => [] end.
Definition count_pairs (nbins : nat) (parts : list (list point) * list (list R) * (list (list point) * list (list R))) : list (R * R * R) :=
  let '(p1, w1, (p2, w2)) := parts in
  map (fun b => fold_right add3r (0, 0, 0) (map (fun r => let '(p1, w1, p2, w2) := r in corrfunc p1 w1 p2 w2 b) (zip4 p1 w1 p2 w2))) (seq 0 nbins).

(* PairCountBase 13-33, Nmu and pimax given or not *)
Definition survey_check (mode : smode) (edges : list R) (Nmu : option nat) (pimax : option R) : res unit :=
  match edges with
  | [] => Err ValueError
  | _ =>
    if rleb (lmin edges) 0 then Err ValueError else
    match mode, Nmu, pimax with
    | S2d, Some _, None => Ok tt
    | (S1d | Sang), None, None => Ok tt
    | Sproj, None, Some p => if rltb p 1 then Err ValueError else Ok tt
    | _, _, _ => Err ValueError
    end
  end.
Definition smoothing_of (mode : smode) (edges : list R) (pimax : option R) : R :=          (* 159-163 *)
  let s := lmax edges in
  match mode, pimax with
  | Sproj, Some p => sqrt (s * s + p * p)
  | Sang, _ => 2 * sin (/ 2 * deg2rad s)
  | _, _ => s
  end.
Definition SurveyDataPairCount (mode : smode) (edges : list R) (Nmu : option nat) (pimax : option R) (cosmo : option (R -> R)) (nbins : nat)
  (first : catalog) (second : option catalog) : res (list (R * R * R)) :=
  let! _ := survey_check mode edges Nmu pimax in
  let angular := match mode with Sang => true | _ => false end in
  if match cosmo with None => negb angular | Some _ => false end then Err ValueError else  (* 109-110 *)
  let! parts := decompose_survey_data angular cosmo (smoothing_of mode edges pimax) first second in
  Ok (count_pairs nbins parts).

(* simbox.py shift_to_box_center 255-266 *)
Definition all3 (f : (point -> R) -> bool) : bool := f px && f py && f pz.
Definition shift_to_box_center (pos : list point) (L : point) : res (list point) :=
  let lo := bmin pos in let hi := bmax pos in
  match pos with
  | [] => Err OutOfContract
  | _ =>
    if all3 (fun c => rltb 0 (c lo)) && all3 (fun c => rltb (c hi) (c L)) then Ok (map (fun p => lift2 (fun x l => x - / 2 * l) p L) pos)
    else if all3 (fun c => rltb (- / 2 * c L) (c lo)) && all3 (fun c => rltb (c hi) (/ 2 * c L)) then Ok pos
    else Err ValueError
  end.
(* 192, 196: the columns of a catalog after the angular mode; values by column name, only one-dimensional columns *)
Definition after_angular (L : point) (pos : list point) (columns : string -> option (list R)) : res (string -> option (list R)) :=
  let! pos := shift_to_box_center pos L in
  let '(ra, dec) := CartesianToEquatorial pos (0, 0, 0) in
  Ok (fun c => if String.eqb c "ra" then Some ra else if String.eqb c "dec" then Some dec else columns c).
(* 190-195: right ascension and declination seen from the centre, written into the columns ra and dec *)
Definition sky_columns (L : point) (c : catalog) : res catalog :=
  let! pos := shift_to_box_center (fst c) L in
  let '(ra, dec) := CartesianToEquatorial pos (0, 0, 0) in
  Ok (map (fun rd => (fst rd, snd rd, 1)) (combine ra dec), snd c).
Definition BoxAngularPairCount (edges : list R) (L : point) (nbins : nat) (first : catalog) (second : option catalog) : res (list (R * R * R)) :=
  let! _ := survey_check Sang edges None None in
  let! a := sky_columns L first in
  let! b := match second with Some c => let! c := sky_columns L c in Ok (Some c) | None => Ok None end in
  let! parts := decompose_survey_data true None (smoothing_of Sang edges None) a b in
  Ok (count_pairs nbins parts).
End Decompose.
