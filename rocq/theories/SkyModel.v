(* Model of nbodykit/transform.py: StackColumns (5-27), ConcatenateSources (29-85), CartesianToEquatorial (109-171),
   CartesianToSky (173-253), SkyToUnitSphere (255-315), SkyToCartesian (317-359), VectorProjection (484-515),
   over the real numbers.

   dask arrays are lists; frame = 'icrs' (other frames are astropy's).  Reals have no signed zeros, infinities or nan;
   where numpy divides by zero the model gives None.
   External: numpy's elementary functions, cosmo.comoving_distance (an argument), scipy's linear interp1d on
   increasing abscissas. *)
From Verif Require Import Base.
From Coq Require Import Reals String.
From Verif Require Import RandModel ThreeModel.
Local Open Scope R_scope.
Local Notation length := List.length.

(* numpy.broadcast_arrays of one dimensional arrays; a scalar is an array of length 1 *)
Definition broadcast_size (sizes : list nat) : res nat :=
  match filter (fun n => negb (Nat.eqb n 1)) sizes with
  | [] => Ok 1%nat
  | n :: rest => if forallb (Nat.eqb n) rest then Ok n else Err ValueError
  end.
Definition expand {A} (n : nat) (a : list A) : list A := match a with [x] => repeat x n | _ => a end.
Definition broadcast {A} (cols : list (list A)) : res (list (list A)) :=
  let! n := broadcast_size (map (@length A) cols) in Ok (map (expand n) cols).
(* vstack(cols).T: row i holds element i of every column *)
Definition vstackT {A} (cols : list (list A)) : list (list A) :=
  match cols with [] => [] | c :: _ => map (fun i => flat_map (fun col => match nth_error col i with Some x => [x] | None => [] end) cols) (seq 0 (length c)) end.
(* 26-27; without columns numpy.vstack raises ValueError *)
Definition StackColumns {A} (cols : list (list A)) : res (list (list A)) :=
  match cols with [] => Err ValueError | _ => let! cols := broadcast cols in Ok (vstackT cols) end.

(* ConcatenateSources, on one rank: a source is its local size, its columns and its attrs *)
Record source (V T : Type) := { s_comm : nat; s_size : nat; s_cols : list (string * list V); s_attrs : list (string * T) }.
Arguments s_comm {V T}. Arguments s_size {V T}. Arguments s_cols {V T}. Arguments s_attrs {V T}.
Definition col {V T} (s : source V T) (c : string) : option (list V) :=
  match find (fun p => String.eqb (fst p) c) (s_cols s) with Some p => Some (snd p) | None => None end.
Definition colnames {V T} (s : source V T) : list string := map fst (s_cols s).
(* data[col] = ...: a dictionary keeps one entry per name *)
Fixpoint dedup (l : list string) : list string :=
  match l with [] => [] | c :: l => c :: filter (fun d => negb (String.eqb c d)) (dedup l) end.
(* names of parameters of _from_columns (base/catalog.py 907) cannot be keywords *)
Definition reserved (c : string) : bool := existsb (String.eqb c) ["size"; "comm"; "cls"]%string.
(* 60-65: all columns of the first source if none are named *)
Definition wanted {V T} (s0 : source V T) (columns : option (list string)) : list string := match columns with None | Some [] => colnames s0 | Some l => l end.
Definition ConcatenateSources {V T} (sources : list (source V T)) (columns : option (list string)) : res (source V T) :=
  match sources with
  | [] => Err IndexError
  | s0 :: _ =>
    let cols := wanted s0 columns in
    if negb (forallb (fun s => Nat.eqb (s_comm s) (s_comm s0)) sources) then Err ValueError else
    if negb (forallb (fun s => forallb (fun c => existsb (String.eqb c) (colnames s)) cols) sources) then Err ValueError else
    let size := fold_right Nat.add O (map s_size sources) in
    let! data := rall (map (fun c => let! parts := rall (map (fun s => match col s c with Some v => Ok v | None => Err KeyError end) sources) in
                                    Ok (c, List.concat parts)) (dedup cols)) in
    if existsb (fun p => reserved (fst p)) data then Err TypeError else
    if negb (forallb (fun p => Nat.eqb (length (snd p)) size) data) then Err AssertionError else
    Ok {| s_comm := s_comm s0; s_size := size; s_cols := data; s_attrs := s_attrs s0 |}
  end.

(* elementary functions *)
Definition deg2rad (d : R) : R := d * (PI / 180).
Definition rad2deg (t : R) : R := t * (180 / PI).
Definition fmod (x m : R) : R := x - m * IZR (Int_part (x / m)).             (* numpy.mod *)
Definition hypot (x y : R) : R := sqrt (x * x + y * y).
Definition arctan2 (y x : R) : R :=
  if rltb 0 x then atan (y / x) else
  if rltb x 0 then (if rleb 0 y then atan (y / x) + PI else atan (y / x) - PI) else
  if rltb 0 y then PI / 2 else if rltb y 0 then - (PI / 2) else 0.

(* 109-171, for one position *)
Definition equatorial (pos observer : point) : R * R :=
  let '(x, y, z) := minus3 pos observer in
  let s := hypot x y in
  let lon := rad2deg (arctan2 y x) in
  let lat := rad2deg (arctan2 z s) in
  (fmod (lon - 360) 360, lat).
Definition CartesianToEquatorial (pos : list point) (observer : point) : list R * list R :=
  (map (fun p => fst (equatorial p observer)) pos, map (fun p => snd (equatorial p observer)) pos).

(* 255-315 *)
Definition unit_sphere (ra dec : R) : point := (cos dec * cos ra, cos dec * sin ra, sin dec).
Definition zip3 {A} (rows : list (list A)) : list (A * A * A) :=
  flat_map (fun r => match r with [x; y; z] => [(x, y, z)] | _ => [] end) rows.
Definition SkyToUnitSphere (ra dec : list R) (degrees : bool) : res (list point) :=
  let! cols := broadcast [ra; dec] in
  let f v := if degrees then deg2rad v else v in
  match cols with
  | [ra; dec] =>
      let rd := combine (map f ra) (map f dec) in
      let x := map (fun p => cos (snd p) * cos (fst p)) rd in
      let y := map (fun p => cos (snd p) * sin (fst p)) rd in
      let z := map (fun p => sin (snd p)) rd in
      Ok (zip3 (vstackT [x; y; z]))
  | _ => Err ValueError
  end.
(* 317-359 *)
Definition SkyToCartesian (ra dec redshift : list R) (comoving_distance : R -> R) (observer : point) (degrees : bool) : res (list point) :=
  let! cols := broadcast [ra; dec; redshift] in
  match cols with
  | [ra; dec; redshift] =>
      let! pos := SkyToUnitSphere ra dec degrees in
      let r := map comoving_distance redshift in
      Ok (map (fun rp => let '(r, (x, y, z)) := rp in let '(o0, o1, o2) := observer in (r * x + o0, r * y + o1, r * z + o2)) (combine r pos))
  | _ => Err ValueError
  end.

(* 236-240: the grid of redshifts, 0 and 1024 values from 1e-8 to zmax, equal steps of the logarithm *)
Definition log10 (x : R) : R := ln x / ln 10.
Definition logspace (a b : R) (n : nat) : list R := map (fun i => Rpower 10 (a + INR i * ((b - a) / INR (n - 1)))) (seq 0 n).
Definition zgrid (zmax : R) : list R := 0 :: logspace (-8) (log10 zmax) 1024.
(* scipy interp1d(x, y)(v), linear, x increasing: out of range raises ValueError;
   otherwise between elements hi - 1 and hi, hi = clip(searchsorted(x, v), 1, n - 1) *)
Definition interp1d (xs ys : list R) (v : R) : res R :=
  if rltb v (hd 0 xs) || rltb (last xs 0) v then Err ValueError else
  let hi := Nat.max 1 (Nat.min (length xs - 1) (length (filter (fun x => rltb x v) xs))) in
  let lo := (hi - 1)%nat in
  let slope := (nth hi ys 0 - nth lo ys 0) / (nth hi xs 0 - nth lo xs 0) in
  Ok (slope * (v - nth lo xs 0) + nth lo ys 0).
Definition norm3 (p : point) : R := let '(x, y, z) := p in sqrt (x * x + y * y + z * z).
Definition dotp (p q : point) : R := let '(x, y, z) := p in let '(u, v, w) := q in x * u + y * v + z * w.
Definition z_from_comoving_distance (comoving_distance : R -> R) (zmax x : R) : res R :=
  interp1d (map comoving_distance (zgrid zmax)) (zgrid zmax) x.
(* 228-253, for one position; c_light is the speed of light in km/s; None is nan *)
Definition c_light : R := 299792.458.
Definition sky (comoving_distance : R -> R) (observer : point) (zmax : R) (pos : point) (velocity : option point) : res (R * R * option R) :=
  let pos := minus3 pos observer in
  let radec := equatorial pos (0, 0, 0) in
  let r := norm3 pos in
  let! z := z_from_comoving_distance comoving_distance zmax r in
  let z := match velocity with
           | None => Some z
           | Some v => if Req_EM_T r 0 then None else let vpec := dotp pos v / r in Some (z + vpec / c_light * (1 + z))
           end in
  Ok (radec, z).
Definition CartesianToSky (pos : list point) (comoving_distance : R -> R) (velocity : option (list point)) (observer : point) (zmax : R) : res (list (R * R * option R)) :=
  match velocity with
  | None => rall (map (fun p => sky comoving_distance observer zmax p None) pos)
  | Some vel => if Nat.eqb (length vel) (length pos) then rall (map (fun pv => sky comoving_distance observer zmax (fst pv) (Some (snd pv))) (combine pos vel)) else Err ValueError
  end.

(* 484-515; rows of vectors of any dimension, and the general shape of vector *)
Definition dotv (a b : list R) : R := rsum (map (fun p => fst p * snd p) (combine a b)).
Definition normalized (d : list R) : option (list R) := let n := sqrt (dotv d d) in if Req_EM_T n 0 then None else Some (map (fun x => x / n) d).
Definition VectorProjection (vector : list (list R)) (direction : list R) : res (list (list R)) :=
  if negb (forallb (fun v => Nat.eqb (length v) (length direction)) vector) then Err ValueError else
  match normalized direction with
  | None => Err OutOfContract                                                  (* nan *)
  | Some d => Ok (map (fun v => let p := dotv v d in map (fun x => p * x) d) vector)
  end.
(* the shape of the result for vector of shape (..., D): (vector * direction).sum(-1)[:, None] * direction[None, :] *)
Definition broadcast_shape (a b : list nat) : res (list nat) :=
  let n := Nat.max (length a) (length b) in
  let pad l := repeat 1%nat (n - length l) ++ l in
  rall (map (fun p => if Nat.eqb (fst p) (snd p) then Ok (fst p) else if Nat.eqb (fst p) 1 then Ok (snd p) else if Nat.eqb (snd p) 1 then Ok (fst p) else Err ValueError) (combine (pad a) (pad b))).
Definition projection_shape (vector : list nat) (D : nat) : res (list nat) :=
  let! prod := broadcast_shape vector [D] in
  match removelast prod with                                                   (* .sum(axis=-1) *)
  | [] => Err IndexError                                                       (* [:, None] of a scalar *)
  | n :: rest => broadcast_shape (n :: 1%nat :: rest) [1%nat; D]
  end.
