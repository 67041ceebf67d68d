(* Model of painting a catalog to a mesh: CatalogMesh.to_real_field
   (source/mesh/catalog.py:155-403) and MultipleSpeciesCatalogMesh.to_real_field
   (source/mesh/species.py:110-182).

   Numbers are exact rationals.  A field is a function of the cell number.  pmesh's
   decompose, exchange and paint are summed up by `kern`: what a particle of unit mass
   adds to each cell, once, wherever it is sent.  Logging is left out. *)
From Verif Require Import Base Num DistModel.
Local Open Scope Qc_scope.

Definition field := nat -> Qc.
Definition fzero : field := fun _ => 0.
Definition fadd (f g : field) : field := fun c => f c + g c.

Section Paint.
Variable P : Type.                           (* a position *)
Variable kern kern2 : P -> field.            (* window of the mesh, of the mesh shifted by half a cell *)
Variable ncell : nat.                        (* numpy.prod(pm.Nmesh) *)
Variable volume : Qc.                        (* numpy.prod(pm.BoxSize) *)
(* the Fourier-space average of the two interlaced meshes, 336-350 *)
Variable compose : field -> field -> field.

(* the columns of one rank; None = the argument is None *)
Record columns := {
  position : list P;
  weight : option (list Qc);
  value : option (list Qc);
  selection : option (list bool)
}.
Record particle := { pos : P; w : Qc; v : Qc }.

(* data[sel] *)
Definition pick {A} (sel : option (list bool)) (x : list A) : res (list A) :=
  match sel with
  | None => Ok x                                          (* Ellipsis *)
  | Some m => if (length m =? length x)%nat then Ok (masked x m) else Err IndexError
  end.
Definition oslice {A} (x : option (list A)) (i c : Z) : res (option (list A)) :=
  match x with
  | None => Ok None
  | Some l => let! y := py_slice l (Some i) (Some (i + c)%Z) None in Ok (Some y)
  end.
Definition opick (sel : option (list bool)) (x : option (list Qc)) (n : nat) : res (list Qc) :=
  match x with
  | None => Ok (repeat 1 n)                               (* numpy.ones, 259-263 *)
  | Some l => pick sel l
  end.
Definition particles_of (p : list P) (w v : list Qc) : list particle :=
  map (fun x => {| pos := fst x; w := fst (snd x); v := snd (snd x) |}) (combine p (combine w v)).

(* the data of dochunk, 231-263; lay.exchange and w * v need equal lengths *)
Definition chunk (r : columns) (i c : Z) : res (list particle) :=
  if (zlen (position r) =? 0)%Z then Ok []
  else
    let! p := py_slice (position r) (Some i) (Some (i + c)%Z) None in
    let! ws := oslice (weight r) i c in
    let! vs := oslice (value r) i c in
    let! sel := oslice (selection r) i c in
    let! p := pick sel p in
    let! vs := opick sel vs (length p) in
    let! ws := opick sel ws (length p) in
    if (length ws =? length p)%nat && (length vs =? length p)%nat then Ok (particles_of p ws vs) else Err ValueError.

Record sums := { sN : Z; sW : Qc; sW2 : Qc }.            (* Nlocal, Wlocal, W2local *)
Definition szero := {| sN := 0; sW := 0; sW2 := 0 |}.
Definition sadd (a : sums) (ps : list particle) : sums :=
  {| sN := sN a + zlen ps; sW := sW a + qsum (map w ps); sW2 := sW2 a + qsum (map (fun p => w p * w p) ps) |}.

(* pm.paint(p, mass=w*v, hold=True, out=f) with the particles of one rank *)
Definition paint (k : P -> field) (f : field) (ps : list particle) : field :=
  fold_left (fun f p => fadd f (fun c => w p * v p * k (pos p) c)) ps f.

Record state := { real1 : field; real2 : field; locals : list sums }.

(* the loop, 300-332.  throttle n says whether, in the n-th attempt, some rank would receive
   too many particles (282-286; decided before anything is painted).
   int(chunksize * 1.5) is exact for the sizes in use. *)
Fixpoint loop (fuel : nat) (throttle : nat -> bool) (attempt : nat) (max_chunk : Z) (interlaced : bool)
         (ranks : list columns) (nmax i chunksize : Z) (s : state) : res state :=
  if (i <? nmax)%Z then
    match fuel with
    | O => Err OutOfFuel
    | S fuel =>
        let! parts := rall (map (fun r => chunk r i chunksize) ranks) in
        if throttle attempt then
          let half := (chunksize / 2)%Z in
          if (half <? 1)%Z then Err RuntimeError
          else loop fuel throttle (S attempt) max_chunk interlaced ranks nmax i half s
        else
          let s' := {| real1 := fold_left (paint kern) parts (real1 s);
                       real2 := if interlaced then fold_left (paint kern2) parts (real2 s) else real2 s;
                       locals := map (fun lp => sadd (fst lp) (snd lp)) (combine (locals s) parts) |} in
          loop fuel throttle (S attempt) max_chunk interlaced ranks nmax (i + chunksize)
               (Z.min max_chunk (chunksize * 3 / 2)) s'
    end
  else Ok s.

(* what is returned: the field and its attrs; None is nan or inf *)
Record result := { cells : field; aN : Z; aW : Qc; aW2 : Qc; nbar : Qc; shotnoise : option Qc }.

Definition qdiv (a b : Qc) : option Qc := if Qc_eq_dec b 0 then None else Some (a / b).
Definition qpos (a : Qc) : bool := if Qclt_le_dec 0 a then true else false.

(* attempts between two successes: at most log2 of the chunk size, so this is enough *)
Definition paint_fuel (nmax max_chunk : Z) : nat := Z.to_nat (nmax * (max_chunk + 1)).

Definition to_real_field (throttle : nat -> bool) (max_chunk : Z) (interlaced normalize : bool)
           (out : option field) (ranks : list columns) : res result :=
  let toret := match out with Some f => f | None => fzero end in
  let nmax := fold_right Z.max 0%Z (map (fun r => zlen (position r)) ranks) in
  let! s := loop (paint_fuel nmax max_chunk) throttle 0 max_chunk interlaced ranks nmax 0 max_chunk
                 {| real1 := if interlaced then fzero else toret; real2 := fzero;
                    locals := map (fun _ => szero) ranks |} in
  let f := if interlaced then fadd toret (compose (real1 s) (real2 s)) else real1 s in
  let N := fold_right Z.add 0%Z (map sN (locals s)) in                       (* allreduce, 357-364 *)
  let W := qsum (map sW (locals s)) in
  let W2 := qsum (map sW2 (locals s)) in
  let nb := W / nq ncell in                                                  (* 367 *)
  Ok {| cells := if normalize then (if qpos nb then fun c => f c / nb else fun _ => 1) else f;   (* 394-398 *)
        aN := N; aW := W; aW2 := W2; nbar := nb;
        shotnoise := match qdiv W2 (W * W) with Some x => Some (volume * x) | None => None end |}.  (* 378 *)

(* ---- several species, species.py:110-182 ---- *)
(* one species: its throttle pattern and its ranks.  `self[name]` (76-108) is a mesh with the
   same parameters *)
Definition species := ((nat -> bool) * list columns)%type.
Fixpoint species_loop (max_chunk : Z) (interlaced : bool) (l : list species) (real : field) (acc : list result)
  : res (field * list result) :=
  match l with
  | [] => Ok (real, acc)
  | (thr, ranks) :: l =>
      let! r := to_real_field thr max_chunk interlaced false (Some real) ranks in    (* 153 *)
      species_loop max_chunk interlaced l (cells r) (acc ++ [r])
  end.

Record species_result := {
  s_cells : field; s_N : Z; s_nbar : Qc; s_shotnoise : option Qc; s_each : list result
}.
(* option arithmetic: nan absorbs *)
Definition oplus (a b : option Qc) : option Qc :=
  match a, b with Some x, Some y => Some (x + y) | _, _ => None end.

Definition species_field (max_chunk : Z) (interlaced normalize : bool) (l : list species) : res species_result :=
  let! fr := species_loop max_chunk interlaced l fzero [] in
  let '(real, rs) := fr in
  let nb := qsum (map nbar rs) in                                            (* 156 *)
  let total := qsum (map aW rs) in                                           (* 173 *)
  Ok {| s_cells := if normalize then (fun c => real c / nb) else real;       (* 163-164 *)
        s_N := fold_right Z.add 0%Z (map aN rs); s_nbar := nb;
        s_shotnoise := fold_left (fun acc r =>
             oplus acc (match qdiv (aW r) total, shotnoise r with
                        | Some x, Some p => Some (x * x * p)
                        | _, _ => None
                        end)) rs (Some 0);                                   (* 172-178 *)
        s_each := rs |}.
End Paint.
Arguments position {P} _.
Arguments weight {P} _.
Arguments value {P} _.
Arguments selection {P} _.
Arguments pos {P} _.
Arguments w {P} _.
Arguments v {P} _.
