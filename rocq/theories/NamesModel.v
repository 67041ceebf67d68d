(* Names: columns of multi-species catalogs (source/catalog/species.py), codes of
   galaxy types (source/catalog/halos.py), excluded data sets (io/hdf.py).
   Strings are lists of characters. *)
From Coq Require Import Ascii String.
From Verif Require Import Base.
Local Open Scope nat_scope.

Definition str := list ascii.
Definition s_ (s : string) : str := list_ascii_of_string s.
Definition slash : ascii := "/"%char.

Definition str_eq_dec : forall a b : str, {a = b} + {a <> b} := list_eq_dec ascii_dec.
Definition str_eqb (a b : str) : bool := if str_eq_dec a b then true else false.
Definition mem (a : str) (l : list str) : bool := existsb (str_eqb a) l.

(* s.split('/') *)
Fixpoint split_slash (s : str) : list str :=
  match s with
  | [] => [[]]
  | c :: s =>
      if ascii_dec c slash then [] :: split_slash s
      else match split_slash s with
           | [] => [[c]]               (* not reached *)
           | w :: ws => (c :: w) :: ws
           end
  end.

(* s.startswith(p) *)
Fixpoint starts (p s : str) : bool :=
  match p, s with
  | [], _ => true
  | _, [] => false
  | a :: p, b :: s => if ascii_dec a b then starts p s else false
  end.

(* s.lstrip('/') *)
Fixpoint lstrip (s : str) : str :=
  match s with
  | [] => []
  | c :: s' => if ascii_dec c slash then lstrip s' else s
  end.

(* os.path.join(a, b) *)
Definition ends_slash (s : str) : bool := match rev s with c :: _ => if ascii_dec c slash then true else false | [] => false end.
Definition path_join (a b : str) : str :=
  match b with
  | c :: _ => if ascii_dec c slash then b
              else match a with [] => b | _ => if ends_slash a then a ++ b else a ++ slash :: b end
  | [] => match a with [] => [] | _ => if ends_slash a then a else a ++ [slash] end
  end.

(* a < b for strings (code points) *)
Fixpoint str_ltb (a b : str) : bool :=
  match a, b with
  | _, [] => false
  | [], _ :: _ => true
  | x :: a, y :: b =>
      let nx := nat_of_ascii x in let ny := nat_of_ascii y in
      if nx <? ny then true else if ny <? nx then false else str_ltb a b
  end.
Fixpoint insert_str (x : str) (l : list str) : list str :=
  match l with
  | [] => [x]
  | y :: l => if str_ltb y x then y :: insert_str x l else x :: y :: l
  end.
Definition sorted (l : list str) : list str := fold_right insert_str [] l.

(* ---- association lists keyed by strings ---- *)
Section Dict.
Context {V : Type}.
Fixpoint dget (d : list (str * V)) (k : str) : option V :=
  match d with
  | [] => None
  | (x, v) :: d => if str_eq_dec x k then Some v else dget d k
  end.
Fixpoint dset (d : list (str * V)) (k : str) (v : V) : list (str * V) :=
  match d with
  | [] => [(k, v)]
  | (x, w) :: d => if str_eq_dec x k then (x, v) :: d else (x, w) :: dset d k v
  end.
Fixpoint ddel (d : list (str * V)) (k : str) : list (str * V) :=
  match d with
  | [] => []
  | (x, w) :: d => if str_eq_dec x k then ddel d k else (x, w) :: ddel d k
  end.
End Dict.

(* ---- species ---- *)
Section Species.
Variable A : Type.

(* One species: its size, the columns that come with it (they cannot be
   deleted) and the columns set later, which win.  Default columns (base/
   catalog.py @column) are left out. *)
Record cat := { c_size : nat; c_hard : list (str * list A); c_over : list (str * list A) }.

(* CatalogSourceBase.__getitem__ of a column name *)
Definition cat_get (c : cat) (n : str) : res (list A) :=
  match dget (c_over c) n with
  | Some v => Ok v
  | None => match dget (c_hard c) n with Some v => Ok v | None => Err ValueError end
  end.

Inductive value := Scalar (a : A) | Array (l : list A).

(* CatalogSourceBase.__setitem__ after the size check *)
Definition cat_set (c : cat) (n : str) (v : value) : cat :=
  {| c_size := c_size c; c_hard := c_hard c;
     c_over := dset (c_over c) n (match v with Scalar a => repeat a (c_size c) | Array l => l end) |}.

(* CatalogSourceBase.__delitem__, base/catalog.py 406-426 *)
Definition cat_columns (c : cat) : list str :=
  nodup str_eq_dec (map fst (c_hard c) ++ map fst (c_over c)).
Definition cat_del (c : cat) (n : str) : res cat :=
  if negb (mem n (cat_columns c)) then Err ValueError else
  if mem n (map fst (c_hard c)) then Err ValueError else
  match dget (c_over c) n with
  | Some _ => Ok {| c_size := c_size c; c_hard := c_hard c; c_over := ddel (c_over c) n |}
  | None => Err ValueError
  end.

(* MultipleSpeciesCatalog: attrs['species'] and _sources *)
Record multi := { m_species : list str; m_sources : list (str * cat) }.

(* __init__, species.py 57-86 (communicators and attrs left out) *)
Definition multi_init (names : list str) (cats : list cat) : res multi :=
  if negb (length (nodup str_eq_dec names) =? length names) then Err ValueError else
  if negb (length names =? length cats) then Err ValueError else
  Ok {| m_species := names; m_sources := combine names cats |}.

(* split_column, species.py 248-262 *)
Definition split_column (col : str) (species : list str) : res (str * str) :=
  match split_slash col with
  | [s; c] => if mem s species then Ok (s, c) else Err ValueError
  | _ => Err ValueError
  end.

Definition source (m : multi) (s : str) : res cat :=
  match dget (m_sources m) s with Some c => Ok c | None => Err KeyError end.

Inductive item := ISpecies (c : cat) | IColumn (l : list A).

(* __getitem__ with a string key, species.py 114-131 *)
Definition multi_get (m : multi) (key : str) : res item :=
  if mem key (m_species m) then let! c := source m key in Ok (ISpecies c) else
  let! sc := split_column key (m_species m) in
  let! c := source m (fst sc) in
  let! l := cat_get c (snd sc) in Ok (IColumn l).

(* __setitem__, species.py 133-151 *)
Definition multi_set (m : multi) (col : str) (v : value) : res multi :=
  let! sc := split_column col (m_species m) in
  let! c := source m (fst sc) in
  if match v with Scalar _ => false | Array l => negb (length l =? c_size c) end then Err ValueError else
  Ok {| m_species := m_species m; m_sources := dset (m_sources m) (fst sc) (cat_set c (snd sc) v) |}.

(* __delitem__, species.py 153-159 *)
Definition multi_del (m : multi) (col : str) : res multi :=
  let! sc := split_column col (m_species m) in
  let! c := source m (fst sc) in
  let! c' := cat_del c (snd sc) in
  Ok {| m_species := m_species m; m_sources := dset (m_sources m) (fst sc) c' |}.

(* columns, species.py 95-103 *)
Definition multi_columns (m : multi) : list str :=
  flat_map (fun s => match dget (m_sources m) s with
                     | Some c => map (fun col => s ++ slash :: col) (cat_columns c)
                     | None => [] end) (m_species m).

(* a history of assignments and deletions; failing operations change nothing *)
Inductive mop := MSet (col : str) (v : value) | MDel (col : str).
Definition mstep (m : multi) (o : mop) : multi :=
  match (match o with MSet c v => multi_set m c v | MDel c => multi_del m c end) with
  | Ok m' => m' | Err _ => m end.
Definition mexec (m : multi) (l : list mop) : multi := fold_left mstep l m.
End Species.

Arguments cat_get {A} _ _.
Arguments cat_set {A} _ _ _.
Arguments cat_del {A} _ _.
Arguments cat_columns {A} _.
Arguments multi_get {A} _ _.
Arguments multi_set {A} _ _ _.
Arguments multi_del {A} _ _.
Arguments multi_columns {A} _.
Arguments multi_init {A} _ _.
Arguments mexec {A} _ _.
Arguments mstep {A} _ _.
Arguments source {A} _ _.
Arguments m_species {A} _.
Arguments m_sources {A} _.
Arguments c_size {A} _.
Arguments c_hard {A} _.
Arguments c_over {A} _.
Arguments Scalar {A} _.
Arguments Array {A} _.
Arguments MSet {A} _ _.
Arguments MDel {A} _.
Arguments ISpecies {A} _.
Arguments IColumn {A} _.

(* check_species_metadata, species.py 226-246; eqv is numpy.equal(., .).all() *)
Definition dot : ascii := "."%char.
Definition check_species_metadata {V} (eqv : V -> V -> bool) (name : str) (attrs : list (str * V)) (species : list str) : res V :=
  let opt k := match dget attrs k with Some v => [v] | None => [] end in
  let vals := opt name ++ flat_map (fun s => opt (s ++ dot :: name)) species in
  match vals with
  | [] => Err ValueError
  | v :: _ => if forallb (eqv v) vals then Ok v else Err ValueError
  end.

(* ---- galaxy types ---- *)
(* _enum_gal_types, halos.py 431-440: the code of one entry of the column; the
   loop overwrites, so the last match wins *)
Fixpoint enum_loop (i : nat) (l : list str) (g : str) (code : nat) : nat :=
  match l with
  | [] => code
  | t :: l => enum_loop (S i) l g (if str_eq_dec g t then i + 1 else code)
  end.
Definition gal_code (types : list str) (g : str) : nat := enum_loop 0 (sorted (tl types)) g 0.
(* attrs['gal_types'], halos.py 388: {t: i for i, t in enumerate(gal_types)} *)
Fixpoint gal_map (i : nat) (l : list str) (d : list (str * nat)) : list (str * nat) :=
  match l with [] => d | t :: l => gal_map (S i) l (dset d t i) end.
Definition gal_attr (types : list str) (t : str) : option nat := dget (gal_map 0 types []) t.

(* ---- excluded data sets ---- *)
(* hdf.py 82-91: an excluded name is taken as it is if the file has it, otherwise
   relative to the root; infile is membership in the file *)
Definition exclude_name (infile : str -> bool) (root : str) (e : str) : res str :=
  if infile e then Ok (lstrip e)
  else if infile (path_join root e) then Ok (lstrip (path_join root e)) else Err ValueError.
(* hdf.py 93-99: the header is appended as it is *)
Definition exclude_names (infile : str -> bool) (root : str) (ex : list str) (header : option str) : res (list str) :=
  let! l := rall (map (exclude_name infile root) ex) in
  match header with
  | None => Ok l
  | Some hd => if infile hd then Ok (l ++ [hd]) else Err ValueError
  end.
(* hdf.py 78-79, 108-113: which of the columns found below the root remain *)
Definition hdf_columns (infile : str -> bool) (root : str) (ex : list str) (header : option str) (found : list str) : res (list str) :=
  if negb (infile root) then Err ValueError else
  let! l := exclude_names infile root ex header in
  Ok (filter (fun col => negb (existsb (fun e => starts e (lstrip (path_join root col))) l)) found).
