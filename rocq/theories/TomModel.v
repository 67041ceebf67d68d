(* From classes with columns to meshes: nbodykit/base/catalog.py 97-166 (column, ColumnFinder),
   370-391 (__getitem__ with a name), 440-472 (hardcolumns, columns), 509-528 (get_hardcolumn),
   787-873 (to_mesh); base/mesh.py 34-62 (MeshSource.__init__);
   source/mesh/catalog.py 55-150 (CatalogMesh.__init__ and its properties), 406-452 (compensation);
   source/catalog/species.py 57-86, 161-246 (MultipleSpeciesCatalog.__init__, to_mesh).

   Simplifications: numbers in attrs are integers (only their equality is used); the array that a column
   function returns is a value of an arbitrary type; catalogs are not views (self.base is None);
   communicators are left out.  pmesh.window.methods is a parameter. *)
From Coq Require Import Ascii String.
From Verif Require Import Base NamesModel.
Local Open Scope nat_scope.
Local Notation length := List.length.

(* values in attrs *)
Inductive aval := ANone | ANum (x : Z) | AVec (l : list Z) | ABool (b : bool) | AStr (s : str) | ANames (l : list str).

Section Tom.
Variable V : Type.                 (* columns *)

(* ---- classes and their columns ---- *)
(* an attribute of a class: its column_name (None if there is none), is_default, and what calling it returns *)
Record member := { m_column : option str; m_default : bool; m_call : V }.
Definition klass := list (str * member).           (* c.__dict__ *)

(* @column(name, is_default) above a function called fname, 97-125 *)
Definition column (name : option str) (is_default : bool) (fname : str) (v : V) : str * member :=
  (fname, {| m_column := Some (match name with None => fname | Some n => n end); m_default := is_default; m_call := v |}).
(* a function without the decorator *)
Definition plain (fname : str) (v : V) : str * member :=
  (fname, {| m_column := None; m_default := false; m_call := v |}).

(* ColumnFinder.__init__, 145-165; mro lists the class first and its bases after it.
   The two sets are lists *)
Definition note (r : list str * list str) (nm : str * member) : list str * list str :=
  match m_column (snd nm) with
  | Some (a :: n) => if m_default (snd nm) then ((a :: n) :: fst r, snd r) else (fst r, (a :: n) :: snd r)
  | _ => r                        (* no column_name, or an empty one *)
  end.
Definition finder (mro : list klass) : list str * list str :=
  fold_left (fun r c => fold_left note c r) (rev mro) ([], []).

(* getattr(self, n)() *)
Fixpoint call_attr (mro : list klass) (n : str) : res V :=
  match mro with
  | [] => Err AttributeError
  | c :: mro => match dget c n with Some m => Ok (m_call m) | None => call_attr mro n end
  end.

Record inst := { i_mro : list klass; i_over : list (str * V); i_attrs : list (str * aval) }.

Definition hardcolumns (i : inst) : list str := sorted (nodup str_eq_dec (snd (finder (i_mro i)))).
Definition columns (i : inst) : list str :=
  sorted (nodup str_eq_dec (hardcolumns i ++ map fst (i_over i) ++ fst (finder (i_mro i)))).

Definition get_hardcolumn (i : inst) (col : str) : res V :=
  if mem col (snd (finder (i_mro i))) then call_attr (i_mro i) col else Err ValueError.

(* self[sel] for a name: the column and its is_default *)
Definition getitem (i : inst) (sel : str) : res (V * bool) :=
  match dget (i_over i) sel with
  | Some v => Ok (v, false)
  | None =>
      if mem sel (hardcolumns i) then let! v := get_hardcolumn i sel in Ok (v, false)
      else if mem sel (fst (finder (i_mro i))) then let! v := call_attr (i_mro i) sel in Ok (v, true)
      else Err KeyError
  end.
Definition col_of (i : inst) (sel : str) : res V := let! vb := getitem i sel in Ok (fst vb).

(* ---- meshes ---- *)
Variable methods : list str.       (* pmesh.window.methods *)

Record mesh := {
  g_attrs : list (str * aval);
  g_weight : option V; g_selection : option V; g_value : option V; g_position : option V
}.

(* d.update(e) *)
Definition update (d e : list (str * aval)) : list (str * aval) := fold_left (fun d kv => dset d (fst kv) (snd kv)) e d.

(* numpy.empty(d)[:] = v *)
Definition fill (d : nat) (v : aval) : res (list Z) :=
  match v with
  | ANum x => Ok (repeat x d)
  | AVec [x] => Ok (repeat x d)
  | AVec l => if length l =? d then Ok l else Err ValueError
  | _ => Err ValueError
  end.

(* MeshSource.__init__: the mesh has three dimensions if Nmesh is a number *)
Definition mesh_sizes (Nmesh BoxSize : aval) : res (list Z * list Z) :=
  match Nmesh, BoxSize with
  | ANone, _ | _, ANone => Err ValueError
  | AVec [], _ => Err OutOfContract          (* left to pmesh *)
  | _, _ =>
      let d := match Nmesh with AVec l => length l | _ => 3 end in
      let! n := fill d Nmesh in
      let! b := fill d BoxSize in
      Ok (n, b)
  end.

Definition catalog_mesh (src : list (str * aval)) (Nmesh BoxSize : aval) (interlaced compensated : bool) (resampler : str)
    (w s v p : option V) : res mesh :=
  let! nb := mesh_sizes Nmesh BoxSize in
  Ok {| g_attrs :=
          dset (dset (dset (dset (dset (update [] src) (s_ "BoxSize") (AVec (snd nb))) (s_ "Nmesh") (AVec (fst nb)))
            (s_ "interlaced") (ABool interlaced)) (s_ "compensated") (ABool compensated)) (s_ "resampler") (AStr resampler);
        g_weight := w; g_selection := s; g_value := v; g_position := p |}.

(* the arguments of to_mesh; None where the keyword is not given *)
Record args := {
  a_Nmesh : option aval; a_BoxSize : option aval; a_interlaced : bool; a_compensated : bool; a_resampler : str;
  a_weight : str; a_value : str; a_selection : str; a_position : str; a_window : option str
}.

Definition given (o : option aval) (attrs : list (str * aval)) (k : str) : res aval :=
  match o with
  | Some v => Ok v
  | None => match dget attrs k with Some v => Ok v | None => Err ValueError end
  end.

(* CatalogSourceBase.to_mesh, 787-873 *)
Definition to_mesh (i : inst) (a : args) : res mesh :=
  let resampler := match a_window a with Some w => w | None => a_resampler a end in
  if negb (mem (a_weight a) (columns i)) then Err ValueError else
  if negb (mem (a_selection a) (columns i)) then Err ValueError else
  if negb (mem resampler methods) then Err ValueError else
  let! box := given (a_BoxSize a) (i_attrs i) (s_ "BoxSize") in
  let! nm := given (a_Nmesh a) (i_attrs i) (s_ "Nmesh") in
  let! w := col_of i (a_weight a) in
  let! s := col_of i (a_selection a) in
  let! v := col_of i (a_value a) in
  let! p := col_of i (a_position a) in
  catalog_mesh (i_attrs i) nm box (a_interlaced a) (a_compensated a) resampler (Some w) (Some s) (Some v) (Some p).

(* s.lower() *)
Definition lower_char (c : ascii) : ascii :=
  let n := nat_of_ascii c in if (65 <=? n) && (n <=? 90) then ascii_of_nat (n + 32) else c.
Definition lower (s : str) : str := map lower_char s.

(* the setter of resampler, 134-137 *)
Definition set_resampler (g : mesh) (v : str) : res mesh :=
  if mem v methods then
    Ok {| g_attrs := dset (g_attrs g) (s_ "resampler") (AStr (lower v));
          g_weight := g_weight g; g_selection := g_selection g; g_value := g_value g; g_position := g_position g |}
  else Err AssertionError.

(* the compensation among the actions, 406-452: the name of its function *)
Definition compensation (g : mesh) : res (option str) :=
  match dget (g_attrs g) (s_ "compensated") with
  | Some (ABool true) =>
      match dget (g_attrs g) (s_ "interlaced"), dget (g_attrs g) (s_ "resampler") with
      | Some (ABool il), Some (AStr r) =>
          let d := if il then [(s_ "cic", s_ "CompensateCIC"); (s_ "tsc", s_ "CompensateTSC"); (s_ "pcs", s_ "CompensatePCS")]
                   else [(s_ "cic", s_ "CompensateCICShotnoise"); (s_ "tsc", s_ "CompensateTSCShotnoise");
                         (s_ "pcs", s_ "CompensatePCSShotnoise")] in
          match dget d r with Some f => Ok (Some f) | None => Err ValueError end
      | _, _ => Err KeyError
      end
  | Some _ => Ok None
  | None => Err KeyError
  end.

(* ---- several species ---- *)
Record species_cat := { c_names : list str; c_cats : list inst; c_attrs : list (str * aval) }.

(* attrs_to_dict, utils.py 372-379 *)
Definition attrs_to_dict (i : inst) (prefix : str) : list (str * aval) := map (fun kv => (prefix ++ fst kv, snd kv)) (i_attrs i).

Definition species_init (names : list str) (cats : list inst) (kwargs : list (str * aval)) : res species_cat :=
  if negb (length (nodup str_eq_dec names) =? length names) then Err ValueError else
  if negb (length names =? length cats) then Err ValueError else
  match cats with
  | [] => Err IndexError
  | _ =>
      let attrs := fold_left (fun d nc => update d (attrs_to_dict (snd nc) (fst nc ++ [dot]))) (combine names cats)
                     [(s_ "species", ANames names)] in
      Ok {| c_names := names; c_cats := cats; c_attrs := update attrs kwargs |}
  end.

(* numpy.equal(a, b).all(); arrays that do not fit raise ValueError, as an inconsistency does *)
Definition np_equal (a b : aval) : bool :=
  match a, b with
  | ANum x, ANum y => (x =? y)%Z
  | ANum x, AVec l | AVec l, ANum x => forallb (Z.eqb x) l
  | AVec [x], AVec l | AVec l, AVec [x] => forallb (Z.eqb x) l
  | AVec l, AVec l' => (length l =? length l') && forallb (fun p => (fst p =? snd p)%Z) (combine l l')
  | ANone, ANone => true
  | ABool x, ABool y => Bool.eqb x y
  | AStr x, AStr y => str_eqb x y
  | _, _ => false
  end.

(* MultipleSpeciesCatalog.to_mesh, 161-223 *)
Definition species_to_mesh (c : species_cat) (a : args) : res mesh :=
  match a_window a with
  | Some _ => Err RuntimeError
  | None =>
      if forallb (fun i => forallb (fun col => mem col (columns i)) [a_position a; a_selection a; a_weight a; a_value a]) (c_cats c)
      then
        let! box := match a_BoxSize a with Some b => Ok b | None => check_species_metadata np_equal (s_ "BoxSize") (c_attrs c) (c_names c) end in
        let! nm := match a_Nmesh a with Some b => Ok b | None => check_species_metadata np_equal (s_ "Nmesh") (c_attrs c) (c_names c) end in
        catalog_mesh (c_attrs c) nm box (a_interlaced a) (a_compensated a) (a_resampler a) None None None None
      else Err ValueError
  end.
End Tom.

Arguments m_column {V} _.
Arguments m_default {V} _.
Arguments m_call {V} _.
Arguments column {V} _ _ _ _.
Arguments plain {V} _ _.
Arguments finder {V} _.
Arguments note {V} _ _.
Arguments call_attr {V} _ _.
Arguments i_mro {V} _.
Arguments i_over {V} _.
Arguments i_attrs {V} _.
Arguments columns {V} _.
Arguments hardcolumns {V} _.
Arguments getitem {V} _ _.
Arguments get_hardcolumn {V} _ _.
Arguments col_of {V} _ _.
Arguments g_attrs {V} _.
Arguments g_weight {V} _.
Arguments g_selection {V} _.
Arguments g_value {V} _.
Arguments g_position {V} _.
Arguments to_mesh {V} _ _ _.
Arguments set_resampler {V} _ _ _.
Arguments compensation {V} _.
Arguments species_init {V} _ _ _.
Arguments species_to_mesh {V} _ _.
Arguments c_names {V} _.
Arguments c_cats {V} _.
Arguments c_attrs {V} _.
Arguments catalog_mesh {V} _ _ _ _ _ _ _ _ _ _.
