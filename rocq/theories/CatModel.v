(* Model of nbodykit/base/catalog.py: catalogs as objects with columns, views,
   copies, slices and attributes.  One rank is modelled here (the global slice and
   the sort, which move rows between ranks, are in DistModel.v).

   Simplifications: column names are numbers (sorted order of names = order of
   numbers); a column is the list of its rows (dask laziness is not modelled);
   view() is called with type=None. *)
From Verif Require Import Base.
Local Open Scope nat_scope.

Fixpoint aget {V} (d : list (nat * V)) (k : nat) : option V :=
  match d with
  | [] => None
  | (k', v) :: d => if k =? k' then Some v else aget d k
  end.
Fixpoint aset {V} (d : list (nat * V)) (k : nat) (v : V) : list (nat * V) :=
  match d with
  | [] => [(k, v)]
  | (k', v') :: d => if k =? k' then (k', v) :: d else (k', v') :: aset d k v
  end.
Definition adel {V} (d : list (nat * V)) (k : nat) : list (nat * V) :=
  filter (fun p => negb (k =? fst p)) d.
Definition amem {V} (d : list (nat * V)) (k : nat) : bool :=
  match aget d k with Some _ => true | None => false end.

(* sorted(set(l)) *)
Fixpoint insert_name (x : nat) (l : list nat) : list nat :=
  match l with
  | [] => [x]
  | y :: l' => if x <? y then x :: l else if x =? y then l else y :: insert_name x l'
  end.
Definition sorted_set (l : list nat) : list nat := fold_right insert_name [] l.

Section Catalog.
Variable A : Type.                         (* one row of a column *)
Variable base_dflt : list (nat * A).       (* the default columns of CatalogSource, 1166-1216: constants *)

(* an instance; o_hard and o_dflt come from its class (ColumnFinder, 127-165) *)
Record obj := {
  o_base : option nat;                     (* self.base *)
  o_size : nat;                            (* self._size *)
  o_over : list (nat * list A);            (* self._overrides *)
  o_hard : list (nat * list A);            (* hard columns and what get_hardcolumn returns *)
  o_dflt : list (nat * A);                 (* default columns: constants *)
  o_attrs : option nat                     (* self._attrs: which dictionary, if created *)
}.
Record heap := { objs : list obj; dicts : list (list (nat * Z)) }.
Definition empty : heap := {| objs := []; dicts := [] |}.

Fixpoint replace {B} (l : list B) (i : nat) (x : B) : list B :=
  match l, i with
  | [], _ => []
  | _ :: l, O => x :: l
  | y :: l, S i => y :: replace l i x
  end.

Definition olook (h : heap) (r : nat) : option obj := nth_error (objs h) r.

(* follow self.base; the chain is finite because a view is made after its base *)
Fixpoint root (fuel : nat) (h : heap) (r : nat) : nat :=
  match fuel with
  | O => r
  | S fuel => match olook h r with
              | Some o => match o_base o with Some b => root fuel h b | None => r end
              | None => r
              end
  end.
Definition owner (h : heap) (r : nat) : nat := root (length (objs h)) h r.

(* size, 974-987 *)
Definition size (h : heap) (r : nat) : nat :=
  match olook h (owner h r) with Some o => o_size o | None => 0 end.

(* catalog[name], 370-390; the flag is is_default *)
Definition get (h : heap) (r : nat) (n : nat) : res (list A * bool) :=
  match olook h (owner h r) with
  | None => Err AttributeError
  | Some o =>
      match aget (o_over o) n with
      | Some v => Ok (v, false)
      | None => match aget (o_hard o) n with
                | Some v => Ok (v, false)
                | None => match aget (o_dflt o) n with
                          | Some c => Ok (repeat c (o_size o), true)
                          | None => Err KeyError
                          end
                end
      end
  end.

(* hardcolumns, 439-455, and the default columns of the class with their constants *)
Definition hardcolumns (h : heap) (r : nat) : list nat :=
  match olook h (owner h r) with None => [] | Some o => sorted_set (map fst (o_hard o)) end.
Definition default_of (h : heap) (r n : nat) : option A :=
  match olook h (owner h r) with None => None | Some o => aget (o_dflt o) n end.

(* columns, 457-472 *)
Definition columns (h : heap) (r : nat) : list nat :=
  match olook h (owner h r) with
  | None => []
  | Some o => sorted_set (map fst (o_hard o) ++ map fst (o_over o) ++ map fst (o_dflt o))
  end.

Inductive value := Scalar (c : A) | Array (l : list A).
Definition expand (n : nat) (v : value) : list A :=
  match v with Scalar c => repeat c n | Array l => l end.

Definition with_over (o : obj) (d : list (nat * list A)) : obj :=
  {| o_base := o_base o; o_size := o_size o; o_over := d; o_hard := o_hard o; o_dflt := o_dflt o; o_attrs := o_attrs o |}.
Definition with_attrs (o : obj) (a : option nat) : obj :=
  {| o_base := o_base o; o_size := o_size o; o_over := o_over o; o_hard := o_hard o; o_dflt := o_dflt o; o_attrs := a |}.
Definition put (h : heap) (r : nat) (o : obj) : heap := {| objs := replace (objs h) r o; dicts := dicts h |}.

(* catalog[name] = value: CatalogSource.__setitem__ 955-972, CatalogSourceBase.__setitem__ 393-404 *)
Definition setitem (h : heap) (r n : nat) (v : value) : res heap :=
  let col := expand (size h r) v in
  if negb (length col =? size h r) then Err AssertionError else
  match olook h (owner h r) with
  | None => Err AttributeError
  | Some o => Ok (put h (owner h r) (with_over o (aset (o_over o) n col)))
  end.

(* del catalog[name], 406-426 *)
Definition delitem (h : heap) (r n : nat) : res heap :=
  match olook h (owner h r) with
  | None => Err AttributeError
  | Some o =>
      if negb (existsb (Nat.eqb n) (columns h r)) then Err ValueError
      else if amem (o_hard o) n then Err ValueError
      else if amem (o_over o) n then Ok (put h (owner h r) (with_over o (adel (o_over o) n)))
      else Err ValueError
  end.

(* attrs, 428-437: the dictionary is created at the first use *)
Definition attrs_ref (h : heap) (r : nat) : option (nat * heap) :=
  match olook h r with
  | None => None
  | Some o => match o_attrs o with
              | Some d => Some (d, h)
              | None => let d := length (dicts h) in
                        Some (d, {| objs := replace (objs h) r (with_attrs o (Some d)); dicts := dicts h ++ [[]] |})
              end
  end.
Definition dict_of (h : heap) (d : nat) : list (nat * Z) := nth d (dicts h) [].
Definition set_attr (h : heap) (r k : nat) (v : Z) : res heap :=
  match attrs_ref h r with
  | None => Err AttributeError
  | Some (d, h) => Ok {| objs := objs h; dicts := replace (dicts h) d (aset (dict_of h d) k v) |}
  end.
(* reading catalog.attrs *)
Definition attrs (h : heap) (r : nat) : list (nat * Z) :=
  match olook h r with
  | Some o => match o_attrs o with Some d => dict_of h d | None => [] end
  | None => []
  end.

(* _from_columns, 907-933: a new object, then setitem of every column (the size check applies) *)
Definition from_columns (sz : nat) (cols : list (nat * list A)) (hard : list (nat * list A)) (dflt : list (nat * A))
           (a : option nat) : res obj :=
  if forallb (fun c => length (snd c) =? sz) cols
  then Ok {| o_base := None; o_size := sz; o_over := fold_left (fun d c => aset d (fst c) (snd c)) cols [];
             o_hard := hard; o_dflt := dflt; o_attrs := a |}
  else Err AssertionError.

Definition add (h : heap) (o : obj) : nat * heap :=
  (length (objs h), {| objs := objs h ++ [o]; dicts := dicts h |}).
Definition add_dict (h : heap) (d : list (nat * Z)) : nat * heap :=
  (length (dicts h), {| objs := objs h; dicts := dicts h ++ [d] |}).

(* {col: self[col] for col in self}, with the flag *)
Definition all_columns (h : heap) (r : nat) : list (nat * (list A * bool)) :=
  flat_map (fun n => match get h r n with Ok v => [(n, v)] | Err _ => [] end) (columns h r).

(* copy, 474-507: `self._attrs.copy()` fails when the dictionary was never created *)
Definition copy (h : heap) (r : nat) : res (nat * heap) :=
  match olook h r with
  | None => Err AttributeError
  | Some o =>
      match o_attrs o with
      | None => Err AttributeError
      | Some d =>
          let '(d', h') := add_dict h (dict_of h d) in
          let cols := map (fun c => (fst c, fst (snd c))) (all_columns h r) in
          let! o' := from_columns (size h r) cols (o_hard o) (o_dflt o) (Some d') in
          Ok (add h' o')
      end
  end.

(* view, 727-752: base points to self; __finalize__ (239-267) copies the reference to _attrs *)
Definition view (h : heap) (r : nat) : res (nat * heap) :=
  match olook h r with
  | None => Err AttributeError
  | Some o => Ok (add h {| o_base := Some r; o_size := size h r; o_over := []; o_hard := o_hard o;
                           o_dflt := o_dflt o; o_attrs := o_attrs o |})
  end.

Inductive index :=
| IEllipsis
| ISlice (start stop step : option Z)
| IMask (m : list bool)
| IInts (l : list Z).

Fixpoint true_positions (i : Z) (m : list bool) : list Z :=
  match m with
  | [] => []
  | b :: m => if b then i :: true_positions (i + 1) m else true_positions (i + 1) m
  end.
Definition count_true (m : list bool) : nat := length (filter (fun b => b) m).

(* size formula of _get_slice, 290-292 *)
Definition slice_size (start stop step : Z) : Z :=
  Z.max 0 ((stop - start + (step - (if 0 <? step then 1 else -1))) / step)%Z.

(* _get_slice, 275-315: the rows that numpy/dask indexing selects, and the size
   computed separately *)
Definition resolve (n : nat) (i : index) : res (list Z * Z) :=
  match i with
  | IEllipsis => Ok (py_range 0 (Z.of_nat n) 1, Z.of_nat n)
  | ISlice a b s =>
      let! x := slice_indices a b s (Z.of_nat n) in
      let '(start, stop, step) := x in
      Ok (py_range start stop step, slice_size start stop step)
  | IMask m => if length m =? n then Ok (true_positions 0 m, Z.of_nat (count_true m)) else Err KeyError
  | IInts l =>
      if forallb (fun i => (- Z.of_nat n <=? i)%Z && (i <? Z.of_nat n)%Z) l
      then Ok (map (fun i => if (i <? 0)%Z then (i + Z.of_nat n)%Z else i) l, zlen l)
      else Err IndexError
  end.

Definition slice (h : heap) (r : nat) (i : index) : res (nat * heap) :=
  match i with
  | IEllipsis => Ok (r, h)                                   (* 288-289 *)
  | _ =>
      match olook h r with
      | None => Err AttributeError
      | Some o =>
          let! x := resolve (size h r) i in
          let '(rows, sz) := x in
          (* 316: the columns that are not defaults *)
          let cols := map (fun c => (fst c, select (fst (snd c)) rows))
                          (filter (fun c => negb (snd (snd c))) (all_columns h r)) in
          (* 322: the class of self, or of its base: the same class in this model.  What its
             hard-column methods return on the new instance is never seen, because every hard
             column is among cols and cannot be deleted; the model says: the selected rows *)
          let hard := map (fun c => (fst c, select (snd c) rows)) (o_hard o) in
          let! o' := from_columns (Z.to_nat sz) cols hard (o_dflt o) (o_attrs o) in
          Ok (add h o')
      end
  end.

(* catalog[[names]], 350-366; an empty list is taken as a list of row numbers *)
Definition select_columns (h : heap) (r : nat) (names : list nat) : res (nat * heap) :=
  match names with
  | [] => slice h r (IInts [])
  | _ =>
      if negb (forallb (fun n => existsb (Nat.eqb n) (columns h r)) names) then Err KeyError else
      let cols := flat_map (fun n => match get h r n with Ok v => [(n, fst v)] | Err _ => [] end) names in
      match attrs_ref h r with
      | None => Err AttributeError
      | Some (d, h) =>
          let '(d', h') := add_dict h (dict_of h d) in
          let! o' := from_columns (size h r) cols [] base_dflt (Some d') in
          Ok (add h' o')
      end
  end.

(* histories *)
Inductive op :=
| ONew (sz : nat) (hard : list (nat * list A)) (dflt : list (nat * A))   (* make a catalog of some class *)
| OSet (r n : nat) (v : value)
| ODel (r n : nat)
| OAttr (r k : nat) (v : Z)
| OCopy (r : nat)
| OView (r : nat)
| OSlice (r : nat) (i : index)
| OSelect (r : nat) (names : list nat).

(* the columns produced by a class have the length of the catalog *)
Definition new (h : heap) (sz : nat) hard dflt : res (nat * heap) :=
  if forallb (fun c : nat * list A => length (snd c) =? sz) hard
  then Ok (add h {| o_base := None; o_size := sz; o_over := []; o_hard := hard; o_dflt := dflt; o_attrs := None |})
  else Err OutOfContract.

Definition step (h : heap) (o : op) : res (nat * heap) :=
  match o with
  | ONew sz hard dflt => new h sz hard dflt
  | OSet r n v => let! h' := setitem h r n v in Ok (r, h')
  | ODel r n => let! h' := delitem h r n in Ok (r, h')
  | OAttr r k v => let! h' := set_attr h r k v in Ok (r, h')
  | OCopy r => copy h r
  | OView r => view h r
  | OSlice r i => slice h r i
  | OSelect r names => select_columns h r names
  end.

(* a failing operation raises and leaves everything as it was *)
Fixpoint exec (h : heap) (l : list op) : heap :=
  match l with
  | [] => h
  | o :: l => match step h o with Ok (_, h') => exec h' l | Err _ => exec h l end
  end.

End Catalog.
