(* Model of mesh objects: nbodykit/base/mesh.py (MeshSource), the actions of
   CatalogMesh (source/mesh/catalog.py:406-451) and the members of a
   MultipleSpeciesCatalogMesh (source/mesh/species.py:76-108).

   Functions are numbers with an interpretation; attribute names are numbers, number 0
   is 'compensated'.  Resampling to another Nmesh and logging are left out. *)
From Verif Require Import Base CatModel.
Local Open Scope nat_scope.

Inductive mode := MReal | MComplex | MOther.
Inductive kind := Wavenumber | Circular | Index | Relative | KOther.
Record action := { a_mode : mode; a_func : nat; a_kind : kind }.

(* what is passed to apply: a function, or a MeshFilter (instance or class) with its own mode
   and kind *)
Inductive func := Plain (f : nat) | Filter (f : nat) (k : kind) (m : mode).

Section Mesh.
Variable F C : Type.                 (* real and Fourier-space fields *)
Variable r2c : F -> C.
Variable c2r : C -> F.
Variable fr : nat -> kind -> F -> F. (* the functions, on either kind of field *)
Variable fc : nat -> kind -> C -> C.

Inductive cls :=
| Source (real : option F) (cplx : option C)    (* FieldMesh, ArrayMesh, LinearMesh, ...: what
                                                   to_real_field / to_complex_field return (a fresh
                                                   field each time); None = NotImplemented *)
| CatalogMesh (painted : F) (comp : option action)  (* painted field; the compensation of its window,
                                                   None if there is none for it (get_compensation, 419-451) *)
| View.                                         (* object.__new__(MeshSource), mesh.py:82-94 *)
Record mesh := { m_cls : cls; m_base : option nat; m_own : list action; m_attrs : list (nat * Z) }.
Definition heap := list mesh.

Definition truthy (x : option Z) : bool := match x with Some v => negb (v =? 0)%Z | None => false end.

(* actions, mesh.py:107-116 and catalog.py:406-414 *)
Definition actions (h : heap) (r : nat) : res (list action) :=
  match nth_error h r with
  | None => Err AttributeError
  | Some m =>
      match m_cls m with
      | CatalogMesh _ comp =>
          if truthy (aget (m_attrs m) 0)
          then match comp with Some c => Ok (c :: m_own m) | None => Err ValueError end
          else Ok (m_own m)
      | _ => Ok (m_own m)
      end
  end.
Definition attrs (h : heap) (r : nat) : list (nat * Z) :=
  match nth_error h r with Some m => m_attrs m | None => [] end.

(* dict.update *)
Definition update (d e : list (nat * Z)) : list (nat * Z) := fold_left (fun d kv => aset d (fst kv) (snd kv)) e d.

(* view, 82-94, with __finalize__, 61-79 *)
Definition view (h : heap) (r : nat) : res (nat * heap) :=
  let! acts := actions h r in
  Ok (length h, h ++ [{| m_cls := View; m_base := Some r; m_own := acts; m_attrs := update [] (attrs h r) |}]).

Definition mode_eqb (a b : mode) : bool :=
  match a, b with MReal, MReal | MComplex, MComplex | MOther, MOther => true | _, _ => false end.

(* the assertions of apply, 162-166 *)
Definition allowed (m : mode) (k : kind) : bool :=
  match m, k with
  | MReal, (Relative | Index) => true
  | MComplex, (Wavenumber | Circular | Index) => true
  | _, _ => false
  end.

Fixpoint replace {A} (l : list A) (i : nat) (x : A) : list A :=
  match l, i with [], _ => [] | _ :: l, O => x :: l | y :: l, S i => y :: replace l i x end.

(* apply, 118-176 *)
Definition apply (h : heap) (r : nat) (f : func) (k : kind) (m : mode) : res (nat * heap) :=
  let a := match f with
           | Plain f => {| a_mode := m; a_func := f; a_kind := k |}
           | Filter f k m => {| a_mode := m; a_func := f; a_kind := k |}
           end in
  if negb (allowed (a_mode a) (a_kind a)) then Err AssertionError else
  let! vh := view h r in
  let '(v, h) := vh in
  match nth_error h v with
  | None => Err AttributeError
  | Some x => Ok (v, replace h v {| m_cls := m_cls x; m_base := m_base x; m_own := m_own x ++ [a]; m_attrs := m_attrs x |})
  end.

(* mesh.attrs[k] = v, mesh.compensated = v *)
Definition set_attr (h : heap) (r : nat) (k : nat) (v : Z) : res (nat * heap) :=
  match nth_error h r with
  | None => Err AttributeError
  | Some x => Ok (r, replace h r {| m_cls := m_cls x; m_base := m_base x; m_own := m_own x; m_attrs := aset (m_attrs x) k v |})
  end.

(* MultipleSpeciesCatalogMesh[name], species.py:76-108: a CatalogMesh with the same parameters
   (painted: what the species alone gives), then __finalize__(self) *)
Definition member (h : heap) (r : nat) (painted : F) : res (nat * heap) :=
  match nth_error h r with
  | Some {| m_cls := CatalogMesh _ comp; m_attrs := d |} =>
      let! acts := actions h r in
      Ok (length h, h ++ [{| m_cls := CatalogMesh painted comp; m_base := None; m_own := acts; m_attrs := update [] d |}])
  | _ => Err AttributeError
  end.

Definition new (h : heap) (c : cls) (d : list (nat * Z)) : res (nat * heap) :=
  match c with
  | View => Err OutOfContract
  | _ => Ok (length h, h ++ [{| m_cls := c; m_base := None; m_own := []; m_attrs := d |}])
  end.

(* ---- computing ---- *)
Inductive var := VReal (x : F) | VComplex (x : C).

(* to_real_field / to_complex_field, 184-202: a view asks its base *)
Fixpoint real_field (fuel : nat) (h : heap) (r : nat) : option F :=
  match fuel with
  | O => None
  | S fuel => match nth_error h r with
              | None => None
              | Some m => match m_cls m with
                          | Source x _ => x
                          | CatalogMesh x _ => Some x
                          | View => match m_base m with Some b => real_field fuel h b | None => None end
                          end
              end
  end.
Fixpoint complex_field (fuel : nat) (h : heap) (r : nat) : option C :=
  match fuel with
  | O => None
  | S fuel => match nth_error h r with
              | None => None
              | Some m => match m_cls m with
                          | Source _ x => x
                          | CatalogMesh _ _ => None
                          | View => match m_base m with Some b => complex_field fuel h b | None => None end
                          end
              end
  end.

(* to_field, 204-244 *)
Definition to_field (h : heap) (r : nat) (m : mode) : res var :=
  let n := length h in
  match m with
  | MReal => match real_field n h r with
             | Some x => Ok (VReal x)
             | None => match complex_field n h r with Some c => Ok (VReal (c2r c)) | None => Err AssertionError end
             end
  | MComplex => match complex_field n h r with
                | Some c => Ok (VComplex c)
                | None => match real_field n h r with Some x => Ok (VComplex (r2c x)) | None => Err AssertionError end
                end
  | MOther => Err ValueError
  end.

(* 298-304 *)
Definition to_mode (m : mode) (v : var) : var :=
  match m, v with
  | MComplex, VReal x => VComplex (r2c x)
  | MReal, VComplex c => VReal (c2r c)
  | _, _ => v
  end.
(* 306-313 *)
Definition act (v : var) (a : action) : var :=
  match to_mode (a_mode a) v with
  | VReal x => VReal (fr (a_func a) (a_kind a) x)
  | VComplex c => VComplex (fc (a_func a) (a_kind a) c)
  end.

(* compute = _paint_XXX, 256-338 *)
Definition compute (h : heap) (r : nat) (m : mode) : res var :=
  if mode_eqb m MOther then Err ValueError else
  let! acts := actions h r in
  let first := match acts with [] => m | a :: _ => a_mode a end in
  let! v := to_field h r first in
  Ok (to_mode m (fold_left act acts v)).
(* the attrs of the result, 333-334: field is what the source attached *)
Definition result_attrs (h : heap) (r : nat) (field : list (nat * Z)) : list (nat * Z) := update field (attrs h r).

(* ---- histories ---- *)
Inductive op :=
| ONew (c : cls) (d : list (nat * Z))
| OView (r : nat)
| OApply (r : nat) (f : func) (k : kind) (m : mode)
| OAttr (r k : nat) (v : Z)
| OMember (r : nat) (painted : F).
Definition step (h : heap) (o : op) : res (nat * heap) :=
  match o with
  | ONew c d => new h c d
  | OView r => view h r
  | OApply r f k m => apply h r f k m
  | OAttr r k v => set_attr h r k v
  | OMember r x => member h r x
  end.
Fixpoint exec (h : heap) (l : list op) : heap :=
  match l with
  | [] => h
  | o :: l => match step h o with Ok (_, h') => exec h' l | Err _ => exec h l end
  end.
End Mesh.
