(* What a mesh stands for: a source field and functions applied to it one after the other. *)
From Verif Require Import Base MeshModel.
Local Open Scope nat_scope.

Section Spec.
Variable F C : Type.
Variable r2c : F -> C.
Variable c2r : C -> F.
Variable fr : nat -> kind -> F -> F.
Variable fc : nat -> kind -> C -> C.

(* the mesh at the end of the chain of bases *)
Inductive rooted (h : heap F C) : nat -> nat -> Prop :=
| rooted_self x m : nth_error h x = Some m -> m_cls F C m <> View F C -> rooted h x x
| rooted_view x m b y : nth_error h x = Some m -> m_cls F C m = View F C -> m_base F C m = Some b ->
    rooted h b y -> rooted h x y.

(* the field of a source in configuration space; a source that offers both must be consistent *)
Definition source_field (m : mesh F C) (f0 : F) : Prop :=
  match m_cls F C m with
  | Source _ _ (Some x) None => f0 = x
  | Source _ _ None (Some c) => f0 = c2r c
  | Source _ _ (Some x) (Some c) => f0 = x /\ c = r2c x
  | Source _ _ None None => False
  | CatalogMesh _ _ x _ => f0 = x
  | View _ _ => False
  end.

(* one function, in the space it was declared for *)
Definition meaning1 (x : F) (a : action) : F :=
  match a_mode a with
  | MComplex => c2r (fc (a_func a) (a_kind a) (r2c x))
  | _ => fr (a_func a) (a_kind a) x
  end.
Definition meaning (acts : list action) (x : F) : F := fold_left meaning1 acts x.

Definition as_mode (m : mode) (x : F) : var F C :=
  match m with MComplex => VComplex F C (r2c x) | _ => VReal F C x end.

Definition action_eq_dec (a b : action) : {a = b} + {a <> b}.
Proof. decide equality; [decide equality|apply Nat.eq_dec|decide equality]. Defined.
Definition times (c : action) (l : list action) : nat := count_occ action_eq_dec l c.

(* the action added by an apply() call *)
Definition given (f : func) (k : kind) (m : mode) : action :=
  match f with
  | Plain f => {| a_mode := m; a_func := f; a_kind := k |}
  | Filter f k m => {| a_mode := m; a_func := f; a_kind := k |}
  end.
(* the kinds that make sense in a space *)
Definition sensible (a : action) : Prop :=
  (a_mode a = MReal /\ (a_kind a = Relative \/ a_kind a = Index)) \/
  (a_mode a = MComplex /\ (a_kind a = Wavenumber \/ a_kind a = Circular \/ a_kind a = Index)).
(* the actions given in a program *)
Fixpoint applied (l : list (op F C)) : list action :=
  match l with
  | [] => []
  | OApply _ _ _ f k m :: l => given f k m :: applied l
  | _ :: l => applied l
  end.
(* a program that uses no members of species meshes and never switches compensation *)
Definition steady (l : list (op F C)) : Prop :=
  forall o, In o l -> match o with OMember _ _ _ _ => False | OAttr _ _ _ k _ => k <> 0 | _ => True end.
(* the compensation functions work in Fourier space (get_compensation, catalog.py:419-451) *)
Definition fourier_comp (l : list (op F C)) : Prop :=
  forall f c d, In (ONew F C (CatalogMesh F C f (Some c)) d) l -> a_mode c = MComplex.

(* what can be seen of a mesh: its actions, attrs, source and the field it computes *)
Definition unchanged (h h' : heap F C) (x : nat) : Prop :=
  actions F C h' x = actions F C h x /\ attrs F C h' x = attrs F C h x /\
  (forall y, rooted h x y -> rooted h' x y) /\
  (forall m, compute F C r2c c2r fr fc h' x m = compute F C r2c c2r fr fc h x m).
End Spec.
