(* What columns of classes and the parameters of meshes should be *)
From Coq Require Import Ascii String.
From Verif Require Import Base NamesModel TomModel.
Local Open Scope nat_scope.
Local Notation length := List.length.

(* ---- classes ---- *)
(* classes are dictionaries, and every column has the name of its function *)
Definition well_made {V} (mro : list (klass V)) : Prop :=
  forall c, In c mro -> NoDup (map fst c) /\
    (forall n m k, In (n, m) c -> m_column m = Some k -> k = n /\ n <> []).
(* some class declares the column n, as a default column or not *)
Definition declared {V} (mro : list (klass V)) (n : str) (d : bool) : Prop :=
  exists c m, In c mro /\ In (n, m) c /\ m_column m = Some n /\ m_default m = d.
(* the definition of n that Python uses: that of the first class in the order of resolution which has n *)
Definition resolves {V} (mro : list (klass V)) (n : str) (m : member V) : Prop :=
  exists pre c post, mro = pre ++ c :: post /\ (forall c', In c' pre -> ~ In n (map fst c')) /\ In (n, m) c.

(* ---- meshes ---- *)
(* a number or vector v stands for the vector l *)
Definition stands_for (v : aval) (l : list Z) : Prop :=
  (exists x, (v = ANum x \/ v = AVec [x]) /\ forall y, In y l -> y = x) \/ v = AVec l.
(* v has the same entries as l where both have entries *)
Definition agrees (v : aval) (l : list Z) : Prop :=
  match v with
  | ANum x | AVec [x] => forall y, In y l -> y = x
  | AVec w => forall j x y, nth_error w j = Some x -> nth_error l j = Some y -> x = y
  | _ => False
  end.
(* the value that is used: the keyword, or else that of attrs *)
Definition chosen (o : option aval) (attrs : list (str * aval)) (k : str) (v : aval) : Prop :=
  o = Some v \/ (o = None /\ dget attrs k = Some v).
(* the sizes of a mesh for given Nmesh and BoxSize *)
Definition sizes (Nmesh BoxSize : aval) (n b : list Z) : Prop :=
  match Nmesh with AVec l => n = l | ANum x => n = [x; x; x] | _ => False end /\
  n <> [] /\ length b = length n /\ stands_for BoxSize b.
Definition mesh_keys : list str := [s_ "BoxSize"; s_ "Nmesh"; s_ "interlaced"; s_ "compensated"; s_ "resampler"].

Definition undotted (s : str) : Prop := ~ In dot s.

(* the resampler that is asked for: window= is the old name of resampler= *)
Definition resampler_of (a : args) : str := match a_window a with Some w => w | None => a_resampler a end.

(* the attributes ga of a mesh of a source with the attributes src *)
Definition mesh_attrs (src : list (str * aval)) (n b : list Z) (il cp : bool) (r : str) (ga : list (str * aval)) : Prop :=
  dget ga (s_ "Nmesh") = Some (AVec n) /\ dget ga (s_ "BoxSize") = Some (AVec b) /\
  dget ga (s_ "interlaced") = Some (ABool il) /\ dget ga (s_ "compensated") = Some (ABool cp) /\
  dget ga (s_ "resampler") = Some (AStr r) /\
  (forall k, ~ In k mesh_keys -> dget ga k = dget src k).

(* ---- several species ---- *)
(* names of species and keywords have no dots, and attrs are dictionaries *)
Definition fair {V} (names : list str) (cats : list (inst V)) (kw : list (str * aval)) : Prop :=
  (forall n, In n names -> undotted n) /\ (forall i, In i cats -> NoDup (map fst (i_attrs i))) /\
  NoDup (map fst kw) /\ (forall k, In k (map fst kw) -> undotted k).
(* a keyword of the catalog, or attrs of one of the species, say that k is w *)
Definition says_size {V} (names : list str) (cats : list (inst V)) (kw : list (str * aval)) (k : str) (w : aval) : Prop :=
  dget kw k = Some w \/ exists s i, In (s, i) (combine names cats) /\ dget (i_attrs i) k = Some w.
