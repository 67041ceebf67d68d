(* Property theorems C16 (mesh actions) and the refuted claim C68. *)
From Verif Require Import Base BaseProofs CatModel MeshModel MeshSpec MeshProofs.
Local Open Scope nat_scope.

(* C16: apply gives a new mesh with the function added at the end, and leaves all meshes as
   they were *)
Theorem C16_apply : forall (F C : Type) r2c c2r fr fc (l : list (op F C)) x f k m acts,
  let h := exec F C [] l in
  x < length h -> sensible (given f k m) -> actions F C h x = Ok acts ->
  exists x' h', apply F C h x f k m = Ok (x', h') /\ x' = length h /\
    actions F C h' x' = Ok (acts ++ [given f k m]) /\
    (forall y, rooted F C h x y -> rooted F C h' x' y) /\
    (NoDup (map fst (attrs F C h x)) -> forall k, aget (attrs F C h' x') k = aget (attrs F C h x) k) /\
    (forall z, z < length h -> unchanged F C r2c c2r fr fc h h' z).
Proof. exact apply_thm. Qed.
Print Assumptions C16_apply.
Theorem C16_apply_refused : forall (F C : Type) (h : heap F C) x f k m,
  ~ sensible (given f k m) -> apply F C h x f k m = Err AssertionError.
Proof. exact apply_refused. Qed.
Print Assumptions C16_apply_refused.

(* a field is a list of numbers marking what was done to it, in order *)
Definition T := list nat.
Definition mark (n : nat) (_ : kind) (x : T) : T := x ++ [n].
Definition ident (x : T) : T := x.
Definition comp9 : action := {| a_mode := MComplex; a_func := 9; a_kind := Circular |}.
Definition program : list (op T T) :=
  [ ONew T T (CatalogMesh T T [0] (Some comp9)) [(0, 1%Z)];     (* compensated *)
    OApply T T 0 (Plain 1) Relative MReal;
    OView T T 1;
    OApply T T 2 (Filter 2 Index MComplex) KOther MOther;
    OApply T T 0 (Plain 3) Wavenumber MReal;                     (* refused *)
    OAttr T T 1 5 7%Z ].
Example C16_apply_ex :
  length (exec T T [] program) = 4 /\
  actions T T (exec T T [] program) 0 = Ok [comp9] /\
  actions T T (exec T T [] program) 3 = Ok [comp9; given (Plain 1) Relative MReal; given (Plain 2) Index MComplex] /\
  compute T T ident ident mark mark (exec T T [] program) 3 MReal = Ok (VReal T T [0; 9; 1; 2]) /\
  compute T T ident ident mark mark (exec T T [] program) 0 MComplex = Ok (VComplex T T [0; 9]).
Proof. repeat split; reflexivity. Qed.

(* C16: no operation changes any existing mesh, except assigning to its own attrs *)
Theorem C16_frame : forall (F C : Type) r2c c2r fr fc (l : list (op F C)) o r h' x,
  let h := exec F C [] l in
  step F C h o = Ok (r, h') -> x < length h -> (forall k v, o <> OAttr F C x k v) ->
  unchanged F C r2c c2r fr fc h h' x.
Proof. exact frame_thm. Qed.
Print Assumptions C16_frame.
Example C16_frame_ex : exists h', step T T (exec T T [] program) (OAttr T T 0 0 0%Z) = Ok (0, h') /\
  actions T T h' 0 = Ok [] /\ actions T T h' 1 = Ok [comp9; given (Plain 1) Relative MReal].
Proof. eexists. repeat split; reflexivity. Qed.

(* C16: computing applies the functions to the field of the source, each once, in order, in the
   space it was declared for, and gives the result in the mode asked for *)
Theorem C16_compute : forall (F C : Type) (r2c : F -> C) (c2r : C -> F) fr fc,
  (forall x, c2r (r2c x) = x) -> (forall c, r2c (c2r c) = c) ->
  forall (l : list (op F C)) x y my f0 acts m, fourier_comp F C l -> m <> MOther ->
  let h := exec F C [] l in
  rooted F C h x y -> nth_error h y = Some my -> source_field F C r2c c2r my f0 -> actions F C h x = Ok acts ->
  compute F C r2c c2r fr fc h x m = Ok (as_mode F C r2c m (meaning F C r2c c2r fr fc acts f0)).
Proof. exact compute_ok. Qed.
Print Assumptions C16_compute.
Example C16_compute_ex :
  rooted T T (exec T T [] program) 3 0 /\ fourier_comp T T program /\
  meaning T T ident ident mark mark [comp9; given (Plain 1) Relative MReal; given (Plain 2) Index MComplex] [0] = [0; 9; 1; 2].
Proof.
  split; [|split; [|reflexivity]].
  - eapply rooted_view; [reflexivity|reflexivity|reflexivity|]. eapply rooted_view; [reflexivity|reflexivity|reflexivity|].
    eapply rooted_view; [reflexivity|reflexivity|reflexivity|]. eapply rooted_self; [reflexivity|discriminate].
  - intros f c d. cbn. intros [H|[H|[H|[H|[H|[H|H]]]]]]; try discriminate H; [|destruct H]. injection H as _ <- _. reflexivity.
Qed.

(* C16: a compensated mesh made from a catalog, and every mesh derived from it by views and
   apply, compensates exactly once; an uncompensated one never *)
Theorem C16_compensated_once : forall (F C : Type) (l : list (op F C)) x y my q c acts,
  steady F C l -> let h := exec F C [] l in
  rooted F C h x y -> nth_error h y = Some my -> m_cls F C my = CatalogMesh F C q (Some c) ->
  ~ In c (applied F C l) -> actions F C h x = Ok acts ->
  times c acts = if truthy (aget (m_attrs F C my) 0) then 1 else 0.
Proof. exact compensation_once. Qed.
Print Assumptions C16_compensated_once.
Example C16_compensated_once_ex : steady T T program /\ ~ In comp9 (applied T T program) /\
  times comp9 [comp9; given (Plain 1) Relative MReal; given (Plain 2) Index MComplex] = 1.
Proof.
  split; [|split; [|reflexivity]].
  - intros o. cbn. intros [H|[H|[H|[H|[H|[H|H]]]]]]; subst; auto; try discriminate; destruct H.
  - cbn. intros [H|[H|[H|H]]]; try discriminate H. exact H.
Qed.

(* C16: the attrs of the mesh override those the source attached to the field *)
Theorem C16_result_attrs : forall (F C : Type) (h : heap F C) x field k, NoDup (map fst (attrs F C h x)) ->
  aget (result_attrs F C h x field) k = match aget (attrs F C h x) k with Some v => Some v | None => aget field k end.
Proof. exact result_attrs_ok. Qed.
Print Assumptions C16_result_attrs.
Example C16_result_attrs_ex : 
  let h := exec T T [] program in
  aget (result_attrs T T h 1 [(5, 1%Z); (6, 2%Z)]) 5 = Some 7%Z /\ aget (result_attrs T T h 1 [(5, 1%Z); (6, 2%Z)]) 6 = Some 2%Z.
Proof. split; reflexivity. Qed.

(* C68 is false: a member of a compensated species mesh inherits the compensation as an action
   and adds its own *)
Theorem C68_member_compensated_once_refuted : exists (l : list (op T T)) x my q c acts,
  let h := exec T T [] l in
  nth_error h x = Some my /\ m_cls T T my = CatalogMesh T T q (Some c) /\ ~ In c (applied T T l) /\
  actions T T h x = Ok acts /\ times c acts = 2 /\
  compute T T ident ident mark mark h x MReal = Ok (VReal T T [1; 9; 9]).
Proof.
  exists [ONew T T (CatalogMesh T T [0] (Some comp9)) [(0, 1%Z)]; OMember T T 0 [1]], 1.
  eexists. eexists. eexists. eexists. cbn. split; [reflexivity|]. split; [reflexivity|]. split; [tauto|]. repeat split; reflexivity.
Qed.
Print Assumptions C68_member_compensated_once_refuted.
