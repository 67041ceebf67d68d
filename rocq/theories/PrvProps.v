(* C340 - C342; that preview leaves out the functions is C243 *)
From Verif Require Import Base BaseProofs CatModel MeshModel MeshSpec MeshProofs MeshProps PrvModel PrvProofs.
Local Open Scope nat_scope.

(* ---- C340: what compute(Nmesh), preview(Nmesh) and to_real_field of a mesh or view give ---- *)
Theorem C340_resampled : forall (F C : Type) (r2c : F -> C) (c2r : C -> F) fr fc rr rc size,
  (forall x, c2r (r2c x) = x) -> (forall c, r2c (c2r c) = c) ->
  forall (l : list (op F C)) x y my f0 acts m nm field, (forall n n' f, rc n n' (r2c f) = r2c (rr n n' f)) ->
  fourier_comp F C l -> m <> MOther ->
  let h := exec F C [] l in
  rooted F C h x y -> nth_error h y = Some my -> source_field F C r2c c2r my f0 -> actions F C h x = Ok acts ->
  exists r, compute_at F C r2c c2r fr fc rr rc size field h x m nm = Ok r /\
    r_nmesh F C r = match nm with Some k => k | None => size y end /\
    r_value F C r = as_mode F C r2c m (if (r_nmesh F C r =? size y)%Z then meaning F C r2c c2r fr fc acts f0
                                       else rr (size y) (r_nmesh F C r) (meaning F C r2c c2r fr fc acts f0)).
Proof. exact compute_at_ok. Qed.
Print Assumptions C340_resampled.
Theorem C340_preview : forall (F C P : Type) (r2c : F -> C) (c2r : C -> F) (gather : Z -> F -> P) size (l : list (op F C)) x y my f0 nm,
  let h := exec F C [] l in
  rooted F C h x y -> nth_error h y = Some my -> source_field F C r2c c2r my f0 ->
  preview F C P r2c c2r gather size h x nm = Ok (gather (match nm with Some k => k | None => size y end) f0).
Proof. exact preview_ok. Qed.
Print Assumptions C340_preview.
Theorem C340_views : forall (F C : Type) (raw : nat -> F) (l : list (op F C)) x y my f comp b,
  let h := exec F C [] l in
  rooted F C h x y -> nth_error h y = Some my -> m_cls F C my = CatalogMesh F C f comp ->
  to_real F C raw (length h) h x b = Ok (Some (if b then f else if x =? y then raw y else f)).
Proof. exact to_real_view. Qed.
Print Assumptions C340_views.

(* resampling leaves the marks 100 + Nmesh, gathering the marks 200 + Nmesh *)
Definition halve (n n' : Z) (x : T) : T := x ++ [Z.to_nat (100 + n')].
Definition seen (n : Z) (x : T) : T := x ++ [Z.to_nat (200 + n)].
Definition sides (_ : nat) : Z := 64.
Definition unscaled (_ : nat) : T := [77].
Example C340_ex : let h := exec T T [] program in
  rooted T T h 3 0 /\
  compute_at T T ident ident mark mark halve halve sides [] h 3 MReal (Some 32%Z) =
    Ok {| r_nmesh := 32; r_value := VReal T T [0; 9; 1; 2; 132]; r_attrs := result_attrs T T h 3 [] |} /\
  compute_at T T ident ident mark mark halve halve sides [] h 3 MReal (Some 64%Z) =
    Ok {| r_nmesh := 64; r_value := VReal T T [0; 9; 1; 2]; r_attrs := result_attrs T T h 3 [] |} /\
  preview T T T ident ident seen sides h 3 None = Ok [0; 264] /\
  to_real T T unscaled (length h) h 0 false = Ok (Some [77]) /\ to_real T T unscaled (length h) h 3 true = Ok (Some [0]).
Proof.
  cbn zeta. split; [|repeat split; reflexivity].
  eapply rooted_view; [reflexivity|reflexivity|reflexivity|]. eapply rooted_view; [reflexivity|reflexivity|reflexivity|].
  eapply rooted_view; [reflexivity|reflexivity|reflexivity|]. eapply rooted_self; [reflexivity|discriminate].
Qed.

(* ---- C341: the attribute Nmesh of the result is that of its mesh ---- *)
(* for every source that records its Nmesh (mesh.py:51-52) and every Nmesh asked for that is another *)
Theorem C341_nmesh_refuted : exists (l : list (op T T)) x r, let h := exec T T [] l in
  aget (attrs T T h x) 1 = Some (sides x) /\
  compute_at T T ident ident mark mark halve halve sides [] h x MReal (Some 32%Z) = Ok r /\
  r_nmesh T T r = 32%Z /\ aget (r_attrs T T r) 1 = Some 64%Z.
Proof. exists [ONew T T (Source T T (Some [0]) None) [(1, 64%Z)]], 0. eexists. cbn zeta. split; [reflexivity|]. split; [reflexivity|]. split; reflexivity. Qed.
Print Assumptions C341_nmesh_refuted.

(* ---- C342: a view has the fields of the mesh it views ---- *)
Theorem C342_normalize_refuted : exists (l : list (op T T)) x v, let h := exec T T [] l in
  m_base T T v = Some x /\ nth_error h 1 = Some v /\
  to_real T T unscaled (length h) h x false = Ok (Some [77]) /\ to_real T T unscaled (length h) h 1 false = Ok (Some [0]).
Proof. exists [ONew T T (CatalogMesh T T [0] (Some comp9)) [(0, 1%Z)]; OView T T 0], 0. eexists. cbn zeta. split; [|split; [reflexivity|split; reflexivity]]. reflexivity. Qed.
Print Assumptions C342_normalize_refuted.
