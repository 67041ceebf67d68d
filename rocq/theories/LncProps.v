(* C347 - C350 *)
From Verif Require Import Base BaseProofs LncModel LncProofs.
From Coq Require Import QArith Qcanon.
Local Open Scope nat_scope.

(* ---- C347: seeds, cosmology and meta-data of LogNormalCatalog ---- *)
Theorem C347_made : forall sample size draw P nbar bias seed cosmo_seed cosmo redshift unitary inverted,
  (forall e, LogNormalCatalog sample size draw P nbar bias seed cosmo_seed cosmo redshift unitary inverted = Err e -> e = ValueError) /\
  (is_ok (LogNormalCatalog sample size draw P nbar bias seed cosmo_seed cosmo redshift unitary inverted) = true <->
   exists c z s cs, picks cosmo (p_cosmo P) c /\ picks redshift (p_redshift P) z /\ or_else seed (draw 0) s /\ or_else cosmo_seed s cs /\
     exists n, In n (sample c z (repeat (Some s) size) (repeat (Some cs) size)) /\ 0 < n).
Proof. exact mock_made. Qed.
Print Assumptions C347_made.
(* the last clause: the recorded seeds make the same catalog again *)
Theorem C347_mock : forall sample size draw P nbar bias seed cosmo_seed cosmo redshift unitary inverted m,
  LogNormalCatalog sample size draw P nbar bias seed cosmo_seed cosmo redshift unitary inverted = Ok m ->
  exists s cs, or_else seed (draw 0) s /\ or_else cosmo_seed s cs /\
    k_seeds m = repeat (Some s) size /\ k_cosmo_seeds m = repeat (Some cs) size /\
    picks cosmo (p_cosmo P) (k_cosmo m) /\ picks redshift (p_redshift P) (k_redshift m) /\
    k_sizes m = sample (k_cosmo m) (k_redshift m) (repeat (Some s) size) (repeat (Some cs) size) /\
    length (k_attrs m) = size /\
    (forall d, In d (k_attrs m) -> d KSeed = Some (VInt (Some s)) /\ d KCosmoSeed = Some (VInt (Some cs)) /\ d KRedshift = Some (VNum (k_redshift m)) /\
      d KNbar = Some (VNum nbar) /\ d KBias = Some (VNum bias) /\ d KUnitary = Some (VBool unitary) /\ d KInverted = Some (VBool inverted) /\
      d KCosmo = match p_attrs P with Some e => e KCosmo | None => Some (VCosmo (k_cosmo m)) end) /\
    forall draw', LogNormalCatalog sample size draw' P nbar bias (Some s) (Some cs) (Some (k_cosmo m)) (Some (k_redshift m)) unitary inverted = Ok m.
Proof. exact mock_ok. Qed.
Print Assumptions C347_mock.

Definition q (n : Z) : Qc := Q2Qc (inject_Z n).
Definition some (_ : nat) (_ : Qc) (s _ : list (option Z)) : list nat := map (fun _ => 5) s.
Definition demo : power := {| l_transfer := 0; l_cosmo := 1; l_redshift := q 2; l_sigma8 := q 1 |}.
Definition drawn (r : nat) : Z := (100 + Z.of_nat r)%Z.
Example C347_ex : exists m, LogNormalCatalog some 3 drawn (as_plin demo) (q 4) (q 2) None None None None false true = Ok m /\
  k_seeds m = [Some 100%Z; Some 100%Z; Some 100%Z] /\ k_cosmo_seeds m = k_seeds m /\ map (fun d => d KCosmo) (k_attrs m) = repeat (Some (VCosmo 1)) 3.
Proof. eexists. split; [reflexivity|]. repeat split. Qed.
Example C347_given_ex : exists m, LogNormalCatalog some 2 drawn (as_plin demo) (q 4) (q 2) None (Some 7%Z) None (Some (q 1)) false true = Ok m /\
  k_seeds m = [Some 100%Z; Some 100%Z] /\ k_cosmo_seeds m = [Some 7%Z; Some 7%Z] /\ k_redshift m = q 1.
Proof. eexists. split; [reflexivity|]. repeat split. Qed.

(* ---- C348: attrs['cosmo'] is the cosmology of the catalog ---- *)
Theorem C348_cosmo_refuted : exists p c' m d, p_cosmo (as_plin p) = Some (l_cosmo p) /\ l_cosmo p <> c' /\
  LogNormalCatalog some 1 drawn (as_plin p) (q 4) (q 2) None None (Some c') None false false = Ok m /\
  k_cosmo m = c' /\ In d (k_attrs m) /\ d KCosmo = Some (VCosmo (l_cosmo p)).
Proof. exists demo, 2. eexists. eexists. split; [reflexivity|]. split; [discriminate|]. split; [reflexivity|]. split; [reflexivity|]. split; [left; reflexivity|reflexivity]. Qed.
Print Assumptions C348_cosmo_refuted.

(* ---- C349: the field and the meta-data of LinearMesh ---- *)
Theorem C349_linear : forall (F : Type) (gaussian : power -> list (option Z) -> list bool -> list bool -> F) size w i p seed u v rv draw later,
  nth_error (w_powers w) i = Some p ->
  let w' := exec size w (OMesh i seed u v rv draw :: later) in
  exists s p' attrs, or_else seed (draw 0) s /\ nth_error (w_powers w') i = Some p' /\
    to_complex_field gaussian w' (length (w_meshes w)) =
      Ok (gaussian p' (repeat (Some s) size) (repeat (match rv with Some b => b | None => u end) size) (repeat v size), attrs) /\
    length attrs = size /\
    (forall d, In d attrs -> d KSeed = Some (VInt (Some s)) /\ d KUnitary = Some (VBool (match rv with Some b => b | None => u end)) /\ d KInverted = Some (VBool v) /\
      forall k, d (KPlin k) = power_attrs p k) /\
    l_transfer p' = l_transfer p /\ l_cosmo p' = l_cosmo p /\ (Forall (fun o => ~ sets i o) later -> p' = p).
Proof. exact linear_mesh. Qed.
Print Assumptions C349_linear.
Definition fresh : world := {| w_powers := []; w_meshes := [] |}.
Definition story : list op := [OPower 0 1 (q 2) (q 1); OMesh 0 None false true (Some true) drawn; OPower 0 2 (q 3) (q 1); ORedshift 1 (q 0)].
Example C349_ex : match to_complex_field (fun p s u v => (l_cosmo p, s, u, v)) (exec 2 fresh story) 0 with
  | Ok (f, a) => f = (1, [Some 100%Z; Some 100%Z], [true; true], [true; true]) /\ map (fun d => d (KPlin KRedshift)) a = repeat (Some (VNum (q 2))) 2
  | Err _ => False
  end.
Proof. split; reflexivity. Qed.

(* ---- C350: the meta-data of the field tell the spectrum it has ---- *)
Theorem C350_spectrum_refuted : exists l f attrs d,
  to_complex_field (fun p _ _ _ => p) (exec 1 fresh l) 0 = Ok (f, attrs) /\ In d attrs /\ d (KPlin KRedshift) <> Some (VNum (l_redshift f)).
Proof.
  exists [OPower 0 1 (q 2) (q 1); OMesh 0 None false false None drawn; ORedshift 0 (q 0)]. eexists. eexists. eexists.
  split; [reflexivity|]. split; [left; reflexivity|]. intros E. apply (f_equal (fun x => match x with Some (VNum y) => this y | _ => (7 # 1)%Q end)) in E. vm_compute in E. discriminate E.
Qed.
Print Assumptions C350_spectrum_refuted.
