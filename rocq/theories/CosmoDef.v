(* The default parameters of a cosmology (cosmology.py 117-131 and 587-629). *)
From Coq Require Import String QArith Qcanon.
From Verif Require Import Base Num CosmoModel CosmoSpec CosmoProofs CosmoUse.
Local Open Scope nat_scope.

Definition dec (n : Z) (d : BinNums.positive) : val := VNum (Q2Qc (n # d)).
(* what CLASS gets when nothing is said about a quantity: h = 0.67556, 2.7255 K, one neutrino of 0.06 eV, and so on *)
Inductive by_default : key -> option val -> Prop :=
| d_h : by_default h (Some (dec 67556 100000))
| d_T : by_default T_cmb (Some (dec 27255 10000))
| d_b x : (x * (Q2Qc (67556 # 100000) * Q2Qc (67556 # 100000)))%Qc = Q2Qc (22032 # 1000000) -> by_default Omega_b (Some (VNum x))
| d_cdm x : (x * (Q2Qc (67556 # 100000) * Q2Qc (67556 # 100000)))%Qc = Q2Qc (12038 # 100000) -> by_default Omega_cdm (Some (VNum x))
| d_kmax : by_default P_k_max_h_Mpc (Some (dec 10 1))
| d_zmax : by_default z_max_pk (Some (dec 100 1))
| d_gauge : by_default gauge (Some (VStr "synchronous"))
| d_ns : by_default n_s (Some (dec 9667 10000))
| d_nl : by_default non_linear None
| d_ncdm : by_default m_ncdm (Some (VList [Q2Qc (6 # 100)])).
(* the argument mentions the quantity of k, or k itself *)
Definition mentions (user : dict) (k : key) : Prop := exists k', user k' <> None /\ (k' = k \/ (quantity_of k <> None /\ quantity_of k' = quantity_of k)).
Lemma init_default user p k o o' : cosmology_init user = Ok p -> ~ mentions user k -> by_default k o -> by_default k o' -> p k = o /\ o = o'.
Proof.
  intros H NM. apply init_new in H. unfold cosmology_new in H. cbv zeta in H. destruct (check_args user) as [[]|]; cbn [rbind] in H; [|discriminate].
  set (args := update init_defaults user) in *. rewrite (proj2 (proj2 (proj2 (proj1 (compile_pt args) p H))) k).
  assert (U : forall x, x = k \/ (quantity_of k <> None /\ quantity_of x = quantity_of k) -> args x = init_defaults x).
  { intros x Hx. unfold args, update. destruct (user x) eqn:E; [|reflexivity]. exfalso. apply NM. exists x. split; [congruence|exact Hx]. }
  assert (UQ : forall (x z : Qc), (x * (Q2Qc (67556 # 100000) * Q2Qc (67556 # 100000)))%Qc = z -> x = (z / (Q2Qc (67556 # 100000) * Q2Qc (67556 # 100000)))%Qc).
  { intros x z <-. field. intros E; apply (f_equal this) in E; vm_compute in E; discriminate. }
  intros D D'.
  destruct D; cbn [F A1]; inversion D'; subst; rewrite ?U by (auto || (right; split; [discriminate|reflexivity])); cbn [init_defaults orelse clean truthy mass_list]; 
   try (split; reflexivity).
  - match goal with A : (x * _)%Qc = _, B : (x0 * _)%Qc = _ |- _ => rewrite (UQ _ _ A), (UQ _ _ B) end. split; reflexivity.
  - match goal with A : (x * _)%Qc = _, B : (x0 * _)%Qc = _ |- _ => rewrite (UQ _ _ A), (UQ _ _ B) end. split; reflexivity.
Qed.

(* the neutrinos: a list of masses, a number or None; 3.046, 2.0328, 1.0196 and 0.00641 massless ones for none to three massive *)
Definition masses (v : val) (l : list Qc) : Prop := match v with VNone => l = [] | VNum q => l = [q] | VList l' => l = l' | _ => False end.
(* those of the arguments: by default one of 0.06 eV *)
Definition masses_of (user : dict) (l : list Qc) : Prop := match user m_ncdm with Some v => masses v l | None => l = [Q2Qc (6 # 100)] end.
Definition massless (n : nat) (q : Qc) : Prop := (n = 0 /\ q = Q2Qc (3046 # 1000)) \/ (n = 1 /\ q = Q2Qc (20328 # 10000)) \/ (n = 2 /\ q = Q2Qc (10196 # 10000)) \/ (n = 3 /\ q = Q2Qc (641 # 100000)).
Lemma init_neutrinos user p l : cosmology_init user = Ok p -> masses_of user l ->
  p N_ncdm = Some (VNum (zq (Z.of_nat (List.length l)))) /\ p m_ncdm = (match l with [] => None | _ => Some (VList l) end) /\ ~ In 0%Qc l /\
  (user N_ur = None -> exists q, massless (List.length l) q /\ p N_ur = Some (VNum q)) /\
  (forall x, user N_ur = Some (VNum x) -> p N_ur = Some (VNum x)).
Proof.
  intros H M. apply init_new in H. unfold cosmology_new in H. cbv zeta in H. destruct (check_args user) as [[]|]; cbn [rbind] in H; [|discriminate].
  set (args := update init_defaults user) in *. pose proof (proj1 (compile_pt args) p H) as (H1 & _ & _ & HF). rewrite !HF. cbn [F].
  assert (exists v, args m_ncdm = Some v /\ mass_list v = Ok l) as (v & A & ML).
  { unfold masses_of in M. unfold args, update. destruct (user m_ncdm) as [v|]; [exists v; split; [reflexivity|]; destruct v; cbn in M |- *; try contradiction; subst; reflexivity|].
    subst l. eexists. split; reflexivity. }
  unfold mass_ok in H1. rewrite A in *. rewrite ML.
  destruct H1 as (l' & E & NZ & NU & LT). rewrite ML in E. injection E as <-. split; [reflexivity|]. split; [destruct l; reflexivity|]. split; [exact NZ|]. split.
  - intros Hu. assert (B : args N_ur = Some VNone) by (unfold args, update; rewrite Hu; reflexivity). rewrite B. specialize (LT B). unfold massless.
    destruct l as [|a [|b [|c [|d l]]]]; cbn [List.length] in *; [| | | |lia]; cbn; eexists; (split; [|reflexivity]); auto 6.
  - intros x Hu. assert (B : args N_ur = Some (VNum x)) by (unfold args, update; rewrite Hu; reflexivity). rewrite B. reflexivity.
Qed.
Lemma init_neutrinos_refused user l : masses_of user l -> In 0%Qc l \/ (user N_ur = None /\ 3 < List.length l) -> is_ok (cosmology_init user) = false.
Proof.
  intros M HB. destruct (cosmology_init user) as [p|] eqn:E; [|reflexivity]. exfalso. destruct (init_neutrinos user p l E M) as (_ & _ & H1 & H2 & _).
  destruct HB as [HB|[HB HL]]; [contradiction|]. destruct (H2 HB) as (q & Hq & _). unfold massless in Hq. lia.
Qed.
