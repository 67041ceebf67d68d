(* Cosmology parameters: C18, C49, C100 to C109. *)
From Coq Require Import String QArith Qcanon Qround Permutation.
From Verif Require Import Base Num CosmoModel CosmoSpec CosmoProofs CosmoMore CosmoUse CosmoDef.
Local Open Scope nat_scope.

(* C18: the given parameter has the given value, under the name CLASS uses *)
Theorem C18_clone_sets : forall p kw p' k v,
  clone p kw = Ok p' -> kw k = Some v ->
  orphan k = false -> translated k = false ->
  (k = N_ur -> v <> VNone) ->
  (class_name k = Omega_Lambda -> forall f, f = w0_fld \/ f = wa_fld -> kw f = None /\ p f = None) ->
  p' (class_name k) = given v.
Proof. exact clone_sets. Qed.
Print Assumptions C18_clone_sets.
(* C18: masses, the nonlinear switch and the dark energy fluid are translated *)
Theorem C18_clone_translated : forall p kw p' v, clone p kw = Ok p' ->
  (kw m_ncdm = Some v ->
     exists l, mass_list v = Ok l /\ ~ In 0%Qc l /\
       p' m_ncdm = match l with [] => None | _ => Some (VList l) end /\
       p' N_ncdm = Some (VNum (zq (Z.of_nat (List.length l))))) /\
  (kw nonlinear = Some v \/ kw non_linear = Some v ->
     p' non_linear = if truthy v then Some (VStr "halofit") else None) /\
  (kw w0_fld <> None \/ kw wa_fld <> None -> p' Omega_Lambda = Some (VNum 0)).
Proof. exact clone_translated. Qed.
Print Assumptions C18_clone_translated.
(* C18: no other specification of that quantity is left *)
Theorem C18_clone_conflicts_gone : forall p kw p' k k',
  class_pars p -> clone p kw = Ok p' ->
  (forall o, orphan o = true -> kw o = None) ->
  kw k <> None -> rivals k k' -> k' <> class_name k -> p' k' = None.
Proof. exact clone_conflicts_gone. Qed.
Print Assumptions C18_clone_conflicts_gone.
(* C18: everything else is unchanged *)
Theorem C18_clone_keeps : forall p kw p' k,
  class_pars p -> clone p kw = Ok p' ->
  (forall n, kw n <> None -> n <> k /\ ~ rivals n k) ->
  (k = N_ncdm -> kw m_ncdm = None) ->
  (k = Omega_Lambda -> kw w0_fld = None /\ kw wa_fld = None) ->
  (forall m, k = x_verbose m -> kw verbose = None) ->
  p' k = p k.
Proof. exact clone_keeps. Qed.
Print Assumptions C18_clone_keeps.
(* C18: clone() is the identity *)
Theorem C18_clone_identity : forall p, class_pars p -> consistent p ->
  exists p', clone p empty = Ok p' /\ same_dict p' p.
Proof. exact clone_identity. Qed.
Print Assumptions C18_clone_identity.
(* C18: contradictory arguments are refused *)
Theorem C18_refuses : forall p kw a b,
  orphan a = false -> orphan b = false -> kw a <> None -> kw b <> None -> rivals a b ->
  clone p kw = Err ValueError /\ cosmology_init kw = Err ValueError.
Proof. exact clone_refuses. Qed.
Print Assumptions C18_refuses.
(* C18: plain arguments that do not contradict each other are accepted, and
   whatever is accepted can be cloned again *)
Theorem C18_clone_total : forall p kw, class_pars p -> consistent p -> consistent kw ->
  (forall k, kw k <> None -> plain k = true) -> exists p', clone p kw = Ok p'.
Proof. exact clone_total. Qed.
Print Assumptions C18_clone_total.
Theorem C18_clone_again : forall p kw p', class_pars p -> clone p kw = Ok p' ->
  kw output <> Some VNone -> kw extra_metric <> Some VNone -> (forall o, orphan o = true -> kw o = None) ->
  class_pars p' /\ consistent p'.
Proof.
  exact (fun p kw p' H1 H2 H3 H4 H5 => conj (clone_closed p kw p' H1 H2 H3 H4) (clone_consistent p kw p' H1 H2 H5)).
Qed.
Print Assumptions C18_clone_again.
(* C18: what the constructor hands to CLASS is such a dictionary *)
Theorem C18_class_pars : forall args p, compile_args args = Ok p ->
  args output <> Some VNone -> args extra_metric <> Some VNone -> class_pars p.
Proof. exact compile_class. Qed.
Print Assumptions C18_class_pars.

Definition ex_kw2 : dict := set (kw1 Omega0_b (VNum (Q2Qc (5 # 100)))) H0 (VNum (zq 70)).
Example C18_clone_sets_ex :
  match clone small ex_kw2 with
  | Ok p' => p' Omega_b = Some (VNum (Q2Qc (5 # 100))) /\ p' Omega0_b = None /\ p' H0 = Some (VNum (zq 70)) /\
             p' h = None /\ small h <> None /\ p' T_cmb = small T_cmb /\ p' output = small output
  | Err _ => False
  end /\
  ex_kw2 Omega0_b = Some (VNum (Q2Qc (5 # 100))) /\ orphan Omega0_b = false /\ translated Omega0_b = false /\
  class_name Omega0_b = Omega_b /\ rivals H0 h /\ class_name H0 <> h.
Proof. split; [vm_compute; repeat split; discriminate|]. repeat split; discriminate. Qed.
Example C18_clone_translated_ex :
  match cosmology_init empty with
  | Ok p => match clone p (set (set (kw1 m_ncdm (VList [Q2Qc (1 # 10); Q2Qc (2 # 10)])) nonlinear (VBool true)) w0_fld (VNum (Q2Qc (-9 # 10)))) with
            | Ok p' => p m_ncdm = Some (VList [Q2Qc (6 # 100)]) /\ p' N_ncdm = Some (VNum (zq 2)) /\
                       p' non_linear = Some (VStr "halofit") /\ p' Omega_Lambda = Some (VNum 0)
            | Err _ => False end
  | Err _ => False
  end.
Proof. vm_compute. repeat split. Qed.
Example C18_hypotheses_ex : class_pars small /\ consistent small /\
  (forall k, ex_kw2 k <> None -> plain k = true) /\ (forall o, orphan o = true -> ex_kw2 o = None) /\
  (forall n, ex_kw2 n <> None -> n <> T_cmb /\ ~ rivals n T_cmb) /\ consistent ex_kw2 /\
  clone small (set ex_kw2 omega_b (VNum 1)) = Err ValueError /\ rivals Omega0_b omega_b.
Proof.
  assert (X : forall n, ex_kw2 n <> None -> n = Omega0_b \/ n = H0).
  { intros n. unfold ex_kw2, kw1, set, empty. destruct (key_eqb n H0) eqn:E; [apply key_eqb_true in E; auto|].
    destruct (key_eqb n Omega0_b) eqn:E2; [apply key_eqb_true in E2; auto|congruence]. }
  split; [exact small_class|]. split; [exact small_consistent|].
  split; [intros k Hk; destruct (X k Hk); subst; reflexivity|].
  split; [intros o Ho; destruct o; try discriminate Ho; reflexivity|].
  split; [intros n Hn; destruct (X n Hn); subst; split; try discriminate; intros (_ & _ & R); discriminate R|].
  split; [intros a b Ha Hb (R1 & _ & R2); destruct (X a Ha), (X b Hb); subst; try congruence; discriminate R2|].
  split; [vm_compute; reflexivity|repeat split; discriminate].
Qed.
Example C18_class_pars_ex :
  is_ok (compile_args (update init_defaults empty)) = true /\ update init_defaults empty output <> Some VNone.
Proof. split; [vm_compute; reflexivity|discriminate]. Qed.

(* C49: the dark energy equation of state survives the conversion to astropy *)
Theorem C49_to_astropy_w : forall c a, to_astropy c = Ok a ->
  (b_w0 c <> (- (1))%Qc \/ b_wa c = 0%Qc) ->
  astropy_w0 a = b_w0 c /\ astropy_wa a = b_wa c.
Proof. exact to_astropy_w. Qed.
Print Assumptions C49_to_astropy_w.
Example C49_ex :
  match to_astropy (ex_bg (Q2Qc (-9 # 10)) (Q2Qc (1 # 10))) with
  | Ok a => a_cls a = w0waCDM /\ a_flat a = true /\ (this (astropy_w0 a) = -9 # 10)%Q /\ (this (astropy_wa a) = 1 # 10)%Q /\
            map (fun m => Qnum (this m)) (astropy_masses a) = [3; 1; 0]%Z
  | Err _ => False
  end /\ Q2Qc (-9 # 10) <> (- (1))%Qc.
Proof. split; [vm_compute; repeat split|]. intros C. apply (f_equal this) in C. vm_compute in C. discriminate C. Qed.

(* C100: clone(name=value) changes the parameter for every accepted name: it
   does not for T0_cmb, Omega0_k, Omega_lambda and Omega0_lambda *)
Theorem C100_orphans_refuted : forall k, orphan k = true ->
  exists p kw p' v, class_pars p /\ consistent p /\ kw k = Some v /\ (forall x, kw x <> None -> x = k) /\
    clone p kw = Ok p' /\ p' (class_name k) <> Some v /\ p' (class_name k) = p (class_name k).
Proof. exact orphans_refuted. Qed.
Print Assumptions C100_orphans_refuted.
(* and never does when the cosmology had the parameter *)
Theorem C100_orphans_ignored : forall p kw p' k w v,
  class_pars p -> clone p kw = Ok p' -> orphan k = true -> kw k = Some w ->
  (forall x, kw x <> None -> x = k) -> p (class_name k) = Some v ->
  p' (class_name k) = Some v.
Proof. exact clone_orphan_ignored. Qed.
Print Assumptions C100_orphans_ignored.

(* C101: cloning with other neutrino masses gives the N_ur of a new cosmology with those masses *)
Theorem C101_stale_N_ur_refuted :
  exists p p' q, cosmology_init empty = Ok p /\ clone p (kw1 m_ncdm (VList [])) = Ok p' /\
    cosmology_init (kw1 m_ncdm (VList [])) = Ok q /\ p' N_ncdm = q N_ncdm /\ p' N_ur <> q N_ur.
Proof. exact stale_N_ur_refuted. Qed.
Print Assumptions C101_stale_N_ur_refuted.

(* C102: the massless species of a cosmology with massive neutrinos can be given by density: a KeyError instead *)
Theorem C102_ur_keyerror : forall p kw k,
  class_pars p -> consistent p -> p m_ncdm <> None ->
  k = Omega_ur \/ k = omega_ur \/ k = Omega0_ur -> (forall x, kw x <> None -> x = k) -> kw k <> None ->
  clone p kw = Err KeyError.
Proof. exact clone_ur_keyerror. Qed.
Print Assumptions C102_ur_keyerror.
Theorem C102_ur_density_refuted : exists p k v, cosmology_init empty = Ok p /\ quantity_of k = Some QUr /\
  clone p (kw1 k (VNum v)) = Err KeyError.
Proof. exact ur_density_refuted. Qed.
Print Assumptions C102_ur_density_refuted.
Example C102_ex : match cosmology_init empty with
  | Ok p => p m_ncdm <> None /\ clone p (kw1 Omega_ur (VNum (Q2Qc (1 # 1000)))) = Err KeyError
  | Err _ => False end.
Proof. vm_compute. split; [discriminate|reflexivity]. Qed.

(* C103: the constructor uses what it is given, under any alias *)
Theorem C103_init_sets : forall user p k v,
  cosmology_init user = Ok p -> user k = Some v -> translated k = false ->
  (k = N_ur -> v <> VNone) ->
  (forall k', user k' <> None -> ~ rivals k k') ->
  (class_name k = Omega_Lambda -> user w0_fld = None /\ user wa_fld = None) ->
  p (class_name k) = given v.
Proof. exact init_sets. Qed.
Print Assumptions C103_init_sets.
Example C103_ex :
  match cosmology_init (set (kw1 T0_cmb (VNum (zq 3))) Omega_b (VNum (Q2Qc (4 # 100)))) with
  | Ok p => p T_cmb = Some (VNum (zq 3)) /\ p Omega_b = Some (VNum (Q2Qc (4 # 100))) /\ p Omega0_b = None
  | Err _ => False end.
Proof. vm_compute. repeat split. Qed.

Theorem C103_defaults : forall user p k o, cosmology_init user = Ok p -> ~ mentions user k -> by_default k o -> p k = o.
Proof. intros user p k o H1 H2 H3. exact (proj1 (init_default user p k o o H1 H2 H3 H3)). Qed.
Print Assumptions C103_defaults.
Theorem C103_neutrinos : forall user p l, cosmology_init user = Ok p -> masses_of user l ->
  p N_ncdm = Some (VNum (zq (Z.of_nat (List.length l)))) /\ p m_ncdm = (match l with [] => None | _ => Some (VList l) end) /\ ~ In 0%Qc l /\
  (user N_ur = None -> exists q, massless (List.length l) q /\ p N_ur = Some (VNum q)) /\
  (forall x, user N_ur = Some (VNum x) -> p N_ur = Some (VNum x)).
Proof. exact init_neutrinos. Qed.
Print Assumptions C103_neutrinos.
Theorem C103_neutrinos_refused : forall user l, masses_of user l -> In 0%Qc l \/ (user N_ur = None /\ (3 < List.length l)%nat) -> is_ok (cosmology_init user) = false.
Proof. exact init_neutrinos_refused. Qed.
Print Assumptions C103_neutrinos_refused.
Example C103_defaults_ex : is_ok (cosmology_init (kw1 Omega_b (VNum (Q2Qc (4 # 100))))) = true /\ ~ mentions (kw1 Omega_b (VNum (Q2Qc (4 # 100)))) h /\ by_default h (Some (dec 67556 100000)) /\
  masses_of (kw1 m_ncdm (VList [Q2Qc (1 # 10); Q2Qc (1 # 20)])) [Q2Qc (1 # 10); Q2Qc (1 # 20)] /\
  match cosmology_init (kw1 m_ncdm (VList [Q2Qc (1 # 10); Q2Qc (1 # 20)])) with Ok p => p N_ur = Some (dec 10196 10000) /\ p N_ncdm = Some (VNum (zq 2)) | Err _ => False end.
Proof.
  split; [vm_compute; reflexivity|]. split.
  { intros (k & H1 & H2). unfold kw1, set, empty in H1. destruct (key_eqb k Omega_b) eqn:E; [|congruence]. apply CosmoProofs.key_eqb_true in E as ->. destruct H2 as [H2|[_ H2]]; discriminate. }
  split; [constructor|]. split; [reflexivity|]. vm_compute. split; reflexivity.
Qed.

(* C104: every contradiction is refused: T0_cmb with T_cmb is not *)
Theorem C104_contradiction_refuted : exists user p a b, cosmology_init user = Ok p /\ rivals T0_cmb T_cmb /\
  user T0_cmb = Some (VNum a) /\ user T_cmb = Some (VNum b) /\ a <> b /\ p T_cmb = Some (VNum b).
Proof. exact T0_and_T_refuted. Qed.
Print Assumptions C104_contradiction_refuted.

(* C105: the constructor hands every quantity to CLASS at most once: not with omega_b *)
Theorem C105_given_twice_refuted : exists user p, consistent user /\ cosmology_init user = Ok p /\
  rivals Omega_b omega_b /\ p Omega_b <> None /\ p omega_b <> None.
Proof. exact init_twice_refuted. Qed.
Print Assumptions C105_given_twice_refuted.

(* C106: match reaches the wanted density with the ratio of the components kept, and touches nothing else *)
Theorem C106_match_cb : forall self D c, class_pars self -> consistent self ->
  d_Omega0_cb D = (d_Omega0_b D + d_Omega0_cdm D)%Qc -> d_Omega0_cb D <> 0%Qc ->
  exists p' b cd, match_ self D None (Some c) None = Ok p' /\
    p' Omega_b = Some (VNum b) /\ p' Omega_cdm = Some (VNum cd) /\
    (b + cd)%Qc = c /\ (b * d_Omega0_cdm D)%Qc = (cd * d_Omega0_b D)%Qc /\
    forall k, quantity_of k <> Some QBaryons -> quantity_of k <> Some QCdm -> p' k = self k.
Proof. exact match_cb_ok. Qed.
Print Assumptions C106_match_cb.
Theorem C106_match_m : forall self D m, class_pars self -> consistent self ->
  d_Omega0_cb D = (d_Omega0_b D + d_Omega0_cdm D)%Qc -> d_Omega0_cb D <> 0%Qc ->
  exists p' b cd, match_ self D None None (Some m) = Ok p' /\
    p' Omega_b = Some (VNum b) /\ p' Omega_cdm = Some (VNum cd) /\
    (b + cd + (d_ncdm_tot D - d_pncdm_tot D) + d_dcdm D)%Qc = m /\ (b * d_Omega0_cdm D)%Qc = (cd * d_Omega0_b D)%Qc /\
    forall k, quantity_of k <> Some QBaryons -> quantity_of k <> Some QCdm -> p' k = self k.
Proof. exact match_m_ok. Qed.
Print Assumptions C106_match_m.
Theorem C106_match_sigma8 : forall self D s, class_pars self -> consistent self -> d_sigma8 D <> 0%Qc ->
  exists p' a, match_ self D (Some s) None None = Ok p' /\ p' A_s = Some (VNum a) /\
    (a * (d_sigma8 D * d_sigma8 D))%Qc = (d_A_s D * (s * s))%Qc /\
    p' ln10_10_A_s = None /\
    forall k, quantity_of k <> Some QAmplitude -> p' k = self k.
Proof. exact match_sigma8_ok. Qed.
Print Assumptions C106_match_sigma8.
Definition num (o : option val) : option Q := match o with Some (VNum x) => Some (this x) | _ => None end.
Definition ex_derived : derived :=
  {| d_A_s := Q2Qc (2 # 1000); d_sigma8 := Q2Qc (8 # 10); d_Omega0_b := Q2Qc (5 # 100); d_Omega0_cdm := Q2Qc (25 # 100);
     d_Omega0_cb := Q2Qc (30 # 100); d_ncdm_tot := Q2Qc (2 # 1000); d_pncdm_tot := Q2Qc (1 # 1000); d_dcdm := 0 |}.
Example C106_ex :
  d_Omega0_cb ex_derived = (d_Omega0_b ex_derived + d_Omega0_cdm ex_derived)%Qc /\
  match match_ small ex_derived None (Some (Q2Qc (36 # 100))) None with
  | Ok p' => num (p' Omega_b) = Some (3 # 50)%Q /\ p' T_cmb = small T_cmb
  | Err _ => False end /\
  match match_ small ex_derived (Some (Q2Qc (16 # 10))) None None with
  | Ok p' => num (p' A_s) = Some (1 # 125)%Q | Err _ => False end /\
  match_ small ex_derived (Some 1%Qc) (Some 1%Qc) None = Err ValueError.
Proof. split; [apply Qc_is_canon; reflexivity|]. vm_compute. repeat split. Qed.

(* C107: the equation of state always survives: not for w0 = -1 with wa different from 0 *)
Theorem C107_to_astropy_w0_refuted : exists c a, to_astropy c = Ok a /\ astropy_w0 a <> b_w0 c.
Proof. exact astropy_w0_refuted. Qed.
Print Assumptions C107_to_astropy_w0_refuted.

(* C108: from_astropy(to_astropy()) starts from the same parameters *)
Theorem C108_astropy_roundtrip : forall c a d Ok0,
  to_astropy c = Ok a -> astropy_to_dict a Ok0 = Ok d ->
  (forall m, In m (b_m_ncdm c) -> (0 < m)%Qc) ->
  (Z.of_nat (List.length (b_m_ncdm c)) <= Qfloor (this (b_Neff c)))%Z ->
  d h = Some (VNum (b_h c)) /\ d T0_cmb = Some (VNum (b_Tcmb0 c)) /\
  d Omega0_b = Some (VNum (b_Omega0_b c)) /\ d Omega0_cdm = Some (VNum (b_Omega0_cdm c)) /\
  (exists l, d m_ncdm = Some (VList l) /\ Permutation l (b_m_ncdm c)) /\
  ((b_w0 c <> (- (1))%Qc \/ b_wa c = 0%Qc) ->
     (b_w0 c = (- (1))%Qc -> d w0_fld = None /\ d wa_fld = None) /\
     (b_w0 c <> (- (1))%Qc -> d w0_fld = Some (VNum (b_w0 c)) /\ d wa_fld = Some (VNum (b_wa c)) /\
                            d Omega0_Lambda = Some (VNum 0))).
Proof. exact astropy_roundtrip. Qed.
Print Assumptions C108_astropy_roundtrip.
Example C108_ex :
  match (let! a := to_astropy (ex_bg (Q2Qc (-9 # 10)) 0) in astropy_to_dict a 0) with
  | Ok d => d w0_fld = Some (VNum (Q2Qc (-9 # 10))) /\ d m_ncdm = Some (VList [Q2Qc (1 # 10); Q2Qc (6 # 100)]) /\
            num (d Omega0_cdm) = Some (1 # 4)%Q
  | Err _ => False
  end.
Proof. vm_compute. repeat split. Qed.

(* C109: clone() is the identity after any clone: not after output=None *)
Theorem C109_output_none_refuted : exists p kw q q', class_pars p /\ consistent p /\
  clone p kw = Ok q /\ clone q empty = Ok q' /\ q output = None /\ q' output <> None.
Proof. exact output_none_refuted. Qed.
Print Assumptions C109_output_none_refuted.
