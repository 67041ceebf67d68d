(* What the parameter dictionaries of a cosmology should do, stated without the
   alias and conflict tables of the code. *)
From Coq Require Import String QArith Qcanon.
From Verif Require Import Base Num CosmoModel.
Local Open Scope nat_scope.

(* the physical quantity that a name specifies *)
Inductive quantity := QHubble | QPhotons | QBaryons | QFluid | QLambda | QUr | QCdm | QNcdm
  | QCurvature | QKmax | QZmax | QNonlinear | QAmplitude.

Definition quantity_of (k : key) : option quantity :=
  match k with
  | h | H0 | theta_s100 => Some QHubble
  | T_cmb | T0_cmb | Omega_g | omega_g | Omega0_g => Some QPhotons
  | Omega_b | omega_b | Omega0_b => Some QBaryons
  | Omega_fld | Omega0_fld => Some QFluid
  | Omega_Lambda | Omega0_Lambda | Omega_lambda | Omega0_lambda => Some QLambda
  | N_ur | Omega_ur | omega_ur | Omega0_ur => Some QUr
  | Omega_cdm | omega_cdm | Omega0_cdm => Some QCdm
  | m_ncdm | Omega_ncdm | omega_ncdm | Omega0_ncdm => Some QNcdm
  | P_k_max | P_k_max_h_Mpc | P_k_max_1_Mpc => Some QKmax
  | P_z_max | z_max_pk => Some QZmax
  | nonlinear | non_linear => Some QNonlinear
  | A_s | ln10_10_A_s => Some QAmplitude
  | Omega_k | Omega0_k => Some QCurvature
  | _ => None
  end.

(* two different names for the same quantity *)
Definition rivals (a b : key) : Prop := a <> b /\ quantity_of a <> None /\ quantity_of a = quantity_of b.

(* the name under which CLASS knows a parameter *)
Definition class_name (k : key) : key :=
  match k with
  | T0_cmb => T_cmb
  | Omega0_cdm => Omega_cdm | Omega0_b => Omega_b | Omega0_k => Omega_k | Omega0_ur => Omega_ur
  | Omega_lambda | Omega0_lambda | Omega0_Lambda => Omega_Lambda
  | Omega0_fld => Omega_fld | Omega0_ncdm => Omega_ncdm | Omega0_g => Omega_g
  | P_k_max => P_k_max_h_Mpc | P_z_max => z_max_pk | nonlinear => non_linear
  | k => k
  end.

(* the four names that the tables of the code do not connect to their rivals *)
Definition orphan (k : key) : bool :=
  match k with T0_cmb | Omega0_k | Omega_lambda | Omega0_lambda => true | _ => false end.

(* names whose value is translated, not copied (m_ncdm, N_ncdm, nonlinear), or
   that are switches of this package (verbose) *)
Definition translated (k : key) : bool :=
  match k with m_ncdm | N_ncdm | nonlinear | non_linear | verbose => true | _ => false end.

(* a parameter set to None is left to CLASS *)
Definition given (v : val) : option val := match v with VNone => None | v => Some v end.

Definition same_dict (p q : dict) : Prop := forall k, p k = q k.

(* A dictionary that CLASS can read: its own names only, and consistent. *)
Record class_pars (p : dict) : Prop := {
  cp_names : forall k, p k <> None -> class_name k = k /\ k <> verbose;
  cp_none : forall k, p k <> Some VNone;
  cp_output : p output <> None /\ p extra_metric <> None;
  cp_ncdm : forall v, p m_ncdm = Some v ->
              exists l, v = VList l /\ l <> [] /\ ~ In 0%Qc l /\
                        p N_ncdm = Some (VNum (zq (Z.of_nat (List.length l)))) /\ p N_ur <> None;
  cp_gauge : forall v, p gauge = Some v -> v = VStr "synchronous" \/ v = VStr "newtonian";
  cp_fluid : p w0_fld <> None \/ p wa_fld <> None -> p Omega_Lambda = Some (VNum 0);
  cp_nonlin : forall v, p non_linear = Some v -> v = VStr "halofit" }.

(* no quantity is specified twice *)
Definition consistent (d : dict) : Prop := forall a b, d a <> None -> d b <> None -> ~ rivals a b.

(* parameters that are handed to CLASS as they are, whatever else is given *)
Definition plain (k : key) : bool :=
  negb (orphan k) && negb (translated k) &&
  match quantity_of k with Some QUr | Some QLambda | Some QNcdm => false | _ => true end &&
  match k with gauge | w0_fld | wa_fld => false | _ => true end.
