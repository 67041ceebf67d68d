(* The parameter dictionaries of Cosmology: nbodykit/cosmology/cosmology.py.

   A parameter dictionary is a function from names to optional values (its
   order is never observable; the loops over .keys() in the code only pop and
   set by name).  CLASS itself (classylss) is outside: only the dictionary that
   is handed to it is modelled. *)
From Coq Require Import Ascii String QArith Qcanon Qround.
From Verif Require Import Base Num.
Local Open Scope nat_scope.

(* the nine CLASS modules with a <module>_verbose parameter (line 579-580) *)
Inductive clmod := MInput | MBackground | MThermo | MPert | MTransfer
  | MPrimordial | MSpectra | MNonlinear | MLensing.

(* every name that the code mentions; all others are KOther *)
Inductive key :=
| h | H0 | theta_s100
| T_cmb | T0_cmb | Omega_g | omega_g | Omega0_g
| Omega_b | omega_b | Omega0_b
| Omega_fld | Omega0_fld
| Omega_Lambda | Omega0_Lambda | Omega_lambda | Omega0_lambda
| N_ur | Omega_ur | omega_ur | Omega0_ur
| Omega_cdm | omega_cdm | Omega0_cdm
| m_ncdm | Omega_ncdm | omega_ncdm | Omega0_ncdm | N_ncdm
| P_k_max | P_k_max_h_Mpc | P_k_max_1_Mpc
| P_z_max | z_max_pk
| nonlinear | non_linear
| A_s | ln10_10_A_s
| Omega_k | Omega0_k
| w0_fld | wa_fld
| gauge | verbose | output | extra_metric | n_s
| x_verbose (m : clmod)
| KOther (n : nat).

Definition key_eq_dec (a b : key) : {a = b} + {a <> b}.
Proof. repeat decide equality. Defined.
Definition key_eqb (a b : key) : bool := if key_eq_dec a b then true else false.

(* Python values that occur in such dictionaries; VObj stands for an object of
   some other type (a tuple, say) *)
Inductive val :=
| VNone | VNum (q : Qc) | VBool (b : bool) | VStr (s : string) | VList (l : list Qc) | VObj (n : nat).

Definition dict := key -> option val.
Definition empty : dict := fun _ => None.
Definition has (d : dict) (k : key) : bool := match d k with Some _ => true | None => false end.
Definition set (d : dict) (k : key) (v : val) : dict := fun x => if key_eqb x k then Some v else d x.
Definition del (d : dict) (k : key) : dict := fun x => if key_eqb x k then None else d x.
Definition update (d e : dict) : dict := fun x => match e x with Some v => Some v | None => d x end.

Definition memk (k : key) (l : list key) : bool := existsb (key_eqb k) l.

(* CONFLICTS, lines 724-737 *)
Definition CONFLICTS : list (list key) :=
  [ [h; H0; theta_s100];
    [T_cmb; Omega_g; omega_g; Omega0_g];
    [Omega_b; omega_b; Omega0_b];
    [Omega_fld; Omega0_fld];
    [Omega_Lambda; Omega0_Lambda];
    [N_ur; Omega_ur; omega_ur; Omega0_ur];
    [Omega_cdm; omega_cdm; Omega0_cdm];
    [m_ncdm; Omega_ncdm; omega_ncdm; Omega0_ncdm];
    [P_k_max; P_k_max_h_Mpc; P_k_max_1_Mpc];
    [P_z_max; z_max_pk];
    [nonlinear; non_linear];
    [A_s; ln10_10_A_s] ].

(* find_eqcls, lines 739-744 *)
Fixpoint find_cls (cs : list (list key)) (k : key) : list key :=
  match cs with
  | [] => []
  | c :: cs => if memk k c then c else find_cls cs k
  end.
Definition find_eqcls (k : key) : list key := find_cls CONFLICTS k.

(* check_args, lines 712-722.  Names outside the table have an empty class, so
   the loop over args.keys() is a loop over the names of the table. *)
Definition conflict_of (args : dict) (name : key) : list key :=
  filter (fun eq => negb (key_eqb eq name) && has args eq) (find_eqcls name).
Definition check_args (args : dict) : res unit :=
  if existsb (fun name => has args name && negb (Nat.eqb (List.length (conflict_of args name)) 0)) (List.concat CONFLICTS)
  then Err ValueError else Ok tt.

(* merge_args, lines 645-662 *)
Definition popped (more : dict) (k : key) : bool :=
  existsb (fun name => has more name && memk k (find_eqcls name)) (List.concat CONFLICTS).
Definition merge_args (args more : dict) : dict :=
  update (fun k => if popped more k then None else args k) more.

(* set_alias, lines 539-547: reads the original args, edits pars *)
Definition set_alias (args : dict) (pars : dict) (pars_name args_name : key) : dict :=
  match args args_name with
  | None => pars
  | Some v =>
      let pars := del pars args_name in
      let v := match args pars_name with Some v' => v' | None => v end in
      set pars pars_name v
  end.

Definition truthy (v : val) : bool :=
  match v with
  | VNone => false
  | VNum q => if Qc_eq_dec q 0 then false else true
  | VBool b => b
  | VStr s => match s with EmptyString => false | _ => true end
  | VList l => match l with [] => false | _ => true end
  | VObj _ => true
  end.

(* v > 0 *)
Definition positive (v : val) : res bool :=
  match v with
  | VNum q => Ok (if Qclt_le_dec 0 q then true else false)
  | VBool b => Ok b
  | _ => Err TypeError
  end.

Definition all_modules : list clmod :=
  [MInput; MBackground; MThermo; MPert; MTransfer; MPrimordial; MSpectra; MNonlinear; MLensing].

(* N_ur_table, line 623 *)
Definition N_ur_table : list Qc :=
  [Q2Qc (3046 # 1000); Q2Qc (20328 # 10000); Q2Qc (10196 # 10000); Q2Qc (641 # 100000)].

(* m_ncdm as a list, lines 590-603; a string is a scalar for numpy and would be
   passed on as a list with one string: outside the model *)
Definition mass_list (v : val) : res (list Qc) :=
  match v with
  | VNone => Ok []
  | VNum q => Ok [q]
  | VBool b => Ok [if b then 1%Qc else 0%Qc]
  | VList l => Ok l
  | VStr _ => Err OutOfContract
  | VObj _ => Err TypeError
  end.

(* lines 577-585 *)
Definition step_verbose (args pars : dict) : dict :=
  match args verbose with
  | None => pars
  | Some v =>
      let pars := del pars verbose in
      if truthy v
      then fold_left (fun p m => if has p (x_verbose m) then p else set p (x_verbose m) (VNum 1)) all_modules pars
      else pars
  end.

(* lines 587-625 *)
Definition step_mncdm (args pars : dict) : res dict :=
  match args m_ncdm with
  | None => Ok pars
  | Some v =>
      let pars := del pars m_ncdm in
      let! l := mass_list v in
      if existsb (fun m => if Qc_eq_dec m 0 then true else false) l then Err ValueError else
      let pars := set pars N_ncdm (VNum (zq (Z.of_nat (List.length l)))) in
      let pars := match l with [] => pars | _ => set pars m_ncdm (VList l) end in
      match args N_ur with
      | None => Err KeyError
      | Some VNone =>
          match nth_error N_ur_table (List.length l) with
          | Some q => Ok (set pars N_ur (VNum q))
          | None => Err IndexError
          end
      | Some _ => Ok pars
      end
  end.

(* lines 627-629 *)
Definition step_N_ur (args pars : dict) : dict :=
  match args N_ur with
  | None | Some VNone => pars
  | Some v => set pars N_ur v
  end.

(* lines 631-634 *)
Definition step_gauge (args : dict) : res unit :=
  match args gauge with
  | None => Ok tt
  | Some (VStr s) => if (String.eqb s "synchronous" || String.eqb s "newtonian")%bool then Ok tt else Err ValueError
  | Some _ => Err ValueError
  end.

(* lines 636-641 *)
Definition step_fluid (args pars : dict) : res dict :=
  if has args w0_fld || has args wa_fld then
    let! p := positive (match pars Omega_Lambda with Some v => v | None => VNum 0 end) in
    if p then Err ValueError else Ok (set pars Omega_Lambda (VNum 0))
  else Ok pars.

(* lines 653-657 *)
Definition step_nonlinear (pars : dict) : dict :=
  let v := match pars non_linear with Some v => v | None => VBool false end in
  let pars := del pars non_linear in
  if truthy v then set pars non_linear (VStr "halofit") else pars.

(* lines 659-662 *)
Definition drop_none (pars : dict) : dict :=
  fun k => match pars k with Some VNone => None | x => x end.

Definition defaults : dict :=
  set (set empty output (VStr "vTk dTk mPk")) extra_metric (VStr "y").

(* the eleven aliases of lines 549-559 *)
Definition aliases1 : list (key * key) :=
  [ (T_cmb, T0_cmb); (Omega_cdm, Omega0_cdm); (Omega_b, Omega0_b); (Omega_k, Omega0_k);
    (Omega_ur, Omega0_ur); (Omega_Lambda, Omega_lambda); (Omega_Lambda, Omega0_lambda);
    (Omega_Lambda, Omega0_Lambda); (Omega_fld, Omega0_fld); (Omega_ncdm, Omega0_ncdm); (Omega_g, Omega0_g) ].
(* and the three of lines 644-651 *)
Definition aliases2 : list (key * key) :=
  [ (P_k_max_h_Mpc, P_k_max); (z_max_pk, P_z_max); (non_linear, nonlinear) ].

Definition run_aliases (args : dict) (al : list (key * key)) (pars : dict) : dict :=
  fold_left (fun p a => set_alias args p (fst a) (snd a)) al pars.

(* compile_args, lines 514-642 *)
Definition compile_args (args : dict) : res dict :=
  let pars := update defaults args in
  let pars := run_aliases args aliases1 pars in
  let pars := step_verbose args pars in
  let! pars := step_mncdm args pars in
  let pars := step_N_ur args pars in
  let! _ := step_gauge args in
  let! pars := step_fluid args pars in
  let pars := run_aliases args aliases2 pars in
  let pars := step_nonlinear pars in
  Ok (drop_none pars).

(* Cosmology.__init__ with keyword arguments of the current signature, lines
   117-171: user is what the caller passed (the named arguments and the extra
   keywords together) *)
Definition init_defaults : dict := fun k =>
  match k with
  | h => Some (VNum (Q2Qc (67556 # 100000)))
  | T0_cmb => Some (VNum (Q2Qc (27255 # 10000)))
  | Omega0_b => Some (VNum (Q2Qc (22032 # 1000000) / (Q2Qc (67556 # 100000) * Q2Qc (67556 # 100000)))%Qc)
  | Omega0_cdm => Some (VNum (Q2Qc (12038 # 100000) / (Q2Qc (67556 # 100000) * Q2Qc (67556 # 100000)))%Qc)
  | N_ur => Some VNone
  | m_ncdm => Some (VList [Q2Qc (6 # 100)])
  | P_k_max => Some (VNum (zq 10))
  | P_z_max => Some (VNum (zq 100))
  | gauge => Some (VStr "synchronous")
  | n_s => Some (VNum (Q2Qc (9667 # 10000)))
  | nonlinear => Some (VBool false)
  | verbose => Some (VBool false)
  | _ => None
  end.
Definition cosmology_new (user : dict) : res dict :=
  let args := update init_defaults user in
  let! _ := check_args user in
  compile_args args.
(* check_deprecated_init, lines 664-710: H0 is also a name of the old signature, which must not be mixed with other names;
   the old signature itself is in DepModel.  No KOther is an old name. *)
Definition named_keys : list key :=
  [h; theta_s100; T_cmb; T0_cmb; Omega_g; omega_g; Omega0_g; Omega_b; omega_b; Omega0_b; Omega_fld; Omega0_fld;
   Omega_Lambda; Omega0_Lambda; Omega_lambda; Omega0_lambda; N_ur; Omega_ur; omega_ur; Omega0_ur; Omega_cdm; omega_cdm; Omega0_cdm;
   m_ncdm; Omega_ncdm; omega_ncdm; Omega0_ncdm; N_ncdm; P_k_max; P_k_max_h_Mpc; P_k_max_1_Mpc; P_z_max; z_max_pk;
   nonlinear; non_linear; A_s; ln10_10_A_s; Omega_k; Omega0_k; w0_fld; wa_fld; gauge; verbose; output; extra_metric; n_s]
  ++ map x_verbose all_modules.
Definition cosmology_init (user : dict) : res dict :=
  if has user H0 then (if existsb (has user) named_keys then Err ValueError else Err OutOfContract)
  else cosmology_new user.

(* Cosmology.clone, lines 429-450: the parameters handed to from_dict *)
Definition clone (self kwargs : dict) : res dict :=
  let args := merge_args self kwargs in
  let! _ := check_args args in
  compile_args args.

(* ---- match, lines 253-290.  The derived quantities come from CLASS. ---- *)
Record derived := { d_A_s : Qc; d_sigma8 : Qc; d_Omega0_b : Qc; d_Omega0_cdm : Qc; d_Omega0_cb : Qc;
                    d_ncdm_tot : Qc; d_pncdm_tot : Qc; d_dcdm : Qc }.
Definition kw1 (k : key) (v : val) : dict := set empty k v.
Definition isome {A} (o : option A) : nat := match o with Some _ => 1 | None => 0 end.
Definition qdiv (a b : Qc) : res Qc := if Qc_eq_dec b 0 then Err ZeroDivisionError else Ok (a / b)%Qc.

Definition match_cb (self : dict) (D : derived) (cb : Qc) : res dict :=
  let! rat := qdiv cb (d_Omega0_cb D) in
  clone self (set (kw1 Omega_b (VNum (rat * d_Omega0_b D)%Qc)) Omega_cdm (VNum (rat * d_Omega0_cdm D)%Qc)).
Definition match_ (self : dict) (D : derived) (sigma8 cb m : option Qc) : res dict :=
  if negb (Nat.eqb (isome sigma8 + isome cb + isome m) 1) then Err ValueError else
  match sigma8 with
  | Some s => let! r := qdiv s (d_sigma8 D) in clone self (kw1 A_s (VNum (d_A_s D * (r * r))%Qc))
  | None =>
  match cb with
  | Some c => match_cb self D c
  | None =>
  match m with
  | Some m => match_cb self D (m - (d_ncdm_tot D - d_pncdm_tot D) - d_dcdm D)%Qc
  | None => Ok self
  end end end.

(* ---- to_astropy, lines 292-348, and astropy_to_dict, lines 452-512 ---- *)
Record bg := { b_h : Qc; b_Omega0_b : Qc; b_Omega0_cdm : Qc; b_Tcmb0 : Qc; b_Neff : Qc;
               b_m_ncdm : list Qc;      (* has_massive_nu is N_ncdm > 0 *)
               b_Ok0 : Qc; b_Ode0 : Qc; b_w0 : Qc; b_wa : Qc }.

Inductive acls := LambdaCDM | wCDM | w0waCDM.
(* an astropy cosmology: class, flatness, constructor arguments *)
Record astropy := { a_cls : acls; a_flat : bool; a_H0 : Qc; a_Om0 : Qc; a_Tcmb0 : Qc; a_Neff : Qc;
                    a_Ob0 : Qc; a_m_nu : option (list Qc); a_Ode0 : option Qc;
                    a_w0 : option Qc; a_wa : option Qc }.

(* m_nu[:len(m)] = m for m_nu = zeros(n): numpy broadcasts a single value *)
Definition fill_masses (n : nat) (m : list Qc) : res (list Qc) :=
  if List.length m <=? n then Ok (m ++ repeat 0%Qc (n - List.length m))
  else match m with
       | [x] => Ok []                     (* n = 0: nothing to fill *)
       | _ => Err ValueError
       end.

Definition to_astropy (c : bg) : res astropy :=
  let! m_nu := match b_m_ncdm c with
               | [] => Ok None
               | m => let! f := fill_masses (Z.to_nat (Qfloor (this (b_Neff c)))) m in Ok (Some f)
               end in
  let curved := if Qc_eq_dec (b_Ok0 c) 0 then false else true in
  let needs_wa := if Qc_eq_dec (b_wa c) 0 then false else true in
  let needs_w0 := if Qc_eq_dec (b_w0 c) (- (1)) then false else true in
  let w0 := if needs_wa then Some (b_wa c) else None in
  let w0 := if needs_w0 then Some (b_w0 c) else w0 in
  Ok {| a_cls := if needs_wa then w0waCDM else if needs_w0 then wCDM else LambdaCDM;
        a_flat := negb curved;
        a_H0 := (zq 100 * b_h c)%Qc;
        a_Om0 := (b_Omega0_b c + b_Omega0_cdm c)%Qc;
        a_Tcmb0 := b_Tcmb0 c; a_Neff := b_Neff c; a_Ob0 := b_Omega0_b c;
        a_m_nu := m_nu;
        a_Ode0 := if curved then Some (b_Ode0 c) else None;
        a_w0 := w0; a_wa := if needs_wa then Some (b_wa c) else None |}.

(* what an astropy object reports (contract of astropy: the attributes are the
   constructor arguments, missing ones have the documented defaults) *)
Definition astropy_w0 (a : astropy) : Qc :=
  match a_cls a with LambdaCDM => (- (1))%Qc | _ => match a_w0 a with Some w => w | None => (- (1))%Qc end end.
Definition astropy_wa (a : astropy) : Qc :=
  match a_cls a with w0waCDM => match a_wa a with Some w => w | None => 0%Qc end | _ => 0%Qc end.
Definition astropy_masses (a : astropy) : list Qc := match a_m_nu a with Some l => l | None => [] end.

Definition pos (q : Qc) : bool := if Qclt_le_dec 0 q then true else false.

Fixpoint ins_desc (x : Qc) (l : list Qc) : list Qc :=
  match l with
  | [] => [x]
  | y :: l => if Qclt_le_dec y x then x :: y :: l else y :: ins_desc x l
  end.
Definition sort_desc (l : list Qc) : list Qc := fold_right ins_desc [] l.

(* astropy_to_dict; Ok0 is what astropy computes *)
Definition astropy_to_dict (a : astropy) (Ok0 : Qc) : res dict :=
  let args := kw1 h (VNum (a_H0 a / zq 100)%Qc) in
  let args := set args T0_cmb (VNum (a_Tcmb0 a)) in
  if negb (pos (a_Ob0 a)) then Err ValueError else
  let args := set args Omega0_b (VNum (a_Ob0 a)) in
  let args := set args Omega0_cdm (VNum (a_Om0 a - a_Ob0 a)%Qc) in
  let! args :=
    (let massive := filter pos (astropy_masses a) in
     match massive with
     | [] => Ok (set (set args m_ncdm (VList [])) N_ur (VNum (a_Neff a)))
     | _ =>
         match nth_error [Q2Qc (20328 # 10000); Q2Qc (10196 # 10000); Q2Qc (641 # 100000)] (List.length massive - 1) with
         | None => Err IndexError
         | Some f => Ok (set (set args N_ur (VNum (a_Neff a / Q2Qc (3046 # 1000) * f)%Qc))
                             m_ncdm (VList (sort_desc massive)))
         end
     end) in
  let args := set args Omega0_k (VNum Ok0) in
  Ok match a_cls a with
     | LambdaCDM => args
     | wCDM => set (set (set args w0_fld (VNum (astropy_w0 a))) wa_fld (VNum 0)) Omega0_Lambda (VNum 0)
     | w0waCDM => set (set (set args w0_fld (VNum (astropy_w0 a))) wa_fld (VNum (astropy_wa a))) Omega0_Lambda (VNum 0)
     end.
