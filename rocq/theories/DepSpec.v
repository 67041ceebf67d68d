(* What the other ways to make a cosmology are meant to give. *)
From Coq Require Import String QArith Qcanon Qround Permutation.
From Verif Require Import Base Num CosmoModel CosmoSpec DepModel.
Local Open Scope nat_scope.
Local Notation length := List.length.

Definition old_name (n : name) : Prop := n = Key H0 \/ exists o, n = Old o.
(* the value of an old parameter: given, or the default of that time *)
Inductive default_of : name -> val -> Prop :=
| do_H : default_of (Key H0) (VNum (Q2Qc (676 # 10)))
| do_m : default_of (Old Om0) (VNum (Q2Qc (31 # 100)))
| do_b : default_of (Old Ob0) (VNum (Q2Qc (486 # 10000)))
| do_de : default_of (Old Ode0) (VNum (Q2Qc (69 # 100)))
| do_w : default_of (Old W0) (VNum (- (1))%Qc)
| do_T : default_of (Old Tcmb0) (VNum (Q2Qc (27255 # 10000)))
| do_N : default_of (Old Neff) (VNum (Q2Qc (304 # 100)))
| do_nu : default_of (Old Mnu) (VNum 0)
| do_flat : default_of (Old Flat) (VBool false).
Definition old_value (user : kwargs) (n : name) (v : val) : Prop := In (n, v) user \/ ~ In n (map fst user) /\ default_of n v.
Record params := { p_H : Qc; p_m : Qc; p_b : Qc; p_de : Qc; p_w : Qc; p_T : Qc; p_N : Qc; p_nu : list Qc; p_flat : bool }.
(* the masses of the species: one mass is that of all of them *)
Definition masses (T N : Qc) (v : val) (l : list Qc) : Prop :=
  let n := Z.to_nat (Qfloor (this N)) in (0 < T)%Qc /\ (v = VNum (hd 0%Qc l) /\ length l = n /\ (forall x, In x l -> x = hd 0%Qc l) /\ n <> 0 \/ v = VList l /\ length l = n).
Definition describes (user : kwargs) (q : params) : Prop :=
  old_value user (Key H0) (VNum (p_H q)) /\ old_value user (Old Om0) (VNum (p_m q)) /\ old_value user (Old Ob0) (VNum (p_b q)) /\
  old_value user (Old Ode0) (VNum (p_de q)) /\ old_value user (Old W0) (VNum (p_w q)) /\ old_value user (Old Tcmb0) (VNum (p_T q)) /\
  old_value user (Old Neff) (VNum (p_N q)) /\ (exists v, old_value user (Old Mnu) v /\ masses (p_T q) (p_N q) v (p_nu q)) /\
  exists v, old_value user (Old Flat) v /\ p_flat q = truthy v.
Definition sensible (q : params) : Prop := (0 < p_b q /\ p_b q <= p_m q /\ 0 <= p_N q)%Qc /\ Forall (fun m => 0 <= m)%Qc (p_nu q) /\ length (filter pos (p_nu q)) <= 3.
(* the number of massless species besides n massive ones *)
Definition massless (N : Qc) (n : nat) : Qc :=
  match n with 0 => N | 1 => N * Q2Qc (20328 # 30460) | 2 => N * Q2Qc (10196 # 30460) | _ => N * Q2Qc (641 # 304600) end%Qc.
(* the astropy object of the parameters *)
Definition object_of (q : params) (a : astropy) : Prop :=
  a_H0 a = p_H q /\ a_Om0 a = p_m q /\ a_Ob0 a = p_b q /\ a_Tcmb0 a = p_T q /\ a_Neff a = p_N q /\ a_m_nu a = Some (p_nu q) /\
  a_flat a = p_flat q /\ a_Ode0 a = (if p_flat q then None else Some (p_de q)) /\ (a_cls a = LambdaCDM <-> p_w q = (- (1))%Qc) /\ (a_cls a = wCDM <-> p_w q <> (- (1))%Qc).
Fixpoint descending (l : list Qc) : Prop := match l with [] => True | x :: r => Forall (fun y => y <= x)%Qc r /\ descending r end.
(* the parameters found in an astropy object with curvature ok *)
Inductive found (a : astropy) (ok : Qc) : key -> val -> Prop :=
| f_h : found a ok h (VNum (a_H0 a / zq 100)%Qc)
| f_T : found a ok T0_cmb (VNum (a_Tcmb0 a))
| f_b : found a ok Omega0_b (VNum (a_Ob0 a))
| f_cdm : found a ok Omega0_cdm (VNum (a_Om0 a - a_Ob0 a)%Qc)
| f_k : found a ok Omega0_k (VNum ok)
| f_ur : found a ok N_ur (VNum (massless (a_Neff a) (length (filter pos (astropy_masses a)))))
| f_nu l : Permutation l (filter pos (astropy_masses a)) -> descending l -> found a ok m_ncdm (VList l)
| f_w w : a_cls a <> LambdaCDM -> w = astropy_w0 a -> found a ok w0_fld (VNum w)
| f_wa w : a_cls a <> LambdaCDM -> w = astropy_wa a -> found a ok wa_fld (VNum w)
| f_L : a_cls a <> LambdaCDM -> found a ok Omega0_Lambda (VNum 0).
(* an operation does not change a dictionary that was given to from_dict before *)
Definition careful (prog : list op) : Prop := forall pre i k v post, prog = pre ++ SetItem i k v :: post -> ~ In (FromDict i) pre.
