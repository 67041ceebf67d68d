(* Model of the other ways to make a cosmology: cosmology/cosmology.py Cosmology.__init__ with positional arguments and with the
   names of before 0.2.6 (119-171, check_deprecated_init 664-710), from_astropy (350-378), from_dict and the dictionary that a
   cosmology keeps (179-186, 406-427).

   External: astropy objects have the arguments of their constructor as attributes; one mass of neutrinos is that of all
   floor(Neff) species; negative densities, numbers of species and masses, other numbers of masses and more baryons than matter
   raise ValueError; without a temperature there are no neutrinos; their curvature is an argument.  The engine of CLASS uses the
   parameters of the moment it is made. *)
From Coq Require Import String QArith Qcanon Qround.
From Verif Require Import Base Num CosmoModel.
Local Open Scope nat_scope.
Local Notation length := List.length.
Local Notation concat := List.concat.

(* old names; H0 is one of them and a name of CLASS *)
Inductive old := Om0 | Ob0 | Ode0 | W0 | Tcmb0 | Neff | Mnu | Flat.
Inductive name := Key (k : key) | Old (o : old).
Definition name_eq_dec (a b : name) : {a = b} + {a <> b}. Proof. repeat decide equality. Defined.
Definition name_eqb (a b : name) : bool := if name_eq_dec a b then true else false.
Definition is_old (n : name) : bool := match n with Old _ => true | Key k => key_eqb k H0 end.
Definition kwargs := list (name * val).
Definition kw_get (user : kwargs) (n : name) : option val := option_map snd (find (fun e => name_eqb (fst e) n) user).
Definition dict_of (user : kwargs) : dict := fun k => kw_get user (Key k).

(* the defaults of 674-675 *)
Definition old_default (n : name) : val :=
  match n with
  | Key _ => VNum (Q2Qc (676 # 10))
  | Old Om0 => VNum (Q2Qc (31 # 100)) | Old Ob0 => VNum (Q2Qc (486 # 10000)) | Old Ode0 => VNum (Q2Qc (69 # 100))
  | Old W0 => VNum (- (1))%Qc | Old Tcmb0 => VNum (Q2Qc (27255 # 10000)) | Old Neff => VNum (Q2Qc (304 # 100))
  | Old Mnu => VNum 0 | Old Flat => VBool false
  end.
Definition old_get (user : kwargs) (n : name) : val := match kw_get user n with Some v => v | None => old_default n end.
Definition number (v : val) : res Qc := match v with VNum q => Ok q | _ => Err OutOfContract end.
Definition neg (q : Qc) : bool := if Qclt_le_dec q 0 then true else false.
(* the masses of the species *)
Definition species (T N : Qc) (v : val) : res (list Qc) :=
  let n := Z.to_nat (Qfloor (this N)) in
  if negb (pos T) then Ok [] else
  match v with
  | VNum m => if neg m && negb (n =? 0) then Err ValueError else Ok (repeat m n)
  | VList l => if n =? 0 then Ok [] else if existsb neg l then Err ValueError else if length l =? n then Ok l else Err ValueError
  | _ => Err OutOfContract
  end.
(* 690-709 *)
Definition old_object (user : kwargs) : res astropy :=
  let! H := number (old_get user (Key H0)) in let! om := number (old_get user (Old Om0)) in let! ob := number (old_get user (Old Ob0)) in
  let! ode := number (old_get user (Old Ode0)) in let! w := number (old_get user (Old W0)) in let! T := number (old_get user (Old Tcmb0)) in
  let! N := number (old_get user (Old Neff)) in
  let flat := truthy (old_get user (Old Flat)) in
  let lam := if Qc_eq_dec w (- (1)) then true else false in
  if neg om || neg N || neg ob then Err ValueError else if Qclt_le_dec om ob then Err ValueError else
  let! ms := species T N (old_get user (Old Mnu)) in
  Ok {| a_cls := if lam then LambdaCDM else wCDM; a_flat := flat; a_H0 := H; a_Om0 := om; a_Tcmb0 := T; a_Neff := N; a_Ob0 := ob; a_m_nu := Some ms;
        a_Ode0 := if flat then None else Some ode; a_w0 := if lam then None else Some w; a_wa := None |}.

(* the names of positional arguments, 119-131 *)
Definition positional : list key := [h; T0_cmb; Omega0_b; Omega0_cdm; N_ur; m_ncdm; P_k_max; P_z_max; gauge; n_s; nonlinear; verbose].
Definition by_position (vals : list val) : kwargs := combine (map Key positional) vals.
Definition has_name (user : kwargs) (n : name) : bool := match kw_get user n with Some _ => true | None => false end.
Section Dep.
Variable ok0 : astropy -> Qc.
(* the constructor with positional arguments and keywords *)
Definition construct (vals : list val) (user : kwargs) : res dict :=
  if length positional <? length vals then Err TypeError else
  if existsb (has_name user) (map fst (by_position vals)) then Err TypeError else
  let names := map fst user in
  if existsb is_old names then
    if negb (forallb is_old names) || negb (length vals =? 0) then Err ValueError else
    let! a := old_object user in
    let! args := astropy_to_dict a (ok0 a) in
    if existsb (fun n => match n with Key k => has args k | Old _ => false end) names then Err ValueError else
    let! _ := check_args (dict_of user) in
    compile_args args
  else
    let args := update (update init_defaults (dict_of (by_position vals))) (dict_of user) in
    let! _ := check_args (dict_of user) in
    compile_args args.
(* from_astropy; the names that are found are not old ones *)
Definition from_astropy (a : astropy) (kw : kwargs) : res dict :=
  let! args := astropy_to_dict a (ok0 a) in
  if existsb is_old (map fst kw) then Err ValueError else
  let user := update args (dict_of kw) in
  let! _ := check_args user in
  compile_args (update init_defaults user).
End Dep.

(* ---- dictionaries in memory ---- *)
(* a cosmology has the place of its dictionary (pars), and an engine made with some parameters; a program knows the places of
   the dictionaries that it made, or got from dict(c) *)
Record cosmo := { o_pars : nat; o_engine : dict }.
Record world := { w_cells : list dict; w_known : list nat; w_cosmos : list cosmo }.
Definition new_cell (w : world) (d : dict) : world * nat :=
  ({| w_cells := w_cells w ++ [d]; w_known := w_known w; w_cosmos := w_cosmos w |}, length (w_cells w)).
Definition know (w : world) (l : nat) : world := {| w_cells := w_cells w; w_known := w_known w ++ [l]; w_cosmos := w_cosmos w |}.
Definition new_cosmo (w : world) (c : cosmo) : world := {| w_cells := w_cells w; w_known := w_known w; w_cosmos := w_cosmos w ++ [c] |}.
Fixpoint put {X} (l : list X) (i : nat) (x : X) : list X := match l, i with [], _ => [] | _ :: l, 0 => x :: l | y :: l, S i => y :: put l i x end.
Inductive op :=
| NewDict (d : dict)                            (* {...} *)
| SetItem (i : nat) (k : key) (v : val)         (* d[k] = v for the i-th known dictionary *)
| FromDict (i : nat)                            (* Cosmology.from_dict(d) *)
| Make (user : dict)                            (* Cosmology with keywords *)
| Clone (c : nat) (kw : dict)                   (* c.clone with keywords *)
| AsDict (c : nat).                             (* dict(c) *)
Definition cell (w : world) (l : nat) : dict := nth l (w_cells w) empty.
Definition made (w : world) (r : res dict) : world :=                              (* __setstate__ with a fresh dictionary *)
  match r with Ok p => let (w, l) := new_cell w p in new_cosmo w {| o_pars := l; o_engine := p |} | Err _ => w end.
Definition step (w : world) (o : op) : world :=
  match o with
  | NewDict d => let (w, l) := new_cell w d in know w l
  | SetItem i k v => match nth_error (w_known w) i with
                     | Some l => {| w_cells := put (w_cells w) l (set (cell w l) k v); w_known := w_known w; w_cosmos := w_cosmos w |}
                     | None => w
                     end
  | FromDict i => match nth_error (w_known w) i with
                  | Some l => new_cosmo w {| o_pars := l; o_engine := cell w l |}
                  | None => w
                  end
  | Make user => made w (cosmology_init user)
  | Clone c kw => match nth_error (w_cosmos w) c with Some c => made w (clone (cell w (o_pars c)) kw) | None => w end
  | AsDict c => match nth_error (w_cosmos w) c with Some c => let (w, l) := new_cell w (cell w (o_pars c)) in know w l | None => w end
  end.
Definition start : world := {| w_cells := []; w_known := []; w_cosmos := [] |}.
Definition run (w : world) (prog : list op) : world := fold_left step prog w.
