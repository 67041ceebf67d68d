(* Model of nbodykit/cosmology/power/{transfers,linear,halofit,galaxy,zeldovich}.py and of CorrelationFunction in cosmology/correlation.py, over Reals.
   CLASS, scipy's quad and splines and mcfit are arguments.  Not modelled: conversion of astropy cosmologies (C108), warnings,
   the full integrals of ZeldovichPower (above k = 0.005). *)
From Verif Require Import Base ThreeModel.
From Coq Require Import Reals Lra String.
Local Open Scope R_scope.
Local Notation length := List.length.

(* what is used of a Cosmology *)
Record params := { c_h : R; c_Ob : R; c_Om : R; c_Tcmb : R; c_ns : R; c_H0 : R; c_kmin : R; c_kmax : R; c_sigma8 : R;
                   c_growth : R -> R;            (* scale_independent_growth_factor(z) *)
                   c_pklin : R -> R -> R;        (* get_pklin(k, z) *)
                   c_pk : R -> R -> R }.         (* get_pk(k, z) *)

(* ---- arguments k: numbers or arrays, of floats or integers; results are lists of values ---- *)
Inductive karg := Scalar (x : R) | IntScalar (n : Z) | Floats (l : list R) | Ints (l : list Z).
Definition values (k : karg) : list R := match k with Scalar x => [x] | IntScalar n => [IZR n] | Floats l => l | Ints l => map IZR l end.
Definition reqb (x y : R) : bool := if Req_EM_T x y then true else false.
Definition scalar_zero (k : karg) : bool := match k with Scalar x => reqb x 0 | IntScalar n => (n =? 0)%Z | _ => false end.   (* numpy.isscalar(k) and k == 0. *)
Definition integral (k : karg) : bool := match k with IntScalar _ | Ints _ => true | _ => false end.
Definition trunc (x : R) : R := if rltb x 0 then - IZR (Int_part (- x)) else IZR (Int_part x).
Definition store (k : karg) (x : R) : R := if integral k then trunc x else x.       (* an element of numpy.zeros_like(k) *)

(* ---- EisensteinHu, transfers.py 89-182 ---- *)
Record eh := { Obh2 : R; Omh2 : R; f_baryon : R; k_eq : R; sound_horizon : R; k_silk : R; alpha_c : R; beta_c : R; alpha_b : R; beta_node : R; beta_b : R }.
Definition eh_setup (c : params) : eh :=
  let Obh2 := c_Ob c * c_h c ^ 2 in let Omh2 := c_Om c * c_h c ^ 2 in
  let f_baryon := c_Ob c / c_Om c in let theta := c_Tcmb c / (27 / 10) in
  let z_eq := 25000 * Omh2 * / theta ^ 4 in
  let k_eq := 746 / 10000 * Omh2 * / theta ^ 2 in
  let z_drag_b1 := 313 / 1000 * Rpower Omh2 (- (419 / 1000)) * (1 + 607 / 1000 * Rpower Omh2 (674 / 1000)) in
  let z_drag_b2 := 238 / 1000 * Rpower Omh2 (223 / 1000) in
  let z_drag := 1291 * Rpower Omh2 (251 / 1000) / (1 + 659 / 1000 * Rpower Omh2 (828 / 1000)) * (1 + z_drag_b1 * Rpower Obh2 z_drag_b2) in
  let r_drag := 315 / 10 * Obh2 * / theta ^ 4 * (1000 / (1 + z_drag)) in
  let r_eq := 315 / 10 * Obh2 * / theta ^ 4 * (1000 / z_eq) in
  let sound_horizon := 2 / (3 * k_eq) * sqrt (6 / r_eq) * ln ((sqrt (1 + r_drag) + sqrt (r_drag + r_eq)) / (1 + sqrt r_eq)) in
  let k_silk := 16 / 10 * Rpower Obh2 (52 / 100) * Rpower Omh2 (73 / 100) * (1 + Rpower (104 / 10 * Omh2) (- (95 / 100))) in
  let a1 := Rpower (469 / 10 * Omh2) (670 / 1000) * (1 + Rpower (321 / 10 * Omh2) (- (532 / 1000))) in
  let a2 := Rpower (12 * Omh2) (424 / 1000) * (1 + Rpower (45 * Omh2) (- (582 / 1000))) in
  let alpha_c := Rpower a1 (- f_baryon) * Rpower a2 (- f_baryon ^ 3) in
  let b1 := 944 / 1000 / (1 + Rpower (458 * Omh2) (- (708 / 1000))) in
  let b2 := 395 / 1000 * Rpower Omh2 (- (266 / 10000)) in
  let beta_c := 1 / (1 + b1 * Rpower (1 - f_baryon) b2 - 1) in
  let y := z_eq / (1 + z_drag) in
  let G := y * (- 6 * sqrt (1 + y) + (2 + 3 * y) * ln ((sqrt (1 + y) + 1) / (sqrt (1 + y) - 1))) in
  let alpha_b := 207 / 100 * k_eq * sound_horizon * Rpower (1 + r_drag) (- (75 / 100)) * G in
  {| Obh2 := Obh2; Omh2 := Omh2; f_baryon := f_baryon; k_eq := k_eq; sound_horizon := sound_horizon; k_silk := k_silk;
     alpha_c := alpha_c; beta_c := beta_c; alpha_b := alpha_b; beta_node := 841 / 100 * Rpower Omh2 (435 / 1000);
     beta_b := 1 / 2 + f_baryon + (3 - 2 * f_baryon) * sqrt ((172 / 10 * Omh2) ^ 2 + 1) |}.
Definition eh_T (c : params) (k : R) : R :=                               (* one k > 0, 159-181 *)
  let p := eh_setup c in
  let k := k * c_h c in let q := k / (1341 / 100 * k_eq p) in let ks := k * sound_horizon p in
  let ln_beta := ln (exp 1 + 18 / 10 * beta_c p * q) in
  let ln_nobeta := ln (exp 1 + 18 / 10 * q) in
  let C_alpha := 142 / 10 / alpha_c p + 386 / (1 + 699 / 10 * Rpower q (108 / 100)) in
  let C_noalpha := 142 / 10 + 386 / (1 + 699 / 10 * Rpower q (108 / 100)) in
  let T_c_f := 1 / (1 + (ks / (54 / 10)) ^ 4) in
  let f a b := a / (a + b * q ^ 2) in
  let T_c := T_c_f * f ln_beta C_noalpha + (1 - T_c_f) * f ln_beta C_alpha in
  let s_tilde := sound_horizon p * Rpower (1 + (beta_node p / ks) ^ 3) (- (1 / 3)) in
  let ks_tilde := k * s_tilde in
  let T0 := f ln_nobeta C_noalpha in
  let T_b_1 := T0 / (1 + (ks / (52 / 10)) ^ 2) in
  let T_b_2 := alpha_b p / (1 + (beta_b p / ks) ^ 3) * exp (- Rpower (k / k_silk p) (14 / 10)) in
  let sinc := sin ks_tilde / ks_tilde in                                  (* numpy.sinc(x / pi), x > 0 *)
  f_baryon p * (sinc * (T_b_1 + T_b_2)) + (1 - f_baryon p) * T_c.
(* ---- NoWiggleEisensteinHu, 200-255 ---- *)
Definition nw_horizon (c : params) : R := c_h c * (445 / 10) * ln (983 / 100 / (c_Om c * c_h c ^ 2)) / sqrt (1 + 10 * Rpower (c_Ob c * c_h c ^ 2) (75 / 100)).
Definition nw_alpha (c : params) : R :=
  let Omh2 := c_Om c * c_h c ^ 2 in let f := c_Ob c / c_Om c in
  1 - 328 / 1000 * ln (431 * Omh2) * f + 38 / 100 * ln (223 / 10 * Omh2) * f ^ 2.
Definition nw_T (c : params) (k : R) : R :=
  let Omh2 := c_Om c * c_h c ^ 2 in let theta := c_Tcmb c / (27 / 10) in
  let k_eq := 746 / 10000 * Omh2 * / theta ^ 2 in
  let k := k * c_h c in let ks := k * nw_horizon c / c_h c in let q := k / (1341 / 100 * k_eq) in
  let gamma_eff := Omh2 * (nw_alpha c + (1 - nw_alpha c) / (1 + (43 / 100 * ks) ^ 4)) in
  let q_eff := q * Omh2 / gamma_eff in
  let L0 := ln (2 * exp 1 + 18 / 10 * q_eff) in
  let C0 := 142 / 10 + 731 / (1 + 625 / 10 * q_eff) in
  L0 / (L0 + C0 * q_eff ^ 2).
(* __call__ of the two, 152-182 and 237-255 *)
Definition analytic (T : R -> R) (c : params) (z : R) (k : karg) : list R :=
  if scalar_zero k then [1] else map (fun x => (if rltb 0 x then T x else 1) * c_growth c z) (values k).
(* ---- CLASS, 19-70: norm is the attribute _norm ---- *)
Definition class_T (c : params) (norm z : R) (x : R) : R :=
  if rltb 0 x then norm * sqrt (c_pklin c x z / c_h c ^ 3 / Rpower (x * c_h c) (c_ns c)) else c_growth c z.
Definition KMIN : R := / 10 ^ 8.
Definition class_norm (c : params) : R := 1 / class_T c 1 0 KMIN.

(* ---- LinearPower, linear.py ---- *)
Inductive kind := CLASS | EisensteinHu | NoWiggle.
Definition kind_of (s : string) : res kind :=                              (* 48-49 *)
  if String.eqb s "CLASS" then Ok CLASS else if String.eqb s "EisensteinHu" then Ok EisensteinHu else if String.eqb s "NoWiggleEisensteinHu" then Ok NoWiggle else Err ValueError.
Record power := { p_cosmo : params; p_kind : kind; p_cnorm : R; p_sigma8 : R; p_norm : R; p_z : R }.
Definition kpow (c : params) (k : R) : R := if rltb 0 k then Rpower k (c_ns c) else 0.   (* k ** n_s *)
Definition combine_with {A B C} (f : A -> B -> C) (l : list A) (m : list B) : list C := map (fun p => f (fst p) (snd p)) (combine l m).
Definition pcall (p : power) (k : karg) : list R :=                        (* __call__, 134-156 *)
  let c := p_cosmo p in let z := p_z p in
  let Pk := match p_kind p with
    | EisensteinHu => combine_with (fun x T => kpow c x * T ^ 2) (values k) (analytic (eh_T c) c z k)
    | NoWiggle => combine_with (fun x T => kpow c x * T ^ 2) (values k) (analytic (nw_T c) c z k)
    | CLASS => map (fun x => store k (
        if rltb x (99999 / 100000 * c_kmax c) then kpow c x * class_T c (p_cnorm p) z x ^ 2
        else
          let T x := (if rltb 0 x then eh_T c x else 1) * c_growth c z in
          kpow c x * (T x * (class_T c (p_cnorm p) z (c_kmax c) / T (c_kmax c))) ^ 2)) (values k)
    end in
  map (fun x => p_norm p * x) Pk.
Section Power.
Variable grid : list R.                     (* logspace(log10(kmin), log10(kmax), 1024) *)
Variable tophat : list R -> R -> R.         (* TophatVar and the spline: the variance at r from the power on the grid *)
Definition sigma_r (p : power) (r : R) : R := sqrt (tophat (pcall p (Floats grid)) r).                          (* 214-218 *)
Definition set_redshift (p : power) (z : R) : power :=                     (* 86-90 *)
  {| p_cosmo := p_cosmo p; p_kind := p_kind p; p_cnorm := p_cnorm p; p_sigma8 := p_sigma8 p; p_norm := p_norm p; p_z := z |}.
Definition set_sigma8 (p : power) (v : R) : res power :=                   (* 104-112; value and _sigma8 are Python floats *)
  if reqb (p_sigma8 p) 0 then Err ZeroDivisionError else
  Ok {| p_cosmo := p_cosmo p; p_kind := p_kind p; p_cnorm := p_cnorm p; p_sigma8 := v; p_norm := p_norm p * (v / p_sigma8 p) ^ 2; p_z := p_z p |}.
Definition LinearPower (c : params) (z : R) (transfer : string) : res power :=   (* 42-63 *)
  let! kd := kind_of transfer in
  let p := {| p_cosmo := c; p_kind := kd; p_cnorm := class_norm c; p_sigma8 := c_sigma8 c; p_norm := 1; p_z := 0 |} in
  Ok {| p_cosmo := c; p_kind := kd; p_cnorm := class_norm c; p_sigma8 := c_sigma8 c; p_norm := (c_sigma8 c / sigma_r p 8) ^ 2; p_z := z |}.
Inductive op := Redshift (z : R) | Sigma8 (v : R).
Definition do_op (p : power) (o : op) : res power := match o with Redshift z => Ok (set_redshift p z) | Sigma8 v => set_sigma8 p v end.
Fixpoint do_ops (p : power) (l : list op) : res power := match l with [] => Ok p | o :: l => let! p := do_op p o in do_ops p l end.

(* ---- ZeldovichPower, zeldovich.py: its state and the approximation at low k ---- *)
Variable dispersion third : power -> R.     (* velocity_dispersion(...) ** 2 and the integral for Q3 of the linear power *)
Variable J0 J1 : power -> list R.           (* the integrals I0 and I1 *)
Record zeldovich := { z_lin : power; z_z : R; z_sigma8 : R; z_X : list R; z_Y : list R; z_sigmasq : R; z_Q3 : R }.
Definition setup (lin : power) (z sigma8 : R) : zeldovich :=               (* _setup, 91-105 *)
  {| z_lin := lin; z_z := z; z_sigma8 := sigma8;
     z_X := map (fun i => - 2 * i + 2 * dispersion lin) (J1 lin);
     z_Y := combine_with (fun i0 i1 => - 2 * i0 + 6 * i1) (J0 lin) (J1 lin);
     z_sigmasq := dispersion lin; z_Q3 := third lin |}.
Definition Zeldovich (c : params) (z : R) (transfer : string) : res zeldovich :=   (* 57-62 *)
  let! lin := LinearPower c z transfer in Ok (setup (set_redshift lin z) z (c_sigma8 c)).
Definition z_op (s : zeldovich) (o : op) : res zeldovich :=                (* 114-131 *)
  match o with
  | Redshift z => Ok (setup (set_redshift (z_lin s) z) z (z_sigma8 s))
  | Sigma8 v => let! lin := set_sigma8 (z_lin s) v in Ok (setup lin (z_z s) v)
  end.
Fixpoint z_ops (s : zeldovich) (l : list op) : res zeldovich := match l with [] => Ok s | o :: l => let! s := z_op s o in z_ops s l end.
Definition low_k (s : zeldovich) (k : R) : R :=                            (* _low_k_approx, 145-150 *)
  let Q3 := 1 / (10 * PI ^ 2) * k ^ 4 * z_Q3 s in
  let Plin := hd 0 (pcall (z_lin s) (Scalar k)) in
  (1 - k ^ 2 * z_sigmasq s + / 2 * k ^ 4 * z_sigmasq s ^ 2) * Plin + / 2 * Q3.

(* ---- CorrelationFunction of a LinearPower, correlation.py 136-144 ---- *)
Variable fftlog : list R -> R -> R.         (* pk_to_xi on the grid *)
Definition xi (p : power) (smoothing r : R) : R :=
  fftlog (combine_with (fun k P => P * exp (- (k * smoothing) ^ 2)) grid (pcall p (Floats grid))) r.
End Power.

(* ---- HalofitPower, halofit.py ---- *)
Section Halofit.
Variable match_sigma8 : params -> R -> params.                             (* Cosmology.match(sigma8=...), C106 *)
Record halofit := { h_cosmo : params; h_z : R; h_sigma8 : R; h_attrs : params }.        (* h_attrs: attrs['cosmo'] *)
Definition Halofit (c : params) (z : R) : halofit := {| h_cosmo := c; h_z := z; h_sigma8 := c_sigma8 c; h_attrs := c |}.
Definition h_set_sigma8 (s : halofit) (v : R) : halofit := let c := match_sigma8 (h_cosmo s) v in {| h_cosmo := c; h_z := h_z s; h_sigma8 := v; h_attrs := c |}.
Definition h_set_redshift (s : halofit) (z : R) : halofit := {| h_cosmo := h_cosmo s; h_z := z; h_sigma8 := h_sigma8 s; h_attrs := h_attrs s |}.
Fixpoint rmax (l : list R) : option R := match l with [] => None | x :: l => match rmax l with None => Some x | Some m => Some (Rmax x m) end end.
Definition h_call (s : halofit) (k : karg) : res (list R) :=               (* 78-95 *)
  let c := h_cosmo s in
  match rmax (values k) with
  | None => Err ValueError
  | Some m => if rltb (c_kmax c) m then Err ValueError else
    Ok (map (fun x => store k (if rltb (100001 / 100000 * c_kmin c) x then c_pk c x (h_z s) else c_pklin c x (h_z s))) (values k))
  end.
(* CorrelationFunction around it: attributes are copied when it is made, correlation.py 90-114 *)
Record correlation := { cf_power : halofit; cf_attrs : params }.
Definition Correlation (s : halofit) : correlation := {| cf_power := s; cf_attrs := h_attrs s |}.
Definition cf_set_sigma8 (c : correlation) (v : R) : correlation := {| cf_power := h_set_sigma8 (cf_power c) v; cf_attrs := cf_attrs c |}.
End Halofit.

(* ---- FNLGalaxyPower, galaxy.py: P is the linear power at the redshift ---- *)
Definition total_bias (c : params) (b0 p fNL speed z : R) (P : R -> R) (k : R) : R :=   (* 92-100 *)
  let Dz := 1 / (1 + z) in
  b0 + 3 * fNL * (b0 - p) * (1686 / 1000) * c_Om c / (k ^ 2 * sqrt (P k) * Dz) * (c_H0 c / speed) ^ 2.
Definition galaxy_power (c : params) (b0 p fNL speed z : R) (P : R -> R) (k : R) : R := P k * total_bias c b0 p fNL speed z P k ^ 2.   (* 123-129 *)
(* the attributes that objects have, and what CorrelationFunction needs, correlation.py 85-88 *)
Inductive object := Linear_power | Halofit_power | Zeldovich_power | Galaxy_power.
Definition attributes (o : object) : list string :=
  match o with
  | Linear_power => ["cosmo"; "sigma8"; "redshift"; "transfer"; "attrs"]
  | Halofit_power => ["cosmo"; "sigma8"; "redshift"; "attrs"]
  | Zeldovich_power => ["Plin"; "nmax"; "cosmo"; "sigma8"; "redshift"; "attrs"]
  | Galaxy_power => ["cosmo"; "b"; "p"; "fnl"; "omega_m"; "H0"; "c"; "transfer"; "redshift"]
  end%string.
Definition correlation_accepts (o : object) : res unit :=
  if forallb (fun a => existsb (String.eqb a) (attributes o)) ["redshift"; "sigma8"; "cosmo"]%string then Ok tt else Err AttributeError.
