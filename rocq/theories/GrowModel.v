(* Model of nbodykit/cosmology/background.py and of LinearNbody in cosmology/linearnbody.py, over Reals.
   scipy.integrate.odeint is an argument; x ** 0.5 is sqrt.  Not modelled: solve_ivp, which LinearNbody.integrate applies to func. *)
From Verif Require Import Base ThreeModel.
From Coq Require Import Reals Lra.
Local Open Scope R_scope.

(* ---- what the subclasses provide: efunc, efunc_prime (its derivative against a) and Om ---- *)
Record background := { efunc : R -> R; efunc_prime : R -> R; Om : R -> R }.
(* MatterDominated.efunc, efunc_prime, Om, 248-255 *)
Definition matter (Omega0_m Omega0_lambda Omega0_k : R) : background :=
  let efunc a := sqrt (Omega0_m / a ^ 3 + Omega0_k / a ^ 2 + Omega0_lambda) in
  {| efunc := efunc;
     efunc_prime a := / 2 / efunc a * (-3 * Omega0_m / a ^ 4 + -2 * Omega0_k / a ^ 3);
     Om a := (Omega0_m / a ^ 3) / efunc a ^ 2 |}.
(* RadiationDominated.efunc, efunc_prime, Om, 312-322: cosmo.efunc, cosmo.efunc_prime (the derivative of efunc against a), Omega_b, Omega_cdm are functions of redshift *)
Definition radiation (c_efunc c_efunc_prime Omega_b Omega_cdm : R -> R) : background :=
  {| efunc a := c_efunc (1 / a - 1); efunc_prime a := c_efunc_prime (1 / a - 1); Om a := Omega_b (1 / a - 1) + Omega_cdm (1 / a - 1) |}.
(* MatterDominated.__init__, 230-239: the default of Omega0_lambda *)
Definition lambda_of (Omega0_m : R) (Omega0_lambda : option R) (Omega0_k : R) : R :=
  match Omega0_lambda with Some l => l | None => 1 - Omega0_k - Omega0_m end.

(* Perturbation.E with order 0 and 1, Hfac, ode, 158-181 *)
Definition E (b : background) (a : R) : R := efunc b a.
Definition dE (b : background) (a : R) : R := efunc_prime b a * a.
Definition Hfac (b : background) (a : R) : R := -2 - dE b a / E b a.
Definition state := (R * R * R * R)%type.
Definition ode (b : background) (y : state) (lna : R) : state :=
  let '(D1, F1, D2, F2) := y in
  let a := exp lna in let hfac := Hfac b a in let omega := Om b a in
  (F1, hfac * F1 + 3 / 2 * omega * D1, F2, hfac * F2 + 3 / 2 * omega * D2 - 3 / 2 * omega * D1 ^ 2).

(* MatterDominated.get_initial_condition, 241-246 *)
Definition matter_initial (lna0 : R) : state := let a0 := exp lna0 in (a0, a0, - 3 / 7 * a0 ^ 2, - 6 / 7 * a0 ^ 2).

(* ---- Perturbation.__init__, 19-37 ---- *)
Definition reqb (x y : R) : bool := if Req_EM_T x y then true else false.
Fixpoint insert (x : R) (l : list R) : list R := match l with [] => [x] | y :: r => if rleb x y then x :: l else y :: insert x r end.
Definition sort (l : list R) : list R := fold_right insert [] l.
Definition grid_size : nat := Z.to_nat 10240.
Definition grid : list R := map (fun i => ln 10 * (-7 + 7 * INR i / INR (grid_size - 1))) (seq 0 grid_size).   (* log of logspace(-7, 0, 1024 * 10) *)
Definition times (a : option (list R)) (a_normalize : R) : list R :=
  match a with
  | None => grid
  | Some a =>
    let a := if existsb (reqb a_normalize) a then a else a_normalize :: a in
    let a := sort a in
    let start := / 10 ^ 7 in
    let a := if rltb start (hd 0 a) then start :: a else a in
    map ln a
  end.

(* numpy.interp of points sorted by their abscissa *)
Fixpoint interp_from (x : R) (pts : list (R * R)) : R :=
  match pts with
  | [] => 0
  | (x0, y0) :: rest =>
    match rest with
    | [] => y0
    | (x1, y1) :: _ => if rltb x x1 then y0 + (x - x0) * ((y1 - y0) / (x1 - x0)) else interp_from x rest
    end
  end.
Definition np_interp (x : R) (pts : list (R * R)) : R :=
  match pts with [] => 0 | (x0, y0) :: _ => if rltb x x0 then y0 else interp_from x pts end.

(* argmin of the distances to x: the first of the smallest *)
Fixpoint argmin (x : R) (l : list R) : nat * R :=
  match l with
  | [] => (0%nat, 0)
  | y :: r => match r with
              | [] => (0%nat, Rabs (y - x))
              | _ => let '(i, m) := argmin x r in if rleb (Rabs (y - x)) m then (0%nat, Rabs (y - x)) else (S i, m)
              end
  end.

(* ---- _solve, 183-204 ---- *)
Definition row := (R * R * R)%type.
Definition order (o : nat) (r : row) : R := let '(x, y, z) := r in match o with O => x | 1%nat => y | _ => z end.
Definition scale (c : R) (r : row) : row := let '(x, y, z) := r in (x / c, y / c, z / c).
Record growth := { g_lna : list R; g_D1 : list row; g_D2 : list row }.
Definition solve (b : background) (odeint : (state -> R -> state) -> state -> list R -> list state) (y0 : state) (lna : list R) (a_normalize : R) : growth :=
  let y := odeint (ode b) y0 lna in
  let v := map (fun p => let '(yi, t) := p in let '(D1, F1, D2, F2) := yi in let '(_, F1p, _, F2p) := ode b yi t in ((D1, F1, F1p), (D2, F2, F2p))) (combine y lna) in
  let v1 := map fst v in let v2 := map snd v in
  let ind := fst (argmin (ln a_normalize) lna) in
  {| g_lna := lna; g_D1 := map (scale (order 0 (nth ind v1 (0, 0, 0)))) v1; g_D2 := map (scale (order 0 (nth ind v2 (0, 0, 0)))) v2 |}.
Definition Perturbation (b : background) (odeint : (state -> R -> state) -> state -> list R -> list state) (initial : R -> state)
    (a : option (list R)) (a_normalize : R) : growth :=
  let lna := times a a_normalize in solve b odeint (initial (hd 0 lna)) lna a_normalize.

(* ---- D1, D2, f1, ..., 40-156 ---- *)
Definition D1 (g : growth) (a : R) (o : nat) : R := np_interp (ln a) (combine (g_lna g) (map (order o) (g_D1 g))).
Definition D2 (g : growth) (a : R) (o : nat) : R := np_interp (ln a) (combine (g_lna g) (map (order o) (g_D2 g))).
Definition f1 (g : growth) (a : R) : R := D1 g a 1 / D1 g a 0.
Definition f2 (g : growth) (a : R) : R := D2 g a 1 / D2 g a 0.
Definition Gp (g : growth) (a : R) : R := D1 g a 0.
Definition Gp2 (g : growth) (a : R) : R := D2 g a 0.
Definition gp (g : growth) (a : R) : R := D1 g a 1 / a.
Definition gp2 (g : growth) (a : R) : R := D2 g a 1 / a.
Definition Gf (b : background) (g : growth) (a : R) : R := D1 g a 1 * a ^ 2 * E b a.
Definition Gf2 (b : background) (g : growth) (a : R) : R := D2 g a 1 * a ^ 2 * E b a.
Definition gf (b : background) (g : growth) (a : R) : R := 1 / a * (D1 g a 2 * a ^ 2 * E b a + D1 g a 1 * (a ^ 2 * dE b a + 2 * a ^ 2 * E b a)).
Definition gf2 (b : background) (g : growth) (a : R) : R := 1 / a * (D2 g a 2 * a ^ 2 * E b a + D2 g a 1 * (a ^ 2 * dE b a + 2 * a ^ 2 * E b a)).

(* ---- LinearNbody, one wave number; species cdm, baryon, ncdm ---- *)
Record nbody := { n_efunc : R -> R; n_cdm : R -> R; n_b : R -> R; n_ncdm : R -> R; n_m_ncdm : list R; n_c_b : R; n_c_ncdm : R }.   (* of redshift; m_ncdm; velocities *)
Definition vec := (R * R * R)%type.
Definition dot (a b : vec) : R := let '(x, y, z) := a in let '(u, v, w) := b in x * u + y * v + z * w.
(* J, 118-146 *)
Definition J (n : nbody) (k a : R) : res (vec * vec * vec) :=
  let z := 1 / a - 1 in let e := n_efunc n z in
  let Ocdm := n_cdm n z in let Ob := n_b n z in let Oncdm := n_ncdm n z in
  let! c_ncdm := if rltb 0 (n_c_ncdm n) then match n_m_ncdm n with m :: _ => Ok (n_c_ncdm n / m / a) | [] => Err IndexError end else Ok 0 in
  let j1 o := -(3 / 2) * e ^ 2 * a ^ 2 * o in
  let j2 c := c ^ 2 * k ^ 2 / 100 ^ 2 in
  Ok ((j1 Ocdm, j1 Ob, j1 Oncdm), (j1 Ocdm, j1 Ob + j2 (n_c_b n), j1 Oncdm), (j1 Ocdm, j1 Ob, j1 Oncdm + j2 c_ncdm)).
(* func in integrate, 90-104: the derivatives of q and p against log a *)
Definition func (n : nbody) (k : R) (lna : R) (q p : vec) : res (vec * vec) :=
  let a := exp lna in let z := 1 / a - 1 in let dt := 1 / n_efunc n z in
  let! j := J n k a in let '(j0, j1, j2) := j in
  let '(p0, p1, p2) := p in
  Ok ((p0 / a ^ 2 * dt, p1 / a ^ 2 * dt, p2 / a ^ 2 * dt), (- dot j0 q * dt, - dot j1 q * dt, - dot j2 q * dt)).
(* seed_from_synchronous, 149-198: one wave number *)
Record transfer := { d_cdm : R; d_b : R; d_ncdm : R; t_b : R; t_ncdm : R; h_prime : R }.
Definition seed (H0 a0 : R) (t : transfer) : vec * vec :=
  ((- d_cdm t, - d_b t, - d_ncdm t),
   (/ 2 * h_prime t * a0 / H0, t_b t + / 2 * h_prime t * a0 / H0, t_ncdm t + / 2 * h_prime t * a0 / H0)).
