(* Model of the multipoles of ConvolvedFFTPower, nbodykit/algorithms/convpower/fkp.py: _compute_multipoles (408-655)
   between the painted fields and the binned result, and to_pkmu (282-339); over the real numbers of the
   standard library.  The normalisations, alpha and the shot noise are in SurveyModel.v ([norm] is an
   argument here), the spherical harmonics in YlmModel.v.

   External: the Fourier transform is any linear map, r2c(F)(k) = sum over the grid of e(k, x) F(x); the
   compensation multiplies a mode by a real number (a resampler without one: 1).  project_to_basis
   (fftpower.py 507-701) is modelled by its sums over all modes of all ranks for poles=[] and the
   single mu bin [-1, 1]; slabs and ranks are in PowModel.v.  Work arrays that are filled again before
   they are read (rfield2, cfield, Aell) are values. *)
From Verif Require Import Base.
From Coq Require Import Reals Factorial.
From Verif Require Import RandModel ThreeModel YlmModel.
Local Open Scope R_scope.

Definition ceq0 (x : R) : bool := if Req_EM_T x 0 then true else false.
Definition cmul (a b : comp) : comp := (fst a * fst b - snd a * snd b, fst a * snd b + snd a * fst b).
Definition conj (a : comp) : comp := (fst a, - snd a).
Definition cscale (c : R) (a : comp) : comp := (c * fst a, c * snd a).
Definition csum (l : list comp) : comp := (rsum (map fst l), rsum (map snd l)).
Definition norm2 (p : point) : R := let '(x, y, z) := p in x * x + y * y + z * z.
Definition add3 (a b : point) : point := let '(x, y, z) := a in let '(u, v, w) := b in (x + u, y + v, z + w).

(* numpy.digitize *)
Fixpoint rnondec (l : list R) : bool := match l with x :: ((y :: _) as t) => rleb x y && rnondec t | _ => true end.
Fixpoint rnoninc (l : list R) : bool := match l with x :: ((y :: _) as t) => rleb y x && rnoninc t | _ => true end.
Definition rdigitize (edges : list R) (x : R) : res nat :=
  if rnondec edges then Ok (length (filter (fun e => rleb e x) edges))
  else if rnoninc edges then Ok (length (filter (fun e => rltb x e) edges))
  else Err ValueError.

Section Conv.
Context {X K : Type}.
Variable grid : list X.                                    (* the cells of the real-space mesh *)
Variable xc : X -> point.                                  (* RealField.x: their coordinates *)
Variable e : K -> X -> comp.                               (* r2c *)
Variable modes : list K.                                   (* the stored modes of all ranks *)
Variable kc : K -> point.                                  (* ComplexField.x: wavenumbers *)
Variable compressed : bool.
Variables center cell : point.                             (* BoxCenter; BoxSize / Nmesh *)
Variable volume norm : R.
Variables comp1 comp2 : K -> R.                            (* compensations of first and second *)
Variables F1 F2 : X -> comp.                               (* the painted fields *)

Definition r2c (F : X -> comp) (k : K) : comp := csum (map (fun x => cmul (e k x) (F x)) grid).
(* 457, 530-532: offset and directions of the cells; a cell at the origin gives nan *)
Definition offset : point := let '(hx, hy, hz) := cell in add3 center (/ 2 * hx, / 2 * hy, / 2 * hz).
Definition xpos (x : X) : point := add3 (xc x) offset.
Definition xhat (x : X) : point := over (xpos x) (sqrt (norm2 (xpos x))).
Definition at_origin : bool := existsb (fun x => ceq0 (norm2 (xpos x))) grid.
(* 535-537: division by inf gives 0 *)
Definition khat (k : K) : point := let n := sqrt (norm2 (kc k)) in if ceq0 n then (0, 0, 0) else over (kc k) n.
(* 475-483 *)
Definition A0 (comp : K -> R) (F : X -> R * R) (k : K) : R * R := cscale volume (cscale (comp k) (r2c F k)).
(* 470, 571-610: range(-l, l+1) is empty for a negative number *)
Definition range_m (l : Z) : list Z := map (fun i => (Z.of_nat i - l)%Z) (seq 0 (Z.to_nat (2 * l + 1))).
Definition Aell (l : Z) (k : K) : R * R :=
  let terms := map (fun m => cscale (real_Ylm (Z.to_nat l) m (khat k)) (r2c (fun x => cscale (real_Ylm (Z.to_nat l) m (xhat x)) (F2 x)) k)) (range_m l) in
  cscale (4 * PI * volume) (cscale (comp2 k) (csum terms)).
(* 618-619, 634-635 *)
Definition power3d (A : K -> R * R) (k : K) : R * R := cscale norm (cmul (A0 comp1 F1 k) (conj (A k))).

(* project_to_basis(y, [kedges, [-1, 1]]) *)
Definition kmu (k : K) : R := let n := sqrt (norm2 (kc k)) in if ceq0 n then 0 else snd (kc k) / n.
Definition nonsingular (k : K) : bool := rltb 0 (snd (kc k)).
Definition weight (k : K) : R := if compressed && nonsingular k then 2 else 1.
Definition weighted (y : K -> R * R) (k : K) : R * R := if compressed && nonsingular k then (fst (y k) * 2, 0) else y k.
Record bins := { b_k : list (option R); b_power : list (option (R * R)); b_modes : list R }.
Definition project (kedges : list R) (y : K -> R * R) : res bins :=
  let! dx := rall (map (fun k => rdigitize (map (fun v => v * v) kedges) (norm2 (kc k))) modes) in
  let! dm := rall (map (fun k => rdigitize [-1; 1] (kmu k)) modes) in
  let cells := combine (combine dx dm) modes in
  (* bin b with the last two columns of mu, 683-688 *)
  let sum b f := rsum (map (fun c => f (snd c)) (filter (fun c => Nat.eqb (fst (fst c)) (S b) && (Nat.eqb (snd (fst c)) 1 || Nat.eqb (snd (fst c)) 2)) cells)) in
  let n b := sum b weight in
  let nb := seq 0 (length kedges - 1) in
  Ok {| b_k := map (fun b => if ceq0 (n b) then None else Some (sum b (fun k => sqrt (norm2 (kc k)) * weight k) / n b)) nb;
        b_power := map (fun b => if ceq0 (n b) then None else Some (sum b (fun k => fst (weighted y k)) / n b, sum b (fun k => snd (weighted y k)) / n b)) nb;
        b_modes := map n nb |}.

Fixpoint zinsert (x : Z) (l : list Z) : list Z := match l with [] => [x] | y :: t => if (x <=? y)%Z then x :: l else y :: zinsert x t end.
Definition zsort (l : list Z) : list Z := fold_right zinsert [] l.
Fixpoint distinct (l : list Z) : bool := match l with [] => true | x :: t => negb (existsb (Z.eqb x) t) && distinct t end.
Record multipoles := { m_k : list (option R); m_power : list (Z * list (option (R * R))); m_modes : list R }.
(* poles: at least one number (C125) *)
Definition compute (poles : list Z) (kedges : list R) : res multipoles :=
  if negb (distinct poles) then Err ValueError             (* 451: dtype with a repeated name *)
  else match kedges with [] => Err ValueError | _ =>       (* 452: numpy.empty(-1) *)
  let sorted := zsort poles in
  let has0 := existsb (Z.eqb 0) sorted in
  let ells := if has0 then sorted else 0%Z :: sorted in
  match ells with
  | 0%Z :: higher =>                                       (* 463 *)
      if at_origin && negb (Nat.eqb (length higher) 0) then Err OutOfContract else
      let! hi := rall (map (fun l => let! b := project kedges (power3d (Aell l)) in Ok (l, b)) higher) in
      let! lo := if has0 then let! b := project kedges (power3d (A0 comp2 F2)) in Ok [(0%Z, b)] else Ok [] in
      match rev (hi ++ lo) with
      | (_, b) :: _ => Ok {| m_k := b_k b; m_power := map (fun p => (fst p, b_power (snd p))) (lo ++ hi); m_modes := b_modes b |}
      | [] => Err UnboundLocalError
      end
  | _ => Err AssertionError
  end end.
End Conv.

(* ---- to_pkmu, 282-339 ---- *)
(* scipy's quad of a polynomial is its integral *)
Fixpoint pint (n : nat) (p : list R) : list R := match p with [] => [] | c :: p => c / INR (S n) :: pint (S n) p end.
Definition quad (p : list R) (a b : R) : R := peval (0 :: pint 0 p) b - peval (0 :: pint 0 p) a.
Definition coefficient (l : nat) (a b : R) : R := 1 / (b - a) * quad (lpoly l) a b.
Definition ells (max_ell : nat) : list nat := map (fun i => (2 * i)%nat) (seq 0 (S (max_ell / 2))).
Definition pairs {A} (l : list A) : list (A * A) := combine l (tl l).
Definition lookup {A} (l : nat) (t : list (nat * A)) : option A := option_map snd (find (fun p => Nat.eqb (fst p) l) t).
(* poles: power_ell at the k bins; the result: for every k bin the wedges *)
Definition to_pkmu (nk : nat) (poles : list (nat * (nat -> R * R))) (mu_edges : list R) (max_ell : nat) : res (list (list (R * R))) :=
  if existsb (fun l => match lookup l poles with None => true | _ => false end) (ells max_ell) then Err ValueError
  else if existsb (fun p => ceq0 (snd p - fst p)) (pairs mu_edges) then Err OutOfContract   (* division by zero *)
  else Ok (map (fun i => map (fun p => csum (map (fun l => cscale (coefficient l (fst p) (snd p)) (match lookup l poles with Some f => f i | None => (0, 0) end)) (ells max_ell))) (pairs mu_edges)) (seq 0 nk)).
