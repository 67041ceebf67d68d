(* Model of the binning of power spectra and correlation functions:
   nbodykit/algorithms/fftpower.py (project_to_basis 507-701, _compute_3d_power 90-143,
   ProjectedFFTPower.run 411-492), nbodykit/meshtools.py (SlabIterator, MeshSlab) as used
   there, nbodykit/algorithms/fftcorr.py (run 99-211).

   Numbers are exact; the square root is an argument [root] (numpy's **0.5).  scipy's
   legendre(l) is the Legendre polynomial.  Fields are given by global indices; a rank
   holds a block of the mesh.  Complex numbers are pairs; a real field has imaginary
   part 0. *)
From Verif Require Import Base Num FiberModel.
Local Open Scope nat_scope.
Notation cplx := (Qc * Qc)%type.

(* ---- numpy.digitize ---- *)
Fixpoint nondec (l : list Qc) : bool := match l with x :: ((y :: _) as l') => qleb x y && nondec l' | _ => true end.
Fixpoint noninc (l : list Qc) : bool := match l with x :: ((y :: _) as l') => qleb y x && noninc l' | _ => true end.
Definition digitize (edges : list Qc) (x : Qc) : res nat :=
  if nondec edges then Ok (length (filter (fun e => qleb e x) edges))
  else if noninc edges then Ok (length (filter (fun e => qltb x e) edges))
  else Err ValueError.
(* numpy.bincount(index, weights, minlength) for indices below minlength *)
Definition bincount (iw : list (nat * Qc)) (n : nat) : list Qc :=
  map (fun b => qsum (map snd (filter (fun p => fst p =? b) iw))) (seq 0 n).
Definition ladd (a b : list Qc) : list Qc := map (fun p => (fst p + snd p)%Qc) (combine a b).

(* ---- Legendre polynomials: (n+2) P_{n+2} = (2n+3) x P_{n+1} - (n+1) P_n ---- *)
Fixpoint legendre2 (l : nat) (x : Qc) : Qc * Qc :=        (* P_l, P_{l+1} *)
  match l with
  | 0 => (1, x)%Qc
  | S n => let (p, q) := legendre2 n x in (q, ((nq (2 * n + 3) * x * q - nq (n + 1) * p) / nq (n + 2))%Qc)
  end.
Definition legendre (l : nat) (x : Qc) : Qc := fst (legendre2 l x).

(* ---- the mesh ---- *)
Record vec := { v0 : Qc; v1 : Qc; v2 : Qc }.
Notation cell3 := (nat * nat * nat)%type.
Record block := { b0 : list nat; b1 : list nat; b2 : list nat }.  (* indices held by a rank *)

Section Project.
Variable root : Qc -> Qc.
Variable compressed : bool.                                (* y3d.compressed *)
Variables (c0 c1 c2 : nat -> Qc).                          (* y3d.x: coordinate of an index *)
Variable y : cell3 -> cplx.                                (* y3d *)
Variable los : vec.

(* MeshSlab.norm2, mu, nonsingular, hermitian_weights (axis 0, symmetry axis 2) *)
Definition norm2 (m : cell3) : Qc := let '(i, j, l) := m in (c0 i * c0 i + c1 j * c1 j + c2 l * c2 l)%Qc.
Definition mu (m : cell3) : Qc :=
  let '(i, j, l) := m in
  let norm := root (norm2 m) in
  if Qc_eq_dec norm 0 then 0%Qc else ((c0 i * v0 los + c1 j * v1 los + c2 l * v2 los) / norm)%Qc.
Definition nonsingular (m : cell3) : bool := let '(_, _, l) := m in qltb 0 (c2 l).
Definition weight (m : cell3) : Qc := if compressed && nonsingular m then (1 + 1)%Qc else 1%Qc.

(* 640-668: the contribution to one multipole *)
Definition weighted (ell : nat) (m : cell3) : cplx :=
  let p := legendre ell (mu m) in
  let re := (p * fst (y m))%Qc in
  let im := (p * snd (y m))%Qc in
  let '(re, im) := if compressed && nonsingular m
                   then (if Nat.odd ell then (0, im * (1 + 1)) else (re * (1 + 1), 0))%Qc
                   else (re, im) in
  (re * nq (2 * ell + 1), im * nq (2 * ell + 1))%Qc.

Variables xedges muedges : list Qc.
Definition Nx : nat := length xedges - 1.
Definition Nmu : nat := length muedges - 1.
Definition bins : nat := (Nx + 2) * (Nmu + 2).
(* 613-627: digitize and ravel_multi_index *)
Definition index (m : cell3) : res nat :=
  let! ix := digitize (map (fun e => (e * e)%Qc) xedges) (norm2 m) in
  let! im := digitize muedges (mu m) in
  Ok (ix * (Nmu + 2) + im).

(* the sums, one table of all bins each; per multipole the real and imaginary part *)
Record sums := { s_x : list Qc; s_mu : list Qc; s_n : list Qc; s_y : list (list Qc * list Qc) }.
Definition zero : list Qc := repeat 0%Qc bins.
Definition sums0 (ells : list nat) : sums := {| s_x := zero; s_mu := zero; s_n := zero; s_y := map (fun _ => (zero, zero)) ells |}.
(* 605-673: one slab *)
Definition add_slab (ells : list nat) (s : sums) (cells : list cell3) : res sums :=
  match cells with
  | [] => Ok s                                             (* 612: continue *)
  | _ =>
      let! idx := rall (map index cells) in
      let count f := bincount (combine idx (map f cells)) bins in
      Ok {| s_x := ladd (s_x s) (count (fun m => root (norm2 m) * weight m)%Qc);
            s_mu := ladd (s_mu s) (count (fun m => mu m * weight m)%Qc);
            s_n := ladd (s_n s) (count weight);
            s_y := map (fun p => let '(ell, (re, im)) := p in (ladd re (count (fun m => fst (weighted ell m))), ladd im (count (fun m => snd (weighted ell m))))) (combine ells (s_y s)) |}
  end.
Definition slab (b : block) (i : nat) : list cell3 := map (fun jl => (i, fst jl, snd jl)) (list_prod (b1 b) (b2 b)).
Fixpoint add_slabs (ells : list nat) (s : sums) (slabs : list (list cell3)) : res sums :=
  match slabs with [] => Ok s | c :: r => let! s := add_slab ells s c in add_slabs ells s r end.
Definition local_sums (ells : list nat) (b : block) : res sums := add_slabs ells (sums0 ells) (map (slab b) (b0 b)).
(* 676-679: comm.allreduce *)
Definition add_sums (a b : sums) : sums :=
  {| s_x := ladd (s_x a) (s_x b); s_mu := ladd (s_mu a) (s_mu b); s_n := ladd (s_n a) (s_n b);
     s_y := map (fun p => (ladd (fst (fst p)) (fst (snd p)), ladd (snd (fst p)) (snd (snd p)))) (combine (s_y a) (s_y b)) |}.
Definition total_sums (ells : list nat) (l : list sums) : sums := fold_left add_sums l (sums0 ells).

(* 683-699: last mu bin, means *)
Definition get (t : list Qc) (ix im : nat) : Qc := nth (ix * (Nmu + 2) + im) t 0%Qc.
Definition folded (t : list Qc) (ix im : nat) : Qc := if im =? Nmu then (get t ix im + get t ix (Nmu + 1))%Qc else get t ix im.
(* 0/0 is not a number *)
Definition ratio (a n : Qc) : option Qc := if Qc_eq_dec n 0 then None else Some (a / n)%Qc.
Definition cratio (a : cplx) (n : Qc) : option cplx := if Qc_eq_dec n 0 then None else Some (fst a / n, snd a / n)%Qc.
Definition table {A} (f : nat -> nat -> A) : list (list A) := map (fun ix => map (fun im => f (S ix) (S im)) (seq 0 Nmu)) (seq 0 Nx).
Definition row {A} (f : nat -> A) : list A := map (fun ix => f (S ix)) (seq 0 Nx).
Definition over_mu (t : list Qc) (ix : nat) : Qc := qsum (map (fun im => folded t ix (S im)) (seq 0 Nmu)).
Record result := { r_x : list (list (option Qc)); r_mu : list (list (option Qc)); r_y : list (list (option cplx)); r_n : list (list Qc) }.
Record poles_result := { p_x : list (option Qc); p_y : list (list (option cplx)); p_n : list Qc }.

Definition sort_ells (l : list nat) : list nat := fold_right (fix ins x l := match l with [] => [x] | z :: l' => if x <=? z then x :: l else z :: ins x l' end) [] l.
Fixpoint position (x : nat) (l : list nat) : nat := match l with [] => 0 | z :: l => if x =? z then 0 else S (position x l) end.
(* poles: the multipole numbers, 577-592 *)
Definition project (poles : list Z) (blocks : list block) : res (result * option poles_result) :=
  if existsb (fun e => (e <? 0)%Z) poles then Err ValueError else
  let poles := map Z.to_nat poles in
  let ells := if existsb (Nat.eqb 0) poles then sort_ells poles else 0 :: sort_ells poles in
  let! parts := rall (map (local_sums ells) blocks) in
  let s := total_sums ells parts in
  let y_of e := nth e (s_y s) (zero, zero) in
  let res := {| r_x := table (fun ix im => ratio (folded (s_x s) ix im) (folded (s_n s) ix im));
                r_mu := table (fun ix im => ratio (folded (s_mu s) ix im) (folded (s_n s) ix im));
                r_y := table (fun ix im => cratio (folded (fst (y_of 0)) ix im, folded (snd (y_of 0)) ix im) (folded (s_n s) ix im));
                r_n := table (fun ix im => folded (s_n s) ix im) |} in
  let pol := match poles with
             | [] => None
             | _ => Some {| p_x := row (fun ix => ratio (over_mu (s_x s) ix) (over_mu (s_n s) ix));
                            p_y := map (fun ell => let e := position ell ells in
                                     row (fun ix => cratio (over_mu (fst (y_of e)) ix, over_mu (snd (y_of e)) ix) (over_mu (s_n s) ix))) poles;
                            p_n := row (fun ix => over_mu (s_n s) ix) |}
             end in
  Ok (res, pol).
End Project.

(* ---- _compute_3d_power, 90-143: c1 conj(c2) V without the zero mode ---- *)
Definition cmul (a b : cplx) : cplx := (fst a * fst b - snd a * snd b, fst a * snd b + snd a * fst b)%Qc.
Definition conj (a : cplx) : cplx := (fst a, - snd a)%Qc.
Definition scale (v : Qc) (a : cplx) : cplx := (fst a * v, snd a * v)%Qc.
Definition power3d (volume : Qc) (f g : cell3 -> cplx) (m : cell3) : cplx :=
  let '(i, j, l) := m in
  scale volume (if (i =? 0) && (j =? 0) && (l =? 0) then (0, 0)%Qc else cmul (f m) (conj (g m))).

(* numpy.linspace(a, b, n+1) *)
Definition linspace (a b : Qc) (n : nat) : list Qc := map (fun i => (a + (b - a) * nq i / nq n)%Qc) (seq 0 (S n)).
(* FFTPower.run, 281-304, after the choice of the k edges; 1d mode has one mu bin *)
Definition fftpower root c0 c1 c2 volume f g los kedges (nmu : nat) poles blocks :=
  project root true c0 c1 c2 (power3d volume f g) los kedges (linspace (-(1)) 1 nmu) poles blocks.
(* FFTCorr.run, 147-180: y is the correlation field *)
Definition fftcorr root c0 c1 c2 (y : cell3 -> Qc) los redges (nmu : nat) poles blocks :=
  project root false c0 c1 c2 (fun m => (y m, 0)%Qc) los redges (linspace 0 1 nmu) poles blocks.

(* ---- ProjectedFFTPower.run, 436-484, for two axes (0 = none): pk = c1 conj(c2), the last axis halved ---- *)
Section Projected.
Variable root : Qc -> Qc.
Variables n0 n1 : nat.                                     (* the shape; n0 = 1 for one axis *)
Variables u0 u1 : Qc.                                      (* 2 pi / L *)
Variable pk : nat * nat -> cplx.
(* numpy.fft.fftfreq(N, ...) *)
Definition fftfreq (n i : nat) : Z := if 2 * i <? n then Z.of_nat i else (Z.of_nat i - Z.of_nat n)%Z.
Definition kmag (m : nat * nat) : Qc :=
  root ((u0 * zq (fftfreq n0 (fst m))) * (u0 * zq (fftfreq n0 (fst m))) + (u1 * zq (fftfreq n1 (snd m))) * (u1 * zq (fftfreq n1 (snd m))))%Qc.
Definition width : nat := n1 / 2 + 1.                      (* pk.shape[-1] of rfftn *)
(* 464-467 *)
Definition W (m : nat * nat) : Qc := if (snd m =? 0) || (snd m =? width - 1) then 1%Qc else (1 + 1)%Qc.
Definition pcells : list (nat * nat) := list_prod (seq 0 n0) (seq 0 width).
Record presult := { q_k : list (option Qc); q_power : list (option cplx); q_modes : list Qc }.
Definition projected (area : Qc) (kedges : list Qc) : res presult :=
  let! dig := rall (map (fun m => digitize kedges (kmag m)) pcells) in
  let n := length kedges + 1 in
  let count f := bincount (combine dig (map f pcells)) n in
  let xsum := count (fun m => W m * kmag m)%Qc in
  let re := count (fun m => W m * fst (pk m))%Qc in
  let im := count (fun m => W m * snd (pk m))%Qc in
  let nsum := count W in
  let inner {A} (f : nat -> A) := map (fun i => f (S i)) (seq 0 (length kedges - 1)) in
  Ok {| q_k := inner (fun i => ratio (nth i xsum 0%Qc) (nth i nsum 0%Qc));
        q_power := inner (fun i => option_map (scale area) (cratio (nth i re 0%Qc, nth i im 0%Qc) (nth i nsum 0%Qc)));
        q_modes := inner (fun i => nth i nsum 0%Qc) |}.
End Projected.
