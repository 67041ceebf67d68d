(* Surveys: the redshift histogram (algorithms/zhist.py), the box and the
   normalisation of the FKP power spectrum (algorithms/convpower), density
   field reconstruction (algorithms/fftrecon.py) and Poisson sampling of a mesh
   (mockmaker.py).  Exact rationals stand for floats. *)
From Coq Require Import Qround.
From Verif Require Import Base Num.
Local Open Scope Qc_scope.

Definition qleb (a b : Qc) : bool := if Qclt_le_dec b a then false else true.
Definition qltb (a b : Qc) : bool := if Qclt_le_dec a b then true else false.
Definition vadd (a b : list Qc) : list Qc := map (fun p => fst p + snd p) (combine a b).
(* comm.allreduce of arrays; there is at least one rank *)
Fixpoint vreduce (l : list (list Qc)) : list Qc :=
  match l with [] => [] | [a] => a | a :: l => vadd a (vreduce l) end.

(* ------------------------------------------------------------------ *)
(* RedshiftHistogram, zhist.py                                          *)

(* numpy.searchsorted(edges, z, 'right') for edges in order *)
Definition searchsorted_right (edges : list Qc) (z : Qc) : nat := length (filter (fun e => qleb e z) edges).
(* numpy.bincount(dig, weights, minlength=n) for entries of dig below n *)
Definition bincount (dig : list nat) (w : list Qc) (n : nat) : list Qc :=
  map (fun i => qsum (map snd (filter (fun p => Nat.eqb (fst p) i) (combine dig w)))) (seq 0 n).
(* l[1:-1] *)
Definition inner {A} (l : list A) : list A := removelast (tl l).
(* run, 122-126: an object is its redshift and weight *)
Definition zhist_local (edges : list Qc) (objs : list (Qc * Qc)) : list Qc :=
  inner (bincount (map (fun o => searchsorted_right edges (fst o)) objs) (map snd objs) (length edges + 1)).
Definition zhist_counts (edges : list Qc) (ranks : list (list (Qc * Qc))) : list Qc :=
  vreduce (map (zhist_local edges) ranks).
(* 134, 140: dV i is the volume of shell i *)
Definition zhist_nbar (edges : list Qc) (dV : nat -> Qc) (ranks : list (list (Qc * Qc))) : list Qc :=
  map (fun p => fst p / dV (snd p)) (combine (zhist_counts edges ranks) (seq 0 (length edges - 1))).

(* minimum and maximum over all objects *)
Definition qmin (a b : Qc) : Qc := if Qclt_le_dec b a then b else a.
Definition qmax (a b : Qc) : Qc := if Qclt_le_dec a b then b else a.
Fixpoint lowest (l : list Qc) : option Qc :=
  match l with [] => None | x :: l => match lowest l with None => Some x | Some y => Some (qmin x y) end end.
Fixpoint highest (l : list Qc) : option Qc :=
  match l with [] => None | x :: l => match highest l with None => Some x | Some y => Some (qmax x y) end end.
(* z.max() of an empty array raises ValueError; when another rank has already
   entered the reduction nothing ever returns *)
Definition global_range (ranks : list (list Qc)) : res (Qc * Qc) :=
  if forallb (fun r => Nat.eqb (length r) 0) ranks then Err ValueError else
  if existsb (fun r => Nat.eqb (length r) 0) ranks then Err Deadlock else
  match lowest (concat ranks), highest (concat ranks) with
  | Some a, Some b => Ok (a, b)
  | _, _ => Err ValueError
  end.
(* scotts_bin_width, 234-253; dx is the width sigma*(24 sqrt(pi)/n)**(1/3) *)
Definition scott_edges (dx lo hi : Qc) : list Qc :=
  let n := Z.max 1 (Qceiling (this ((hi - lo) / dx))) in
  map (fun i => lo + dx * nq i) (seq 0 (Z.to_nat n + 1)).
Inductive bins_arg := BNone | BInt (n : Z) | BEdges (l : list Qc).
(* __init__, 52-68; linspace is not defined in the module *)
Definition zhist_edges (dx : Qc) (bins : bins_arg) (ranks : list (list Qc)) : res (list Qc) :=
  match bins with
  | BNone => let! r := global_range ranks in Ok (scott_edges dx (fst r) (snd r))
  | BInt n => let! r := global_range ranks in Err NameError
  | BEdges l => Ok l
  end.

(* ------------------------------------------------------------------ *)
(* FKPCatalog._define_bbox, convpower/catalog.py 108-149, one axis.
   bounds: the result of get_data_bounds (C50), None when infinite.      *)
Definition qabs (x : Qc) : Qc := if Qclt_le_dec x 0 then - x else x.
Definition half : Qc := Q2Qc (1 # 2).
Definition define_bbox (bounds : option (Qc * Qc)) (given : option Qc) (pad : Qc) : res (Qc * Qc) :=
  match bounds with
  | None => Err ValueError
  | Some (lo, hi) =>
      let delta := qabs (hi - lo) in
      let center := half * (lo + hi) in
      match given with
      | None => Ok (zq (Qceiling (this (delta * (1 + pad)))), center)
      | Some L => Ok (L, center)
      end
  end.
(* for the selected objects of all ranks; where get_data_bounds returns, it
   returns their extremes (C50) *)
Definition survey_box (given : option Qc) (pad : Qc) (ranks : list (list (Qc * bool))) : res (Qc * Qc) :=
  let pos := map fst (filter snd (concat ranks)) in
  define_bbox (match lowest pos, highest pos with Some a, Some b => Some (a, b) | _, _ => None end) given pad.
(* RecenteredPosition, catalogmesh.py 206-215 *)
Definition recentered (center x : Qc) : Qc := x - center.
(* to_mesh, catalog.py 228-243: the species that defines the box *)
Inductive species := Data | Randoms.
Definition bbox_species (arg : option species) (randoms_csize : nat) : species :=
  match arg with Some s => s | None => if (0 <? randoms_csize)%nat then Randoms else Data end.
(* fkp.py 171-187, one axis: argmax takes the first maximum *)
Definition joint_box (same : bool) (b1 b2 : Qc * Qc) : Qc * Qc :=
  if same then b1 else if qltb (fst b1) (fst b2) then b2 else b1.

(* ------------------------------------------------------------------ *)
(* ConvolvedFFTPower, convpower/fkp.py                                  *)

Record obj := { o_comp : Qc; o_fkp1 : Qc; o_fkp2 : Qc; o_nbar : Qc; o_sel : bool }.
Definition selected (l : list obj) : list obj := filter o_sel l.
Definition allsum (f : list obj -> Qc) (ranks : list (list obj)) : Qc := qsum (map f ranks).

(* weighted_total, catalogmesh.py 225-244 *)
Definition weighted_total (ranks : list (list obj)) : Qc := allsum (fun l => qsum (map o_comp (selected l))) ranks.
(* self.attrs, as far as run() reads what it has written *)
Record fattrs := { a_dnorm : option Qc; a_rnorm : option Qc; a_shot : option Qc; a_alpha : option Qc }.
Definition fresh : fattrs := {| a_dnorm := None; a_rnorm := None; a_shot := None; a_alpha := None |}.
(* normalization, 657-709 *)
Definition norm_term (o : obj) : Qc := o_nbar o * o_comp o * o_fkp1 o * o_fkp2 o.
Definition norm_data (ranks : list (list obj)) : Qc := allsum (fun l => qsum (map norm_term (selected l))) ranks.
Definition norm_randoms (alpha : Qc) (ranks : list (list obj)) : Qc :=
  allsum (fun l => qsum (map (fun o => norm_term o * alpha) (selected l))) ranks.
Definition normalization (a : fattrs) (s : species) (alpha : Qc) (data randoms : list (list obj)) : Qc * fattrs :=
  match s with
  | Data => match a_dnorm a with
            | Some v => (v, a)
            | None => let v := norm_data data in
                      (v, {| a_dnorm := Some v; a_rnorm := a_rnorm a; a_shot := a_shot a; a_alpha := a_alpha a |})
            end
  | Randoms => match a_rnorm a with
            | Some v => (v, a)
            | None => let v := norm_randoms alpha randoms in
                      (v, {| a_dnorm := a_dnorm a; a_rnorm := Some v; a_shot := a_shot a; a_alpha := a_alpha a |})
            end
  end.
(* shotnoise, 711-759: the local names Pshot and first exist only when the block
   was entered *)
Definition shot_term (o : obj) : Qc := o_comp o * o_comp o * o_fkp1 o * o_fkp2 o.
Definition shot_local (alpha : Qc) (d r : list obj) : Qc :=
  qsum (map shot_term (selected d)) + qsum (map shot_term (selected r)) * (alpha * alpha).
Definition shotnoise (a : fattrs) (alpha : Qc) (data randoms : list (list obj)) : res Qc :=
  match a_shot a with
  | Some _ => Err UnboundLocalError
  | None =>
      let Pshot := qsum (map (fun p => shot_local alpha (fst p) (snd p)) (combine data randoms)) in
      match a_rnorm a with
      | None => Err KeyError
      | Some n => if Qc_eq_dec n 0 then Err OutOfContract (* numpy gives inf or nan *) else Ok (Pshot / n)
      end
  end.
(* numpy.allclose(a, b, rtol=0.05) *)
Definition close5 (a b : Qc) : bool := qleb (qabs (a - b)) (Q2Qc (1 # 100000000) + Q2Qc (1 # 20) * qabs b).

Section Fkp.
Variable R : Type.
(* the projected multipoles for a normalisation *)
Variable multipoles : Qc -> list nat -> R.

(* _compute_multipoles, 408-655: alpha, norms, poles, shot noise.  A failing run
   leaves the attributes it has written. *)
Definition fkp_run (poles : list nat) (data randoms : list (list obj)) (a : fattrs) : res R * fattrs :=
  let Wr := weighted_total randoms in
  if Qc_eq_dec Wr 0 then (Err OutOfContract, a) (* alpha is inf or nan *) else
  let alpha := weighted_total data / Wr in
  let a := {| a_dnorm := a_dnorm a; a_rnorm := a_rnorm a; a_shot := a_shot a; a_alpha := Some alpha |} in
  let (nd, a) := normalization a Data alpha data randoms in
  let (nr, a) := normalization a Randoms alpha data randoms in
  if qltb 0 nr && negb (close5 nd nr) then (Err ValueError, a) else
  let norm := if qltb 0 nr then / nr else 1 in
  match poles with
  | [] => (Err UnboundLocalError, a)        (* proj_result *)
  | _ =>
      match shotnoise a alpha data randoms with
      | Err e => (Err e, a)
      | Ok s => (Ok (multipoles norm poles),
                 {| a_dnorm := a_dnorm a; a_rnorm := a_rnorm a; a_shot := Some s; a_alpha := a_alpha a |})
      end
  end.
End Fkp.

(* to_real_field, catalogmesh.py 122-204: paint w gives the values of all cells
   for objects with their weights comp * fkp; objects outside the selection are
   not painted *)
Definition fkp_weights (l : list obj) : list Qc := map (fun o => o_comp o * o_fkp1 o) (selected l).
Definition fkp_field (paint_d paint_r : list Qc -> list Qc) (vol : Qc) (data randoms : list (list obj)) : list Qc :=
  let alpha := weighted_total data / weighted_total randoms in
  let real := paint_d (fkp_weights (concat data)) in
  let real := match concat randoms with
              | [] => real
              | _ => vadd real (map (fun x => - (1) * alpha * x) (paint_r (fkp_weights (concat randoms))))
              end in
  map (fun x => x / vol) real.

(* ------------------------------------------------------------------ *)
(* FFTRecon, fftrecon.py                                                *)

Definition vec := (Qc * Qc * Qc)%type.
Definition dot (a b : vec) : Qc :=
  let '(a1, a2, a3) := a in let '(b1, b2, b3) := b in a1 * b1 + a2 * b2 + a3 * b3.
Definition scale (c : Qc) (a : vec) : vec := let '(a1, a2, a3) := a in (c * a1, c * a2, c * a3).
Definition vminus (a b : vec) : vec := let '(a1, a2, a3) := a in let '(b1, b2, b3) := b in (a1 - b1, a2 - b2, a3 - b3).
Definition vplus (a b : vec) : vec := let '(a1, a2, a3) := a in let '(b1, b2, b3) := b in (a1 + b1, a2 + b2, a3 + b3).
(* 95-99: los /= (los ** 2).sum(); nan is refused *)
Definition recon_los (los : vec) : res vec :=
  let n := dot los los in
  if Qc_eq_dec n 0 then Err AssertionError else
  let '(a, b, c) := los in Ok (a / n, b / n, c / n).
(* 261-266: s *= (1 + los * f), component by component *)
Definition rsd_boost (los : vec) (f : Qc) (s : vec) : vec :=
  let '(a, b, c) := los in let '(x, y, z) := s in (x * (1 + a * f), y * (1 + b * f), z * (1 + c * f)).

Section Recon.
(* kern x c: the share of a particle at x that is painted to cell c < ncell *)
Variable ncell : nat.
Variable kern : vec -> nat -> Qc.

Definition field := list Qc.
(* paint(..., hold=True) adds to the field; the decomposition shares are summed
   over the ranks *)
Definition paint_hold (out : field) (ps : list vec) : field :=
  vadd out (map (fun c => qsum (map (fun x => kern x c) ps)) (seq 0 ncell)).
Definition slice {A} (l : list A) (i n : nat) : list A := firstn n (skipn i l).
(* the positions of one rank in one chunk *)
Definition chunk_pos (s : option (list vec)) (pos : list vec) (i n : nat) : list vec :=
  match s with
  | Some s => map (fun p => vminus (fst p) (snd p)) (combine (slice pos i n) (slice s i n))
  | None => slice pos i n
  end.
(* range(0, nmax, chunksize); chunksize = 0 is a ValueError *)
Fixpoint starts (fuel i nmax c : nat) : list nat :=
  match fuel with O => [] | S f => if (i <? nmax)%nat then i :: starts f (i + c) nmax c else [] end.
(* work_with, 139-164: ranks of positions, ranks of displacements *)
Definition work_with (c : nat) (cat : list (list vec)) (s : list (option (list vec))) : res field :=
  if Nat.eqb c 0 then Err ValueError else
  let nmax := fold_right Nat.max 0%nat (map (@length vec) cat) in
  let nbar := nq (length (concat cat)) / nq ncell in
  let delta := fold_left (fun out i => paint_hold out (flat_map (fun ps => chunk_pos (snd ps) (fst ps) i c) (combine cat s)))
                 (starts nmax 0 nmax c) (repeat 0 ncell) in
  if Qc_eq_dec nbar 0 then Err OutOfContract (* nan *) else
  Ok (map (fun x => x / nbar) delta).

Definition fsub (a b : field) : field := map (fun p => fst p - snd p) (combine a b).
Definition fscale (c : Qc) (a : field) : field := map (fun x => x * c) a.
Definition neg_s (s : list (list vec)) : list (list vec) := map (map (scale (- (1)))) s.
Inductive scheme := LGS | LF2 | LRR.
Definition some_all (s : list (list vec)) : list (option (list vec)) := map Some s.

(* _helper_paint, 172-215 *)
Definition lgs (c : nat) (data : list (list vec)) (s_d : list (list vec)) (d_s_r : field) : res field :=
  let! d := work_with c data (some_all s_d) in Ok (fsub d d_s_r).
Definition lrr (c : nat) (data ran : list (list vec)) (s_r : list (list vec)) (d_s_r : field) : res field :=
  let! nr := work_with c ran (some_all (neg_s s_r)) in
  let! d := work_with c data (map (fun _ => None) data) in
  let nr := fscale half (vadd nr d_s_r) in
  Ok (fsub d nr).
Definition helper_paint (c : nat) (sch : scheme) (data ran s_d s_r : list (list vec)) : res field :=
  let! d_s_r := work_with c ran (some_all s_r) in
  match sch with
  | LGS => lgs c data s_d d_s_r
  | LRR => lrr c data ran s_r d_s_r
  | LF2 => let! a := lgs c data s_d d_s_r in
           let! b := lrr c data ran s_r d_s_r in
           let a := fscale (Q2Qc (3 # 7)) a in let b := fscale (Q2Qc (4 # 7)) b in
           Ok (vadd a b)
  end.
End Recon.

(* ------------------------------------------------------------------ *)
(* poisson_sample_to_points, mockmaker.py 284-359                        *)

Definition cell := list Z.
Definition zfloor (x : Qc) : Z := Qfloor (this x).
(* 323-325: the corners of the cells, repeated; H is the cell size per axis *)
Definition corner (H : list Qc) (c : cell) : list Qc := map (fun p => zq (fst p) * snd p) (combine c H).
Definition grid_points {X} (counts : list (X * nat)) : list X := flat_map (fun p => repeat (fst p) (snd p)) counts.
(* 338-342; int64 of a non-negative number *)
Definition cell_index (h x : Qc) : Z := zfloor (x / h + half).
Definition orderby (Nmesh : list Z) (H : list Qc) (pos : list Qc) : Z :=
  match combine H pos, Nmesh with
  | (h, x) :: hx, _ :: ns =>
      fold_left (fun acc (p : Z * (Qc * Qc)) => (acc * fst p + cell_index (fst (snd p)) (snd (snd p)))%Z)
                (combine ns hx) (cell_index h x)
  | _, _ => 0%Z
  end.
(* 351-355: uniform numbers in [0, H[i]) with i left from the loop, that is the
   last axis; u: numbers in [0,1) *)
Definition last_h (H : list Qc) : Qc := last H 0.
Definition qmod (x y : Qc) : Qc := x - y * zq (zfloor (x / y)).
Definition shifted (H box pos u : list Qc) : list Qc :=
  map (fun p => qmod (fst (fst p) + snd (fst p) * last_h H) (snd p)) (combine (combine pos u) box).
(* 344-345: mpsort.sort over all ranks; points with equal keys keep their order *)
Fixpoint insert_key {X} (key : X -> Z) (x : X) (l : list X) : list X :=
  match l with [] => [x] | y :: l => if (key y <? key x)%Z then y :: insert_key key x l else x :: y :: l end.
Definition sort_key {X} (key : X -> Z) (l : list X) : list X := fold_right (insert_key key) [] l.
(* the cells of all ranks with their numbers of objects, and the random numbers
   of all objects *)
Definition poisson_points (Nmesh : list Z) (H box : list Qc) (counts : list (cell * nat)) (us : list (list Qc)) : list (list Qc) :=
  let pos := grid_points (map (fun p => (corner H (fst p), snd p)) counts) in
  let pos := sort_key (orderby Nmesh H) pos in
  map (fun p => shifted H box (fst p) (snd p)) (combine pos us).
