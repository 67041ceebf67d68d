(* Model of nbodykit/algorithms/paircount_tpcf/tpcf.py and of WedgeBinnedStatistic.to_poles in estimators.py (10-51), over exact
   rationals; None is nan.  Catalogs are given by number, the pair counter (C37, C187) and the natural estimator (C36, C98) are functions.
   Not modelled: warnings, logging; JSON is the identity on states (C26). *)
From Verif Require Import Base Num PairModel.
From Coq Require Import String.
Local Open Scope Z_scope.
Local Notation length := List.length.

(* ---- numbers that may be nan ---- *)
Definition num := option Qc.
Definition nlift (f : Qc -> Qc -> Qc) (a b : num) : num := match a, b with Some x, Some y => Some (f x y) | _, _ => None end.
Definition nsum (l : list num) : num := fold_right (nlift Qcplus) (Some 0%Qc) l.
Definition diff (edges : list Qc) : list Qc := map (fun p => (snd p - fst p)%Qc) (combine edges (tl edges)).      (* numpy.diff *)
Definition mids (edges : list Qc) : list Qc := map (fun p => ((snd p + fst p) / Q2Qc 2)%Qc) (combine edges (tl edges)).

(* scipy.special.legendre, by the recurrence (n + 1) P(n+1) = (2 n + 1) x P(n) - n P(n-1) *)
Fixpoint legendre2 (n : nat) (x : Qc) : Qc * Qc :=         (* P(n), P(n+1) *)
  match n with
  | O => (1%Qc, x)
  | S m => let '(a, b) := legendre2 m x in (b, ((zq (2 * Z.of_nat m + 3) * x * b - zq (Z.of_nat m + 1) * a) / zq (Z.of_nat m + 2))%Qc)
  end.
Definition legendre (n : nat) (x : Qc) : Qc := fst (legendre2 n x).

(* ---- to_poles, 33-49: one row of wedges ---- *)
Definition pole (mu_edges : list Qc) (ell : nat) (corr : list num) : num :=
  let mu_bins := diff mu_edges in
  let terms := map (fun t => let '(c, (m, d)) := t in option_map (fun c => c * (zq (2 * Z.of_nat ell + 1) * legendre ell m) * d)%Qc c)
                 (combine corr (combine (mids mu_edges) mu_bins)) in
  option_map (fun s => s / qsum mu_bins)%Qc (nsum terms).
Definition to_poles (mu_edges : list Qc) (poles : list nat) (corr : list (list num)) : list (list num) :=
  map (fun ell => map (pole mu_edges ell) corr) poles.

(* ---- _compute_wp, 471-487: one row ---- *)
Definition wp_row (pi_edges : list Qc) (corr : list num) : num :=
  nsum (map (fun t => option_map (fun c => Q2Qc 2 * c * snd t)%Qc (fst t)) (combine corr (diff pi_edges))).

(* ---- BasePairCount2PCF.run, 62-132, with LandySzalayEstimator, 135-228 ---- *)
Record pcounts := { c_total : Qc; c_bins : list (Z * Qc) }.      (* total_wnpairs; npairs and wnpairs of the bins *)
Record tpcf := { t_D1D2 : pcounts; t_D1R2 : option pcounts; t_D2R1 : option pcounts; t_R1R2 : pcounts; t_corr : list num }.
Section Run.
Variable count : nat -> option nat -> pcounts.                   (* pair_counter(first, second) *)
Variable natural_of : pcounts -> nat -> option nat -> pcounts * list num.   (* NaturalEstimator(DD) *)
Fixpoint ls_bins (tDD tDR tRD tRR : Qc) (DD DR RD RR : list (Z * Qc)) : list num :=
  match DD, DR, RD, RR with
  | a :: DD, b :: DR, c :: RD, d :: RR => landy_szalay tDD tDR tRD tRR (snd a) (snd b) (snd c) (fst d) (snd d) :: ls_bins tDD tDR tRD tRR DD DR RD RR
  | _, _, _, _ => []
  end.
Definition LandySzalay (data1 : nat) (data2 : option nat) (randoms1 : nat) (randoms2 : option nat) (R1R2 : option pcounts) : tpcf :=
  let randoms2 := match randoms2 with Some r => r | None => randoms1 end in                        (* 169 *)
  let R1R2 := match R1R2 with Some x => x | None => count randoms1 (Some randoms2) end in          (* 174-175 *)
  let D1D2 := count data1 data2 in                                                                 (* 180 *)
  let D1R2 := count data1 (Some randoms2) in                                                       (* 185 *)
  let D2R1 := match data2 with Some d => count d (Some randoms1) | None => D1R2 end in             (* 187-192 *)
  {| t_D1D2 := D1D2; t_D1R2 := Some D1R2; t_D2R1 := Some D2R1; t_R1R2 := R1R2;
     t_corr := ls_bins (c_total D1D2) (c_total D1R2) (c_total D2R1) (c_total R1R2) (c_bins D1D2) (c_bins D1R2) (c_bins D2R1) (c_bins R1R2) |}.
(* periodic = None for SurveyData2PCF; in angular mode with analytic randoms the catalogs are replaced by their restriction *)
Definition run (periodic : option bool) (restrict : nat -> nat) (data1 : nat) (data2 randoms1 randoms2 : option nat) (R1R2 : option pcounts) : res tpcf :=
  match periodic, randoms1 with
  | Some true, None =>                                                                             (* 92 *)
    let data1 := restrict data1 in let data2 := option_map restrict data2 in                       (* 94-97 *)
    let DD := count data1 data2 in                                                                 (* 105 *)
    let '(RR, corr) := natural_of DD data1 data2 in
    Ok {| t_D1D2 := DD; t_D1R2 := None; t_D2R1 := None; t_R1R2 := RR; t_corr := corr |}
  | _, None => Err ValueError                                                                      (* 113-116 *)
  | _, Some r1 =>
    let randoms2 := match data2, randoms2 with Some _, None => Some r1 | _, _ => randoms2 end in   (* 119-120 *)
    Ok (LandySzalay data1 data2 r1 randoms2 R1R2)
  end.
End Run.

(* ---- _restrict_to_spherical_volume, 489-507: the positions kept; distances compared by their squares ---- *)
Local Notation half := (Q2Qc (1 # 2)).
Definition restrict_to_sphere (L : v3) (pos : list v3) : list v3 :=
  filter (fun p =>
    let d i := (coord p i - half * coord L i)%Qc in let h := (half * vmin L)%Qc in
    qgt (h * h) (d 0%nat * d 0%nat + d 1%nat * d 1%nat + d 2%nat * d 2%nat)%Qc) pos.

(* ---- results on disk ---- *)
Record stat := { st_dims : list string; st_edges : list (list Qc); st_data : list (list num); st_sum : list string; st_attrs : list (string * Qc) }.
(* BinnedStatistic(dims, edges, data, fields_to_sum) *)
Definition statistic (dims : list string) (edges : list (list Qc)) (data : list (list num)) (fields : list string) : stat :=
  {| st_dims := dims; st_edges := edges; st_data := data; st_sum := fields; st_attrs := [] |}.
Record tpcf_result := { r_corr : stat; r_wp : option stat; r_counts : list (option stat) }.   (* D1D2, D1R2, D2R1, R1R2 *)
Record tpcf_state := { s_corr : list (list num); s_dims : list string; s_edges : list (list Qc); s_wp : option (list (list num)); s_counts : list (option (list (list num))) }.
Definition getstate (r : tpcf_result) : tpcf_state :=                                              (* 134-149 *)
  {| s_corr := st_data (r_corr r); s_dims := st_dims (r_corr r); s_edges := st_edges (r_corr r);
     s_wp := option_map st_data (r_wp r); s_counts := map (option_map st_data) (r_counts r) |}.
Definition setstate (s : tpcf_state) : tpcf_result :=                                              (* 151-166 *)
  {| r_corr := statistic (s_dims s) (s_edges s) (s_corr s) [];
     r_wp := option_map (fun d => statistic (firstn 1 (s_dims s)) (firstn 1 (s_edges s)) d []) (s_wp s);
     r_counts := map (option_map (fun d => statistic (s_dims s) (s_edges s) d [])) (s_counts s) |}.

(* PairCountBase, base.py 62-91 *)
Definition linspace (a b : Qc) (n : nat) : list Qc := map (fun i => (a + zq (Z.of_nat i) * ((b - a) / zq (Z.of_nat (n - 1))))%Qc) (seq 0 n).
Definition qint (x : Qc) : Z := Qround.Qfloor (this x).                                            (* int(x), x >= 0 *)
Record pc_result := { p_mode : pmode; p_redges : list Qc; p_Nmu : option nat; p_pimax : option Qc; p_pairs : stat }.
(* what the pair counters return: corrfunc/base.py 160-176, the edges of corrfunc/mocks.py (corrfunc/theory.py has int(pimax + 1)), simbox.py 225 *)
Definition counted (mode : pmode) (edges : list Qc) (Nmu : option nat) (pimax : option Qc) (data : list (list num)) (total : Qc) : res stat :=
  let mk dims es := Ok {| st_dims := dims; st_edges := es; st_data := data; st_sum := ["npairs"; "wnpairs"]%string; st_attrs := [("total_wnpairs"%string, total)] |} in
  match mode, Nmu, pimax with
  | M1d, _, _ => mk ["r"%string] [edges]
  | M2d, Some n, _ => mk ["r"; "mu"]%string [edges; linspace 0 1 (n + 1)]
  | Mproj, _, Some p => mk ["rp"; "pi"]%string [edges; linspace 0 p (Z.to_nat (qint p) + 1)]
  | Mang, _, _ => mk ["theta"%string] [edges]
  | _, _, _ => Err TypeError
  end.
Definition pc_setstate (mode : pmode) (edges : list Qc) (Nmu : option nat) (pimax : option Qc) (data : list (list num)) : res stat :=
  let mk dims es := Ok (statistic dims es data ["npairs"; "wnpairs"]%string) in
  match mode, Nmu, pimax with
  | M1d, _, _ => mk ["r"%string] [edges]
  | M2d, Some n, _ => mk ["r"; "mu"]%string [edges; linspace 0 1 (n + 1)]
  | Mproj, _, Some p => mk ["rp"; "pi"]%string [edges; linspace 0 p (Z.to_nat (qint (p + 1)%Qc))]   (* int(pimax + 1) *)
  | Mang, _, _ => mk ["theta"%string] [edges]
  | _, _, _ => Err TypeError
  end.
