(* C30, C31 and C143-C149: binning of power spectra and correlation functions. *)
From Verif Require Import Base Num FiberModel PairSpec PowModel PowSpec PowProofs PowMain PowFinal PowRun PowExamples.
From Coq Require Import Sorted Permutation.
Local Open Scope nat_scope.

(* Every mode of the box is in exactly one (k, mu) bin (a mode that is not stored goes with its
   opposite) and in exactly one k bin of the multipoles. *)
Theorem C30_projection :
  forall (n0 n1 n2 : nat) (u0 u1 u2 : Qc) (root : Qc -> Qc) (los : vec) (kedges : list Qc) (nmu : nat) (volume : Qc) (f g : cell3 -> cplx) (poles : list Z) (blocks : list block),
  0 < n2 -> (0 < u2)%Qc -> sqrt_contract root -> (length2 los <= 1)%Qc -> hermitian n0 n1 n2 f -> hermitian n0 n1 n2 g ->
  increasing kedges -> (forall e, In e kedges -> (0 <= e)%Qc) -> 1 <= length kedges -> 0 < nmu ->
  blocks_hold n0 n1 blocks (n2 / 2 + 1) -> (forall e, In e poles -> (0 <= e)%Z) ->
  exists r pol, fftpower root (axis_coord u0 n0) (axis_coord u1 n1) (axis_coord u2 n2) volume f g los kedges nmu poles blocks = Ok (r, pol) /\
  (forall i im lo hi, nth_error kedges i = Some lo -> nth_error kedges (S i) = Some hi -> im < nmu ->
     exists L, listing (fun m => shell n0 n1 n2 u0 u1 u2 lo hi m /\ in_mubin (linspace (-(1)) 1 nmu) im (mu_of n0 n1 n2 u0 u1 u2 root los (rep n0 n1 n2 m))) L /\
       at2 (r_n r) i im = Some (nq (length L)) /\ at2 (r_x r) i im = Some (mean (map (fun m => root (k2 n0 n1 n2 u0 u1 u2 m)) L)) /\
       at2 (r_mu r) i im = Some (mean (map (fun m => mu_of n0 n1 n2 u0 u1 u2 root los (rep n0 n1 n2 m)) L)) /\ at2 (r_y r) i im = Some (cmean (map (spectrum volume f g) L))) /\
  (poles = [] -> pol = None) /\
  (poles <> [] -> exists p, pol = Some p /\ forall i lo hi, nth_error kedges i = Some lo -> nth_error kedges (S i) = Some hi ->
     exists L, listing (shell n0 n1 n2 u0 u1 u2 lo hi) L /\
       nth_error (p_n p) i = Some (nq (length L)) /\ nth_error (p_x p) i = Some (mean (map (fun m => root (k2 n0 n1 n2 u0 u1 u2 m)) L)) /\
       forall q ell, nth_error poles q = Some ell -> (forall m, shell n0 n1 n2 u0 u1 u2 lo hi m -> clear_of_nyquist n0 n1 n2 los m \/ Z.odd ell = false /\ along_axis los) ->
         at2 (p_y p) q i = Some (cmean (map (fun m => times (nq (2 * Z.to_nat ell + 1) * legendre (Z.to_nat ell) (mu_of n0 n1 n2 u0 u1 u2 root los m)) (spectrum volume f g m)) L))).
Proof. exact run_halved. Qed.
Print Assumptions C30_projection.

(* The one-dimensional spectrum is the average over the shell. *)
Theorem C30_spectrum :
  forall (n0 n1 n2 : nat) (u0 u1 u2 : Qc) (root : Qc -> Qc) (los : vec) (kedges : list Qc) (nmu : nat) (volume : Qc) (f g : cell3 -> cplx) (poles : list Z) (blocks : list block),
  0 < n2 -> (0 < u2)%Qc -> sqrt_contract root -> (length2 los <= 1)%Qc -> hermitian n0 n1 n2 f -> hermitian n0 n1 n2 g ->
  increasing kedges -> (forall e, In e kedges -> (0 <= e)%Qc) -> 1 <= length kedges -> 0 < nmu ->
  blocks_hold n0 n1 blocks (n2 / 2 + 1) -> (forall e, In e poles -> (0 <= e)%Z) ->
  nmu = 1 -> exists r pol, fftpower root (axis_coord u0 n0) (axis_coord u1 n1) (axis_coord u2 n2) volume f g los kedges nmu poles blocks = Ok (r, pol) /\
  (forall i lo hi, nth_error kedges i = Some lo -> nth_error kedges (S i) = Some hi ->
     exists L, listing (shell n0 n1 n2 u0 u1 u2 lo hi) L /\
       at2 (r_n r) i 0 = Some (nq (length L)) /\ at2 (r_x r) i 0 = Some (mean (map (fun m => root (k2 n0 n1 n2 u0 u1 u2 m)) L)) /\ at2 (r_y r) i 0 = Some (cmean (map (spectrum volume f g) L))).
Proof. exact run_1d. Qed.
Print Assumptions C30_spectrum.

(* The distribution of the mesh over the ranks does not matter. *)
Theorem C30_blocks :
  forall root compressed c0 c1 c2 y los xedges muedges poles blocks blocks',
  increasing (map (fun e => (e * e)%Qc) xedges) -> increasing muedges -> 1 <= length muedges -> 1 <= length xedges ->
  Permutation (concat (map (fun b => cells3 (b0 b) (b1 b) (b2 b)) blocks)) (concat (map (fun b => cells3 (b0 b) (b1 b) (b2 b)) blocks')) ->
  project root compressed c0 c1 c2 y los xedges muedges poles blocks = project root compressed c0 c1 c2 y los xedges muedges poles blocks'.
Proof. exact blocks_same. Qed.
Print Assumptions C30_blocks.

(* a 1x2x4 mesh with a non-trivial Hermitian field on two ranks *)
Definition ex_f (m : cell3) : cplx := let '(_, j, l) := m in if l =? 1 then (nq (j + 1), 1)%Qc else if l =? 3 then (nq (j + 1), -(1))%Qc else (0, 0)%Qc.
Definition ex_blocks : list block := [{| b0 := [0]; b1 := [0]; b2 := seq 0 3 |}; {| b0 := []; b1 := []; b2 := [] |}; {| b0 := [0]; b1 := [1]; b2 := seq 0 3 |}].
Example ex_hyps : hermitian 1 2 4 ex_f /\ blocks_hold 1 2 ex_blocks (4 / 2 + 1) /\ sqrt_contract exroot /\ increasing ks /\ (length2 zlos <= 1)%Qc.
Proof.
  split; [|split; [apply Permutation_refl|split; [exact exroot_ok|split; [exact ks_inc|exact zlos_unit]]]].
  intros [[i j] l] [Hi [Hj Hl]]. destruct i; [|lia]. destruct j as [|[|j]]; try lia; destruct l as [|[|[|[|l]]]]; try lia; unfold ex_f, conj; cbn [opposite neg Nat.eqb Nat.sub fst snd]; f_equal; ring.
Qed.
Example ex_run : seen (fftpower exroot (axis_coord 1 1) (axis_coord (zq 3) 2) (axis_coord 1 4) 1 ex_f ex_f zlos ks 1 [0%Z; 2%Z] ex_blocks)
  (fun r => (num (at2 (r_n (fst r)) 0 0), cnum (at2 (r_y (fst r)) 0 0), cnum (at2 (pole_y r) 1 0))) (None, None, None) = (Some 2, Some (Some (2, 0)), Some (Some (10, 0)))%Q.
Proof. vm_compute. reflexivity. Qed.

Theorem C31_projected :
  forall (root : Qc -> Qc) (n0 n1 : nat) (u0 u1 : Qc) (pk : nat * nat -> cplx) (area : Qc) (kedges : list Qc),
  0 < n1 -> n1 = 1 \/ Nat.even n1 = true -> hermitian2 n0 n1 pk -> increasing kedges ->
  exists r, projected root n0 n1 u0 u1 pk area kedges = Ok r /\
  length (q_modes r) = length kedges - 1 /\
  forall i lo hi, nth_error kedges i = Some lo -> nth_error kedges (S i) = Some hi ->
    exists L, NoDup L /\ (forall m, In m L <-> is_mode2 n0 n1 m /\ (lo <= kmag2 root n0 n1 u0 u1 m)%Qc /\ (kmag2 root n0 n1 u0 u1 m < hi)%Qc) /\
      nth_error (q_modes r) i = Some (nq (length L)) /\ nth_error (q_k r) i = Some (mean (map (kmag2 root n0 n1 u0 u1) L)) /\
      exists im, nth_error (q_power r) i = Some (match mean (map (fun m => fst (pk m)) L) with None => None | Some a => Some (a * area, im)%Qc end).
Proof. exact projected_ok. Qed.
Print Assumptions C31_projected.
Example ex_projected : hermitian2 2 4 ones2 /\ increasing ks /\
  match projected exroot 2 4 (zq 2) 1 ones2 1 ks with Ok r => map this (q_modes r) = [2; 2]%Q | Err _ => False end.
Proof. split; [intros m _; unfold ones2, conj; cbn [fst snd]; f_equal; ring|]. split; [exact ks_inc|]. vm_compute. reflexivity. Qed.

(* A (k, mu) bin does not count the modes whose own mu is in the bin: the opposite of a stored mode goes along with it. *)
Theorem C143_wedges_by_own_mu_refuted :
  exists n0 n1 n2 u0 u1 u2 root los kedges nmu f g blocks r pol i im lo hi L,
  0 < n2 /\ (0 < u2)%Qc /\ sqrt_contract root /\ (length2 los <= 1)%Qc /\ hermitian n0 n1 n2 f /\ hermitian n0 n1 n2 g /\ increasing kedges /\ 0 < nmu /\ blocks_hold n0 n1 blocks (n2 / 2 + 1) /\
  fftpower root (axis_coord u0 n0) (axis_coord u1 n1) (axis_coord u2 n2) 1 f g los kedges nmu [] blocks = Ok (r, pol) /\
  nth_error kedges i = Some lo /\ nth_error kedges (S i) = Some hi /\ im < nmu /\
  listing (fun m => shell n0 n1 n2 u0 u1 u2 lo hi m /\ in_mubin (linspace (-(1)) 1 nmu) im (mu_of n0 n1 n2 u0 u1 u2 root los m)) L /\
  at2 (r_n r) i im <> Some (nq (length L)).
Proof. exact wedge_own_mu. Qed.
Print Assumptions C143_wedges_by_own_mu_refuted.

(* The correlation function does not average over all separations of the shell, not even of a symmetric field: those with negative mu are left out, those with mu = 0 are not. *)
Theorem C144_correlation_all_separations_refuted :
  exists n0 n1 n2 u0 u1 u2 root los redges xi blocks r pol i lo hi L,
  0 < n2 /\ (0 < u2)%Qc /\ sqrt_contract root /\ (length2 los <= 1)%Qc /\ (forall m, is_mode n0 n1 n2 m -> xi (opposite n0 n1 n2 m) = xi m) /\ increasing redges /\ blocks_hold n0 n1 blocks n2 /\
  fftcorr root (axis_coord u0 n0) (axis_coord u1 n1) (axis_coord u2 n2) xi los redges 1 [] blocks = Ok (r, pol) /\
  nth_error redges i = Some lo /\ nth_error redges (S i) = Some hi /\ listing (shell n0 n1 n2 u0 u1 u2 lo hi) L /\
  at2 (r_n r) i 0 <> Some (nq (length L)) /\ at2 (r_y r) i 0 <> Some (cmean (map (fun m => (xi m, 0%Qc)) L)).
Proof. exact corr_all_separations. Qed.
Print Assumptions C144_correlation_all_separations_refuted.

(* What it does average over. *)
Theorem C145_correlation :
  forall (n0 n1 n2 : nat) (u0 u1 u2 : Qc) (root : Qc -> Qc) (los : vec) (redges : list Qc) (nmu : nat) (xi : cell3 -> Qc) (poles : list Z) (blocks : list block),
  0 < n2 -> (0 < u2)%Qc -> increasing redges -> (forall e, In e redges -> (0 <= e)%Qc) -> 1 <= length redges -> 0 < nmu ->
  blocks_hold n0 n1 blocks n2 -> (forall e, In e poles -> (0 <= e)%Z) ->
  exists r pol, fftcorr root (axis_coord u0 n0) (axis_coord u1 n1) (axis_coord u2 n2) xi los redges nmu poles blocks = Ok (r, pol) /\
  (forall i im lo hi, nth_error redges i = Some lo -> nth_error redges (S i) = Some hi -> im < nmu ->
     exists L, listing (fun m => shell n0 n1 n2 u0 u1 u2 lo hi m /\ in_mubin (linspace 0 1 nmu) im (mu_of n0 n1 n2 u0 u1 u2 root los m)) L /\
       at2 (r_n r) i im = Some (nq (length L)) /\ at2 (r_x r) i im = Some (mean (map (fun m => root (k2 n0 n1 n2 u0 u1 u2 m)) L)) /\
       at2 (r_mu r) i im = Some (mean (map (mu_of n0 n1 n2 u0 u1 u2 root los) L)) /\ at2 (r_y r) i im = Some (cmean (map (fun m => (xi m, 0%Qc)) L))) /\
  (poles = [] -> pol = None) /\
  (poles <> [] -> exists p, pol = Some p /\ forall i lo hi, nth_error redges i = Some lo -> nth_error redges (S i) = Some hi ->
     exists L, listing (fun m => shell n0 n1 n2 u0 u1 u2 lo hi m /\ (0 <= mu_of n0 n1 n2 u0 u1 u2 root los m)%Qc) L /\
       nth_error (p_n p) i = Some (nq (length L)) /\ nth_error (p_x p) i = Some (mean (map (fun m => root (k2 n0 n1 n2 u0 u1 u2 m)) L)) /\
       forall q ell, nth_error poles q = Some ell ->
         at2 (p_y p) q i = Some (cmean (map (fun m => times (nq (2 * Z.to_nat ell + 1) * legendre (Z.to_nat ell) (mu_of n0 n1 n2 u0 u1 u2 root los m)) (xi m, 0%Qc)) L))).
Proof. exact corr_run. Qed.
Print Assumptions C145_correlation.
Example ex_corr : blocks_hold 1 4 (whole 1 4 4) 4 /\ increasing ks /\
  seen (fftcorr exroot (axis_coord 1 1) (axis_coord 1 4) (axis_coord 1 4) pair_y zlos ks 1 [2%Z] (whole 1 4 4)) (fun r => (num (at2 (r_n (fst r)) 0 0), cnum (at2 (r_y (fst r)) 0 0))) (None, None) = (Some 5, Some (Some (2 # 5, 0)))%Q.
Proof. split; [apply whole_ok|]. split; [exact ks_inc|]. vm_compute. reflexivity. Qed.

(* A line of sight within the accepted tolerance can lose all modes of a bin. *)
Theorem C146_accepted_line_of_sight_refuted :
  exists n0 n1 n2 u0 u1 u2 root los kedges f g blocks r pol i lo hi L,
  0 < n2 /\ (0 < u2)%Qc /\ sqrt_contract root /\ los_accepted los /\ hermitian n0 n1 n2 f /\ hermitian n0 n1 n2 g /\ increasing kedges /\ blocks_hold n0 n1 blocks (n2 / 2 + 1) /\
  fftpower root (axis_coord u0 n0) (axis_coord u1 n1) (axis_coord u2 n2) 1 f g los kedges 1 [] blocks = Ok (r, pol) /\
  nth_error kedges i = Some lo /\ nth_error kedges (S i) = Some hi /\ listing (shell n0 n1 n2 u0 u1 u2 lo hi) L /\ L <> [] /\ at2 (r_n r) i 0 = Some 0%Qc.
Proof. exact accepted_los_loses_modes. Qed.
Print Assumptions C146_accepted_line_of_sight_refuted.

(* An odd multipole is not the average over the shell when it has Nyquist modes along the line of sight. *)
Theorem C147_odd_multipoles_refuted :
  exists n0 n1 n2 u0 u1 u2 root los kedges f g ell blocks r p i lo hi L,
  0 < n2 /\ (0 < u2)%Qc /\ sqrt_contract root /\ (length2 los <= 1)%Qc /\ along_axis los /\ hermitian n0 n1 n2 f /\ hermitian n0 n1 n2 g /\ increasing kedges /\ blocks_hold n0 n1 blocks (n2 / 2 + 1) /\
  fftpower root (axis_coord u0 n0) (axis_coord u1 n1) (axis_coord u2 n2) 1 f g los kedges 1 [ell] blocks = Ok (r, Some p) /\
  nth_error kedges i = Some lo /\ nth_error kedges (S i) = Some hi /\ listing (shell n0 n1 n2 u0 u1 u2 lo hi) L /\
  at2 (p_y p) 0 i <> Some (cmean (map (fun m => times (nq (2 * Z.to_nat ell + 1) * legendre (Z.to_nat ell) (mu_of n0 n1 n2 u0 u1 u2 root los m)) (spectrum 1 f g m)) L)).
Proof. exact odd_pole_nyquist. Qed.
Print Assumptions C147_odd_multipoles_refuted.

(* The mode counts of the projected power are wrong when the last axis is odd. *)
Theorem C148_projected_odd_axis_refuted :
  exists root n0 n1 u0 u1 pk kedges r i lo hi L,
  0 < n1 /\ hermitian2 n0 n1 pk /\ increasing kedges /\ projected root n0 n1 u0 u1 pk 1 kedges = Ok r /\ nth_error kedges i = Some lo /\ nth_error kedges (S i) = Some hi /\
  NoDup L /\ (forall m, In m L <-> is_mode2 n0 n1 m /\ (lo <= kmag2 root n0 n1 u0 u1 m)%Qc /\ (kmag2 root n0 n1 u0 u1 m < hi)%Qc) /\ nth_error (q_modes r) i <> Some (nq (length L)).
Proof. exact projected_odd_axis. Qed.
Print Assumptions C148_projected_odd_axis_refuted.

(* The imaginary part of the projected cross power is not the average over the modes. *)
Theorem C149_projected_imaginary_refuted :
  exists root n0 n1 u0 u1 pk kedges r i lo hi L,
  0 < n1 /\ Nat.even n1 = true /\ hermitian2 n0 n1 pk /\ increasing kedges /\ projected root n0 n1 u0 u1 pk 1 kedges = Ok r /\ nth_error kedges i = Some lo /\ nth_error kedges (S i) = Some hi /\
  NoDup L /\ (forall m, In m L <-> is_mode2 n0 n1 m /\ (lo <= kmag2 root n0 n1 u0 u1 m)%Qc /\ (kmag2 root n0 n1 u0 u1 m < hi)%Qc) /\ nth_error (q_power r) i <> Some (cmean (map pk L)).
Proof. exact projected_imaginary. Qed.
Print Assumptions C149_projected_imaginary_refuted.

