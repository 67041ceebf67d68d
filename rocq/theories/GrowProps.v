(* Growth functions: properties C200-C207. *)
From Verif Require Import Base ThreeModel ThreeProofs GrowModel GrowProofs GrowMain.
From Coq Require Import Reals Lra.
From Coquelicot Require Import Coquelicot.
Local Open Scope R_scope.

(* an exact integrator for the Einstein - de Sitter universe, used in the examples *)
Definition eds : background := matter 1 (lambda_of 1 None 0) 0.
Definition odeint_eds (f : state -> R -> state) (y0 : state) (ts : list R) : list state := map (fun t => (exp t, exp t, - 3 / 7 * exp t ^ 2, - 6 / 7 * exp t ^ 2)) ts.
Lemma eds_grows lo hi : grows eds exp exp (fun t => - 3 / 7 * exp t ^ 2) (fun t => - 6 / 7 * exp t ^ 2) lo hi.
Proof.
  constructor; intros t _; try destruct (eds_background (exp t) (exp_pos t)) as (A & B & _); fold eds in *; rewrite ?A, ?B.
  - auto_derive; [exact I|ring].
  - auto_derive; [exact I|field].
  - auto_derive; [exact I|field].
  - auto_derive; [exact I|field].
Qed.
Lemma bound_of (l : list R) : exists lo hi, forall t, In t l -> lo < t < hi.
Proof.
  induction l as [|x l (lo & hi & H)]; [exists 0, 1; intros t []|]. exists (Rmin lo (x - 1)), (Rmax hi (x + 1)). intros t [<-|I].
  - pose proof (Rmin_r lo (x - 1)). pose proof (Rmax_r hi (x + 1)). lra.
  - specialize (H t I). pose proof (Rmin_l lo (x - 1)). pose proof (Rmax_l hi (x + 1)). lra.
Qed.
Lemma eds_solved ts : exists lo hi, solved ts (matter_initial (hd 0 ts)) (odeint_eds (ode eds) (matter_initial (hd 0 ts)) ts) exp exp (fun t => - 3 / 7 * exp t ^ 2) (fun t => - 6 / 7 * exp t ^ 2) lo hi.
Proof. destruct (bound_of ts) as (lo & hi & H). exists lo, hi. split; [exact H|]. split; reflexivity. Qed.

(* C200: the growth functions at the times asked for are the normalised solution of the growth equations, and the derivatives are derivatives *)
Theorem C200_growth b odeint initial al an Y G Y2 G2 lo hi :
  0 < an -> (forall a, In a al -> 0 < a) ->
  solved (times (Some al) an) (initial (hd 0 (times (Some al) an))) (odeint (ode b) (initial (hd 0 (times (Some al) an))) (times (Some al) an)) Y G Y2 G2 lo hi ->
  grows b Y G Y2 G2 lo hi -> Y (ln an) <> 0 -> Y2 (ln an) <> 0 ->
  let g := Perturbation b odeint initial (Some al) an in
  let d a := Y (ln a) / Y (ln an) in let e a := Y2 (ln a) / Y2 (ln an) in
  Gp g an = 1 /\ Gp2 g an = 1 /\
  forall a, a = an \/ In a al -> D1 g a 0 = d a /\ D2 g a 0 = e a /\
    is_derive d a (gp g a) /\ is_derive e a (gp2 g a) /\ f1 g a = a * gp g a / d a /\ f2 g a = a * gp2 g a / e a /\
    (is_derive (efunc b) a (efunc_prime b a) ->
      is_derive (fun x => G (ln x) / Y (ln an) * x ^ 2 * efunc b x) a (gf b g a) /\ is_derive (fun x => G2 (ln x) / Y2 (ln an) * x ^ 2 * efunc b x) a (gf2 b g a) /\
      Gf b g a = G (ln a) / Y (ln an) * a ^ 2 * efunc b a /\ Gf2 b g a = G2 (ln a) / Y2 (ln an) * a ^ 2 * efunc b a).
Proof. exact (growth_ok b odeint initial al an Y G Y2 G2 lo hi). Qed.
Print Assumptions C200_growth.
Example C200_growth_ex : Gp (Perturbation eds odeint_eds matter_initial (Some (/ 2 :: / 4 :: nil)) 1) (/ 2) = / 2.
Proof.
  destruct (eds_solved (times (Some (/ 2 :: / 4 :: nil)) 1)) as (lo & hi & S).
  destruct (C200_growth eds odeint_eds matter_initial (/ 2 :: / 4 :: nil) 1 _ _ _ _ lo hi ltac:(lra) ltac:(intros a [<-|[<-|[]]]; lra) S (eds_grows lo hi)) as (_ & _ & H).
  - pose proof (exp_pos (ln 1)). lra.
  - rewrite exp_ln by lra. lra.
  - destruct (H (/ 2)) as [A _]; [right; left; reflexivity|]. unfold Gp. rewrite A, !exp_ln by lra. field.
Qed.
(* the Hubble function of MatterDominated: efunc_prime is its derivative; densities add up to one; E(1) = 1 by default *)
Theorem C200_hubble m l k a : 0 < a -> 0 < m / a ^ 3 + k / a ^ 2 + l -> is_derive (efunc (matter m l k)) a (efunc_prime (matter m l k) a).
Proof. exact (matter_derive m l k a). Qed.
Print Assumptions C200_hubble.
Example C200_hubble_ex : is_derive (efunc (matter (3 / 10) (7 / 10) 0)) 1 (efunc_prime (matter (3 / 10) (7 / 10) 0) 1).
Proof. apply C200_hubble; [lra|]. replace (3 / 10 / 1 ^ 3 + 0 / 1 ^ 2 + 7 / 10) with 1 by field. lra. Qed.
Theorem C200_flat m k a : 0 < a -> efunc (matter m (lambda_of m None k) k) 1 = 1 /\
  (0 < m / a ^ 3 + k / a ^ 2 + (1 - k - m) -> let e := efunc (matter m (1 - k - m) k) a in Om (matter m (1 - k - m) k) a + k / a ^ 2 / e ^ 2 + (1 - k - m) / e ^ 2 = 1).
Proof. exact (matter_flat m k a). Qed.
Print Assumptions C200_flat.
Example C200_flat_ex : 0 < (3 / 10) / (/ 2) ^ 3 + 0 / (/ 2) ^ 2 + (1 - 0 - 3 / 10).
Proof. replace ((3 / 10) / (/ 2) ^ 3 + 0 / (/ 2) ^ 2 + (1 - 0 - 3 / 10)) with (31 / 10) by field. lra. Qed.

(* C201: in an Einstein - de Sitter universe D1 = a, D2 = a^2 in units of their values at a_normalize, with growth rates 1 and 2 *)
Theorem C201_eds odeint al an Y G Y2 G2 lo hi : 0 < an -> (forall a, In a al -> 0 < a) ->
  let b := matter 1 (lambda_of 1 None 0) 0 in
  solved (times (Some al) an) (matter_initial (hd 0 (times (Some al) an))) (odeint (ode b) (matter_initial (hd 0 (times (Some al) an))) (times (Some al) an)) Y G Y2 G2 lo hi ->
  grows b Y G Y2 G2 lo hi ->
  let g := Perturbation b odeint matter_initial (Some al) an in
  forall a, a = an \/ In a al -> Gp g a = a / an /\ f1 g a = 1 /\ Gp2 g a = (a / an) ^ 2 /\ f2 g a = 2.
Proof. exact (eds_ok odeint al an Y G Y2 G2 lo hi). Qed.
Print Assumptions C201_eds.
Example C201_eds_ex : let g := Perturbation eds odeint_eds matter_initial (Some (/ 2 :: 2 :: nil)) (/ 4) in Gp g 2 = 8 /\ f2 g 2 = 2.
Proof.
  destruct (eds_solved (times (Some (/ 2 :: 2 :: nil)) (/ 4))) as (lo & hi & S).
  destruct (C201_eds odeint_eds (/ 2 :: 2 :: nil) (/ 4) _ _ _ _ lo hi ltac:(lra) ltac:(intros a [<-|[<-|[]]]; lra) S (eds_grows lo hi) 2) as (A & _ & _ & B); [right; right; left; reflexivity|].
  split; [|exact B]. refine (eq_trans A _). field.
Qed.

(* C202 (refuted): the growth functions are one at a_normalize *)
Lemma grid_two : exists x0 x1 l, grid = x0 :: x1 :: l /\ x0 < x1 /\ forall x, In x l -> x1 <= x.
Proof.
  assert (N : grid_size = S (S (Z.to_nat 10238))) by (unfold grid_size; lia). set (f := fun i => ln 10 * (-7 + 7 * INR i / INR (grid_size - 1))).
  assert (P : 0 < / INR (grid_size - 1)) by (apply Rinv_0_lt_compat, lt_0_INR; lia).
  assert (L : 0 < ln 10) by (rewrite <- ln_1; apply ln_increasing; lra).
  assert (M : forall i j, (i <= j)%nat -> f i <= f j).
  { intros i j H. unfold f. apply Rmult_le_compat_l; [lra|]. apply le_INR in H. unfold Rdiv. pose proof (Rmult_le_compat_r _ _ _ (Rlt_le _ _ P) H). lra. }
  exists (f 0%nat), (f 1%nat), (map f (seq 2 (Z.to_nat 10238))). split; [|split].
  - unfold grid. fold f. rewrite N. cbn [seq map]. reflexivity.
  - unfold f. apply Rmult_lt_compat_l; [exact L|]. cbn [INR]. unfold Rdiv. lra.
  - intros x I. apply in_map_iff in I. destruct I as (i & <- & I). apply in_seq in I. apply M. lia.
Qed.
Lemma grid_size_ok : (1 < grid_size)%nat. Proof. unfold grid_size. lia. Qed.
Local Opaque grid grid_size.
Theorem C202_normalized_refuted : exists an Y G Y2 G2 lo hi, 0 < an < 1 /\
  solved (times None an) (matter_initial (hd 0 (times None an))) (odeint_eds (ode eds) (matter_initial (hd 0 (times None an))) (times None an)) Y G Y2 G2 lo hi /\
  grows eds Y G Y2 G2 lo hi /\ Gp (Perturbation eds odeint_eds matter_initial None an) an <> 1.
Proof.
  destruct grid_two as (x0 & x1 & l & E & L & M). set (x := (x0 + x1) / 2).
  assert (GN : forall y, In y grid -> y <= 0).
  { intros y I. Transparent grid. unfold grid in I. Opaque grid. apply in_map_iff in I. destruct I as (i & <- & I). apply in_seq in I.
    assert (Lt : 0 < ln 10) by (rewrite <- ln_1; apply ln_increasing; lra).
    assert (Q : INR i / INR (grid_size - 1) <= 1).
    { apply Rmult_le_reg_r with (INR (grid_size - 1)); [apply lt_0_INR; pose proof grid_size_ok; lia|]. unfold Rdiv. rewrite Rmult_assoc, Rinv_l, Rmult_1_r, Rmult_1_l.
      - apply le_INR. pose proof grid_size_ok. lia.
      - apply not_0_INR. pose proof grid_size_ok. lia. }
    unfold Rdiv in *. nra. }
  destruct (eds_solved grid) as (lo & hi & S). exists (exp x), exp, exp, (fun t => - 3 / 7 * exp t ^ 2), (fun t => - 6 / 7 * exp t ^ 2), lo, hi.
  assert (X : x0 < x < x1) by (unfold x; lra). assert (X1 : x1 <= 0) by (apply GN; rewrite E; right; left; reflexivity).
  split; [split; [apply exp_pos|rewrite <- exp_0; apply exp_increasing; lra]|]. split; [exact S|]. split; [apply eds_grows|].
  unfold Gp, Perturbation, times, D1, solve. cbn [g_lna g_D1]. unfold odeint_eds. rewrite combine_map_l, !map_map, ln_exp.
  set (c := order 0 _). rewrite combine_map_r.
  assert (C : c <= exp x0 \/ exp x1 <= c).
  { destruct (argmin_min x grid) as (_ & B & _); [rewrite E; discriminate|]. unfold c.
    rewrite (nth_indep _ (0, 0, 0) ((fun t => (exp t, exp t, 0)) 0)) by (rewrite map_length; exact B).
    set (i := fst (argmin x grid)) in *.
    assert (Q : order 0 (nth i (map (fun t => fst (let '(yi, t0) := (exp t, exp t, - 3 / 7 * exp t ^ 2, - 6 / 7 * exp t ^ 2, t) in let '(D1, F1, D2, F2) := yi in let '(_, F1p, _, F2p) := ode eds yi t0 in ((D1, F1, F1p), (D2, F2, F2p)))) grid) (exp 0, exp 0, 0)) = exp (nth i grid 0)).
    { transitivity (nth i (map (order 0) (map (fun t => fst (let '(yi, t0) := (exp t, exp t, - 3 / 7 * exp t ^ 2, - 6 / 7 * exp t ^ 2, t) in let '(D1, F1, D2, F2) := yi in let '(_, F1p, _, F2p) := ode eds yi t0 in ((D1, F1, F1p), (D2, F2, F2p)))) grid)) (order 0 (exp 0, exp 0, 0))); [symmetry; apply map_nth|].
      rewrite map_map. cbn [order]. erewrite (map_ext _ exp); [apply (map_nth exp)|]. intros t. cbn beta iota. rewrite ode_ok. reflexivity. }
    rewrite Q. pose proof (nth_In grid 0 B) as I. rewrite E in I at 2. destruct I as [I|[I|I]].
    - left. rewrite <- I. apply Rle_refl.
    - right. rewrite <- I. apply Rle_refl.
    - right. specialize (M _ I). destruct M as [M|M]; [left; apply exp_increasing, M|rewrite <- M; apply Rle_refl]. }
  rewrite E. cbn [map]. unfold np_interp. rewrite rltb_f by lra. cbn [interp_from]. rewrite rltb_t by lra.
  assert (V : forall t, order 0 (scale c (fst (let '(yi, t0) := (exp t, exp t, - 3 / 7 * exp t ^ 2, - 6 / 7 * exp t ^ 2, t) in let '(D1, F1, D2, F2) := yi in let '(_, F1p, _, F2p) := ode eds yi t0 in ((D1, F1, F1p), (D2, F2, F2p))))) = exp t / c).
  { intros t. cbn beta iota. rewrite ode_ok. reflexivity. }
  rewrite !V. pose proof (exp_increasing x0 x1 L) as EL. pose proof (exp_pos x0) as P0.
  destruct (Req_dec c 0) as [Z|Z].
  - rewrite Z. unfold Rdiv. rewrite Rinv_0. lra.
  - intros H. assert (K : exp x0 + (x - x0) * ((exp x1 - exp x0) / (x1 - x0)) = c).
    { apply Rmult_eq_reg_r with (/ c); [|apply Rinv_neq_0_compat, Z]. rewrite Rinv_r by exact Z. rewrite <- H. field. split; [exact Z|lra]. }
    assert (W : (x - x0) * ((exp x1 - exp x0) / (x1 - x0)) = (exp x1 - exp x0) / 2) by (unfold x; field; lra). lra.
Qed.
Print Assumptions C202_normalized_refuted.

(* C203 (refuted): for other times the growth functions are interpolated, so that D1 grows *)
Theorem C203_later_refuted : exists al an a, 1 < a /\ an = 1 /\ (forall x, In x al -> 0 < x <= 1) /\
  let g := Perturbation eds odeint_eds matter_initial (Some al) an in Gp g a = 1 /\ forall x, In x al -> Gp g x = x.
Proof.
  exists (/ 2 :: nil), 1, 2. split; [lra|]. split; [reflexivity|]. split; [intros x [<-|[]]; lra|]. cbn zeta.
  assert (Pa : forall a, In a (/ 2 :: nil) -> 0 < a) by (intros a [<-|[]]; lra).
  destruct (eds_solved (times (Some (/ 2 :: nil)) 1)) as (lo & hi & S).
  pose proof (C201_eds odeint_eds (/ 2 :: nil) 1 _ _ _ _ lo hi Rlt_0_1 Pa S (eds_grows lo hi)) as H. cbn zeta in H.
  split; [|intros x I; destruct (H x (or_intror I)) as [A _]; refine (eq_trans A _); field].
  destruct (times_some (/ 2 :: nil) 1 Rlt_0_1 Pa) as [St It].
  pose proof (solve_tables eds odeint_eds _ _ 1 _ _ _ _ lo hi S (It 1 (or_introl eq_refl))) as (A & B & _). cbn zeta in A, B.
  unfold Gp, D1, Perturbation. rewrite A, B, map_map, combine_map_r. cbn [order].
  assert (U : forall t, In t (times (Some (/ 2 :: nil)) 1) -> t <= 0).
  { intros t I. destruct (times_bounds _ _ Rlt_0_1 Pa t I) as (a & -> & P & J). assert (a <= 1).
    { destruct J as [->|[[<-|[]]| ->]]; lra. }
    rewrite <- ln_1. destruct H0 as [H0| ->]; [left; apply ln_increasing; assumption|apply Rle_refl]. }
  pose proof (It 1 (or_introl eq_refl)) as I1. rewrite ln_1 in I1.
  erewrite (interp_last (fun t => exp t / exp (ln 1)) _ (ln 2) 0).
  - assert (LE : last (times (Some (/ 2 :: nil)) 1) 0 = 0).
    { assert (NE : times (Some (/ 2 :: nil)) 1 <> []) by (intros Z; rewrite Z in I1; destruct I1). pose proof (U (last (times (Some (/ 2 :: nil)) 1) 0)) as UL.
      assert (forall (l : list R), l <> [] -> In (last l 0) l).
      { induction l as [|y l IH]; [congruence|]. intros _. destruct l as [|z l]; [left; reflexivity|]. right. apply IH. discriminate. }
      specialize (UL (H0 _ NE)). assert (LB : forall (l : list R) y, ascending l -> In y l -> y <= last l 0).
      { induction l as [|u l IH]; intros y Sl Iy; [destruct Iy|]. destruct l as [|v l]; [destruct Iy as [<-|[]]; apply Rle_refl|].
        inversion Sl as [| |? ? ? Q T]; subst. change (last (u :: v :: l) 0) with (last (v :: l) 0). destruct Iy as [<-|Iy]; [|exact (IH y T Iy)].
        apply Rle_trans with v; [exact Q|]. apply IH; [exact T|left; reflexivity]. }
      pose proof (LB _ 0 St I1). lra. }
    rewrite LE, ln_1, exp_0. field.
  - intros y I. specialize (U y I). assert (0 < ln 2) by (rewrite <- ln_1; apply ln_increasing; lra). lra.
  - intros Z. rewrite Z in I1. destruct I1.
Qed.
Print Assumptions C203_later_refuted.

(* C204: LinearNbody without velocities: species that start together stay together, and grow as in Perturbation *)
Theorem C204_together n k t q p : n_c_b n = 0 -> n_c_ncdm n <= 0 -> exists dq dp, func n k t (q, q, q) (p, p, p) = Ok ((dq, dq, dq), (dp, dp, dp)).
Proof. exact (nbody_together n k t q p). Qed.
Print Assumptions C204_together.
Definition eds_nbody : nbody := {| n_efunc z := efunc eds (1 / (1 + z)); n_cdm _ := 3 / 4; n_b _ := / 4; n_ncdm _ := 0; n_m_ncdm := nil; n_c_b := 0; n_c_ncdm := 0 |}.
Example C204_together_ex : exists dq dp, func eds_nbody 1 0 (1, 1, 1) (2, 2, 2) = Ok ((dq, dq, dq), (dp, dp, dp)).
Proof. apply C204_together; cbn [eds_nbody n_c_b n_c_ncdm]; lra. Qed.
Theorem C204_growth n k de Y G Y2 G2 lo hi : n_c_b n = 0 -> n_c_ncdm n <= 0 ->
  let b := radiation (n_efunc n) de (n_b n) (n_cdm n) in
  (forall t, lo < t < hi -> n_ncdm n (1 / exp t - 1) = 0 /\ efunc b (exp t) <> 0 /\ is_derive (efunc b) (exp t) (efunc_prime b (exp t))) ->
  grows b Y G Y2 G2 lo hi ->
  let p t := G t * exp t ^ 2 * efunc b (exp t) in
  forall t, lo < t < hi -> exists dq dp, func n k t (Y t, Y t, Y t) (p t, p t, p t) = Ok ((dq, dq, dq), (dp, dp, dp)) /\ is_derive Y t dq /\ is_derive p t dp.
Proof. exact (nbody_growth n k de Y G Y2 G2 lo hi). Qed.
Print Assumptions C204_growth.
Lemma eds_z a : 1 / (1 + (1 / a - 1)) = a.
Proof. destruct (Req_dec a 0) as [->|N]; [|field; split; [exact N|lra]]. unfold Rdiv. rewrite Rinv_0, Rmult_0_r. replace (1 + (0 - 1)) with 0 by ring. rewrite Rinv_0. ring. Qed.
Definition eds_rad : background := radiation (n_efunc eds_nbody) (fun z => efunc_prime eds (1 / (1 + z))) (n_b eds_nbody) (n_cdm eds_nbody).
Lemma eds_rad_e a : efunc eds_rad a = efunc eds a /\ efunc_prime eds_rad a = efunc_prime eds a /\ Om eds_rad a = 1.
Proof. unfold eds_rad. cbn [radiation efunc efunc_prime Om eds_nbody n_efunc n_b n_cdm]. rewrite eds_z. split; [reflexivity|]. split; [reflexivity|]. field. Qed.
Lemma eds_rad_derive a : 0 < a -> is_derive (efunc eds_rad) a (efunc_prime eds_rad a).
Proof.
  intros P. rewrite (proj1 (proj2 (eds_rad_e a))). apply (is_derive_ext (efunc eds)); [intros x; symmetry; apply eds_rad_e|].
  apply C200_hubble; [exact P|]. unfold lambda_of. replace (1 / a ^ 3 + 0 / a ^ 2 + (1 - 0 - 1)) with (/ a ^ 3) by (field; lra). apply Rinv_0_lt_compat, pow_lt, P.
Qed.
Lemma eds_rad_grows lo hi : grows eds_rad exp exp (fun t => - 3 / 7 * exp t ^ 2) (fun t => - 6 / 7 * exp t ^ 2) lo hi.
Proof.
  destruct (eds_grows lo hi) as [A B C D]. constructor; [exact A| |exact C|]; intros t T; destruct (eds_rad_e (exp t)) as (X & Y & Z);
    destruct (eds_background (exp t) (exp_pos t)) as (U & _); fold eds in U; rewrite X, Y, Z, <- U; [exact (B t T)|exact (D t T)].
Qed.
Example C204_growth_ex : exists dq dp, func eds_nbody 1 0 (exp 0, exp 0, exp 0) (1, 1, 1) = Ok ((dq, dq, dq), (dp, dp, dp)) /\ is_derive exp 0 dq.
Proof.
  destruct (C204_growth eds_nbody 1 (fun z => efunc_prime eds (1 / (1 + z))) exp exp (fun t => - 3 / 7 * exp t ^ 2) (fun t => - 6 / 7 * exp t ^ 2) (-1) 1 eq_refl (Rle_refl 0)) with (t := 0) as (dq & dp & F & A & _).
  - intros t _. fold eds_rad. split; [reflexivity|]. split; [|apply eds_rad_derive, exp_pos]. rewrite (proj1 (eds_rad_e (exp t))). apply Rgt_not_eq, (eds_background (exp t) (exp_pos t)).
  - apply eds_rad_grows.
  - lra.
  - exists dq, dp. split; [|exact A]. rewrite <- F. fold eds_rad. rewrite (proj1 (eds_rad_e (exp 0))), exp_0. unfold eds. cbn [matter efunc lambda_of].
    replace (1 / 1 ^ 3 + 0 / 1 ^ 2 + (1 - 0 - 1)) with 1 by field. rewrite sqrt_1. replace (1 * 1 ^ 2 * 1) with 1 by ring. reflexivity.
Qed.
(* the other way: a solution of LinearNbody, for all species together, is a solution of the growth equation with all of the matter *)
Theorem C204_solution n k t q p dq dp de : n_c_b n = 0 -> n_c_ncdm n <= 0 ->
  let e a := n_efunc n (1 / a - 1) in let z := 1 / exp t - 1 in
  is_derive e (exp t) de -> (forall s, e (exp s) <> 0) ->
  (forall s, exists b, func n k s (q s, q s, q s) (p s, p s, p s) = Ok ((Derive q s, Derive q s, Derive q s), b) /\ ex_derive q s) ->
  func n k t (q t, q t, q t) (p t, p t, p t) = Ok ((dq, dq, dq), (dp, dp, dp)) -> is_derive p t dp ->
  is_derive (Derive q) t (3 / 2 * (n_cdm n z + n_b n z + n_ncdm n z) * q t - (2 + exp t * de / e (exp t)) * Derive q t).
Proof. exact (nbody_solution n k t q p dq dp de). Qed.
Print Assumptions C204_solution.
Example C204_solution_ex : let p t := exp t * exp t ^ 2 * efunc eds_rad (exp t) in
  (forall s, exists b, func eds_nbody 1 s (exp s, exp s, exp s) (p s, p s, p s) = Ok ((Derive exp s, Derive exp s, Derive exp s), b) /\ ex_derive exp s) /\
  (forall t, exists dq dp, func eds_nbody 1 t (exp t, exp t, exp t) (p t, p t, p t) = Ok ((dq, dq, dq), (dp, dp, dp)) /\ is_derive p t dp).
Proof.
  cbn zeta.
  assert (H : forall t, exists dq dp, func eds_nbody 1 t (exp t, exp t, exp t) (exp t * exp t ^ 2 * efunc eds_rad (exp t), exp t * exp t ^ 2 * efunc eds_rad (exp t), exp t * exp t ^ 2 * efunc eds_rad (exp t))
    = Ok ((dq, dq, dq), (dp, dp, dp)) /\ is_derive exp t dq /\ is_derive (fun t => exp t * exp t ^ 2 * efunc eds_rad (exp t)) t dp).
  { intros t. apply (C204_growth eds_nbody 1 (fun z => efunc_prime eds (1 / (1 + z))) exp exp (fun t => - 3 / 7 * exp t ^ 2) (fun t => - 6 / 7 * exp t ^ 2) (t - 1) (t + 1) eq_refl (Rle_refl 0)).
    - intros s _. fold eds_rad. split; [reflexivity|]. split; [|apply eds_rad_derive, exp_pos]. rewrite (proj1 (eds_rad_e (exp s))). apply Rgt_not_eq, (eds_background (exp s) (exp_pos s)).
    - apply eds_rad_grows.
    - lra. }
  split; intros t; destruct (H t) as (dq & dp & F & A & B).
  - exists (dp, dp, dp). rewrite (is_derive_unique _ _ _ A). split; [exact F|exists dq; exact A].
  - exists dq, dp. split; [exact F|exact B].
Qed.

(* C205: the pressure of a species slows its infall and that of no other *)
Theorem C205_pressure n k t q p : 0 < n_efunc n (1 / exp t - 1) -> 0 < n_c_b n -> k <> 0 -> n_c_ncdm n <= 0 ->
  exists dq c b m, func n k t q p = Ok (dq, (c, b, m)) /\ m = c /\ (0 < snd (fst q) -> b < c) /\ (snd (fst q) < 0 -> c < b) /\ (snd (fst q) = 0 -> b = c).
Proof. exact (nbody_pressure n k t q p). Qed.
Print Assumptions C205_pressure.
Example C205_pressure_ex : let n := {| n_efunc _ := 1; n_cdm _ := 1; n_b _ := 0; n_ncdm _ := 0; n_m_ncdm := nil; n_c_b := 1; n_c_ncdm := 0 |} in
  exists dq c b m, func n 1 0 (1, 1, 1) (0, 0, 0) = Ok (dq, (c, b, m)) /\ b < c.
Proof.
  cbn zeta. destruct (C205_pressure {| n_efunc _ := 1; n_cdm _ := 1; n_b _ := 0; n_ncdm _ := 0; n_m_ncdm := nil; n_c_b := 1; n_c_ncdm := 0 |} 1 0 (1, 1, 1) (0, 0, 0)) as (dq & c & b & m & F & _ & L & _);
    cbn [n_efunc n_c_b n_c_ncdm]; try lra. exists dq, c, b, m. split; [exact F|]. apply L. cbn [fst snd]. lra.
Qed.

(* C206 (refuted): LinearNbody works for every Cosmology with its default arguments *)
Theorem C206_massless_refuted : exists n, n_c_b n = 0 /\ n_c_ncdm n = 134423 / 1000 /\ forall k t q p, func n k t q p = Err IndexError.
Proof.
  exists {| n_efunc _ := 1; n_cdm _ := 1; n_b _ := 0; n_ncdm _ := 0; n_m_ncdm := nil; n_c_b := 0; n_c_ncdm := 134423 / 1000 |}.
  split; [reflexivity|]. split; [reflexivity|]. intros k t q p. unfold func, J. cbn [n_c_ncdm n_m_ncdm n_efunc]. rewrite rltb_t by lra. reflexivity.
Qed.
Print Assumptions C206_massless_refuted.

(* C207: the momentum of the seeds is that of the positions for cold dark matter (in synchronous gauge d' = - h' / 2 against conformal time) ... *)
Theorem C207_cdm H0 a0 e (t : R -> transfer) x : 0 < H0 -> 0 < a0 -> 0 < e -> is_derive (fun x => d_cdm (t x)) x (- (/ 2 * h_prime (t x))) ->
  exists v, is_derive (fun x => fst (fst (fst (seed H0 a0 (t x))))) x v /\
    let '(_, (p, _, _)) := seed H0 a0 (t x) in p / a0 ^ 2 * (1 / e) = v / (a0 * e * H0).
Proof.
  intros A B C D. exists (/ 2 * h_prime (t x)). split; [|cbn; field; lra]. cbn [seed fst].
  replace (/ 2 * h_prime (t x)) with (opp (- (/ 2 * h_prime (t x)))) by (unfold opp; cbn; ring). exact (is_derive_opp (fun x => d_cdm (t x)) x _ D).
Qed.
Print Assumptions C207_cdm.
Example C207_ex : let t := fun x => {| d_cdm := - x ^ 2; d_b := 0; d_ncdm := 0; t_b := 0; t_ncdm := 0; h_prime := 4 * x |} in is_derive (fun x => d_cdm (t x)) 3 (- (/ 2 * h_prime (t 3))).
Proof. cbn. auto_derive; [exact I|field]. Qed.
(* ... (refuted) and of the other species, where d' = - (theta + h' / 2) *)
Theorem C208_baryon_refuted : exists H0 a0 e t, 0 < H0 /\ 0 < a0 /\ 0 < e /\ let '(_, (_, p, _)) := seed H0 a0 t in p / a0 ^ 2 * (1 / e) <> (t_b t + / 2 * h_prime t) / (a0 * e * H0).
Proof.
  exists 1, 2, 1, {| d_cdm := 0; d_b := 0; d_ncdm := 0; t_b := 1; t_ncdm := 0; h_prime := 0 |}. cbn. repeat split; lra.
Qed.
Print Assumptions C208_baryon_refuted.
