(* Concrete surveys for the theorems of ConvProps.v. *)
From Verif Require Import Base.
From Coq Require Import Reals Lra Lia Permutation Sorted.
From Verif Require Import RandModel RandProofs ThreeModel ThreeSpec ThreeProofs YlmModel YlmSpec YlmProofs YlmMain ConvModel ConvSpec ConvProofs ConvMain ConvPkmu.
Local Open Scope R_scope.

Lemma length_axis (x : R) : 0 <= x -> length3 (x, 0, 0) = x /\ length3 (0, 0, x) = x /\ length3 (0, 0, - x) = x.
Proof. intros H. unfold length3, dot3. repeat split; (replace (_ + _ + _) with (x * x) by ring); apply sqrt_square, H. Qed.
Lemma rleb_yes a b : a <= b -> rleb a b = true. Proof. apply rleb_iff. Qed.
Lemma rltb_yes a b : a < b -> rltb a b = true. Proof. apply rltb_iff. Qed.
Lemma rltb_no a b : b <= a -> rltb a b = false. Proof. intros H. apply Bool.not_true_iff_false. intros Q. apply rltb_iff in Q. lra. Qed.
Lemma rleb_no a b : b < a -> rleb a b = false. Proof. intros H. apply Bool.not_true_iff_false. intros Q. apply rleb_iff in Q. lra. Qed.

(* two cells, three modes *)
Definition ex_xc (x : nat) : point := (INR x, 0, 0).
Definition ex_kc (k : nat) : point := match k with O => (0, 0, 0) | 1%nat => (3 / 2, 0, 0) | _ => (0, 0, - (3 / 2)) end.
Definition ex_e (k x : nat) : comp := (INR (k + x), 1).
Definition ex_F (x : nat) : comp := (INR x + 1, 0).
Definition ex_edges : list R := [0; 1; 2].
Lemma ex_sorted : StronglySorted Rle ex_edges.
Proof. unfold ex_edges. repeat (constructor; [|repeat (constructor; try lra)]). constructor. Qed.
Lemma ex_pos : Forall (fun v => 0 <= v) ex_edges.
Proof. unfold ex_edges. repeat (constructor; try lra). Qed.
Lemma ex_shell1 : shell [0; 1; 2]%nat ex_kc false ex_edges 1 = [(false, 1%nat); (false, 2%nat)].
Proof.
  unfold shell, all_modes, ex_edges. cbn [flat_map andb app]. unfold filter, wave. cbn [fst snd ex_kc nth].
  destruct (length_axis 0 ltac:(lra)) as (A & _). destruct (length_axis (3 / 2) ltac:(lra)) as (B & _ & C). rewrite A, B, C. rewrite (rleb_no 1 0), (rleb_yes 1 (3 / 2)), (rltb_yes (3 / 2) 2) by lra. reflexivity.
Qed.

(* one cell at distance 1 along z and one mode *)
Definition one_grid : list unit := [tt].
Definition one_xc (_ : unit) : point := (0, 0, 0).
Definition one_e (_ _ : unit) : comp := (1, 0).
Definition one_F (_ : unit) : comp := (1, 0).
Definition one_c (_ : unit) : R := 1.
Notation one_compute := (fun kc compressed => compute one_grid one_xc one_e [tt] (fun _ : unit => kc) compressed (0, 0, 1) (0, 0, 0) 1 1 one_c one_c one_F one_F).
Lemma one_position x : position one_xc (0, 0, 1) (0, 0, 0) x = (0, 0, 1).
Proof. unfold position, one_xc. f_equal; [f_equal|]; field. Qed.
Lemma one_origin : at_origin one_grid one_xc (0, 0, 1) (0, 0, 0) = false.
Proof. unfold at_origin. cbn [existsb one_grid]. rewrite xpos_position, one_position. rewrite Bool.orb_false_r. apply Bool.not_true_iff_false. intros H. apply ceq0_iff in H. unfold norm2 in H. lra. Qed.
Lemma edges02 : StronglySorted Rle [0; 2] /\ Forall (fun v => 0 <= v) [0; 2].
Proof. split; repeat (constructor; try lra). Qed.
(* a single multipole above 0 *)
Lemma single_pole kc compressed l : (l <> 0)%Z -> one_compute kc compressed [l] [0; 2] =
  (let! b := project [tt] (fun _ => kc) compressed [0; 2] (power3d one_grid one_e 1 1 one_c one_F (Aell one_grid one_xc one_e (fun _ => kc) (0, 0, 1) (0, 0, 0) 1 one_c one_F l)) in Ok {| m_k := b_k b; m_power := [(l, b_power b)]; m_modes := b_modes b |}).
Proof.
  intros N. unfold compute. cbn [distinct existsb negb andb zsort fold_right zinsert]. replace (0 =? l)%Z with false by (symmetry; apply Z.eqb_neq; lia). cbn [orb]. rewrite one_origin. cbn [andb map rall].
  destruct (project [tt] (fun _ => kc) compressed [0; 2] _) as [b|x]; reflexivity.
Qed.
(* its only bin, for a mode below 2 *)
Lemma single_bin kc compressed l : (l <> 0)%Z -> length3 kc < 2 -> exists out col n, one_compute kc compressed [l] [0; 2] = Ok out /\ m_power out = [(l, col)] /\ n <> 0 /\
  let v := weighted (fun _ => kc) compressed (power3d one_grid one_e 1 1 one_c one_F (Aell one_grid one_xc one_e (fun _ => kc) (0, 0, 1) (0, 0, 0) 1 one_c one_F l)) tt in
  n = weight (fun _ => kc) compressed tt /\ col = [Some (fst v / n, snd v / n)].
Proof.
  intros N L. destruct edges02 as [E1 E2]. pose proof (project_ok [tt] (fun _ => kc) compressed [0; 2] E1 E2) as P. specialize (P (power3d one_grid one_e 1 1 one_c one_F (Aell one_grid one_xc one_e (fun _ => kc) (0, 0, 1) (0, 0, 0) 1 one_c one_F l))).
  destruct P as (b & Eb & _ & B & _). rewrite single_pole by exact N. rewrite Eb. cbn [rbind]. exists {| m_k := b_k b; m_power := [(l, b_power b)]; m_modes := b_modes b |}. exists (b_power b), (weight (fun _ => kc) compressed tt).
  split; [reflexivity|]. split; [reflexivity|]. assert (NZ : weight (fun _ => kc) compressed tt <> 0) by (unfold weight; destruct (compressed && nonsingular (fun _ => kc) tt); lra). split; [exact NZ|]. cbn zeta. split; [reflexivity|]. rewrite B.
  cbn [length Nat.sub seq map]. unfold bsum. cbn [filter]. replace (inshell (fun _ => kc) [0; 2] 0 tt) with true by (symmetry; unfold inshell; cbn [nth]; rewrite rleb_yes by apply sqrt_pos; rewrite rltb_yes by exact L; reflexivity).
  cbn [map rsum]. rewrite !Rplus_0_r. destruct (ceq0 (weight (fun _ => kc) compressed tt)) eqn:Z; [apply ceq0_iff in Z; contradiction|reflexivity].
Qed.
(* the harmonics along the axis *)
Lemma axis_Ylm l m : (m <> 0)%Z -> real_Ylm l m (0, 0, 1) = 0.
Proof.
  intros N. unfold real_Ylm. cbn zeta. assert (A : assoc_legendre l (Z.abs_nat m) 1 = 0) by (unfold assoc_legendre; replace (1 - 1 * 1) with 0 by ring; rewrite sqrt_0, pow_i by lia; ring).
  rewrite A. destruct (m <? 0)%Z; [ring|]. destruct (0 <? m)%Z; ring.
Qed.
Lemma zero_mode_A2 : Aell one_grid one_xc one_e (fun _ => (0, 0, 0)) (0, 0, 1) (0, 0, 0) 1 one_c one_F 2 tt = (- (5 / 2), 0).
Proof.
  assert (X1 : xhat one_xc (0, 0, 1) (0, 0, 0) tt = (0, 0, 1)).
  { unfold xhat. rewrite xpos_position, one_position. assert (S1 : sqrt (norm2 (0, 0, 1)) = 1) by (unfold norm2; replace (0 * 0 + 0 * 0 + 1 * 1) with 1 by ring; apply sqrt_1). rewrite S1. unfold over. f_equal; [f_equal|]; field. }
  assert (K1 : khat (fun _ : unit => (0, 0, 0)) tt = (0, 0, 0)).
  { unfold khat. cbn zeta. replace (norm2 (0, 0, 0)) with 0 by (unfold norm2; ring). rewrite sqrt_0. replace (ceq0 0) with true by (symmetry; apply ceq0_iff; reflexivity). reflexivity. }
  pose proof PI_RGT_0 as P.
  unfold Aell, range_m. change (Z.to_nat (2 * 2 + 1)) with 5%nat. change (Z.to_nat 2) with 2%nat. cbn [seq map]. unfold r2c. cbn [one_grid map]. rewrite X1, K1.
  rewrite (axis_Ylm 2 (Z.of_nat 0 - 2)), (axis_Ylm 2 (Z.of_nat 1 - 2)), (axis_Ylm 2 (Z.of_nat 3 - 2)), (axis_Ylm 2 (Z.of_nat 4 - 2)) by (cbn; lia). change (Z.of_nat 2 - 2)%Z with 0%Z.
  assert (Y0 : real_Ylm 2 0 (0, 0, 0) = sqrt (5 / (4 * PI)) * (- / 2)) by (unfold real_Ylm, assoc_legendre, dlegendre; cbn [Z.abs_nat Z.eqb Z.ltb Z.compare pow Nat.iter nat_rect]; change (peval (lpoly 2) 0) with (peval (Nat.iter 0 pderiv (lpoly 2)) 0); cbn [Nat.iter nat_rect]; rewrite lpoly_value; unfold rlegendre; cbn [rleg2 fst Nat.mul Nat.add INR]; replace (1 + 1 + 1 + 1 + 1) with 5 by ring; field).
  assert (Y1 : real_Ylm 2 0 (0, 0, 1) = sqrt (5 / (4 * PI))) by (unfold real_Ylm, assoc_legendre, dlegendre; cbn [Z.abs_nat Z.eqb Z.ltb Z.compare pow Nat.iter nat_rect]; rewrite lpoly_value, legendre_one; cbn [Nat.mul Nat.add INR]; replace (1 + 1 + 1 + 1 + 1) with 5 by ring; ring).
  rewrite Y0, Y1. pose proof (sqrt_sqrt (5 / (4 * PI)) ltac:(apply Rlt_le, Rdiv_lt_0_compat; lra)) as SS. set (w := sqrt (5 / (4 * PI))) in *.
  unfold csum, cscale, cmul, one_e, one_F, one_c. cbn [map rsum fst snd]. f_equal; [|ring]. transitivity (4 * PI * (w * w) * (- / 2)); [ring|]. rewrite SS. field. lra.
Qed.
