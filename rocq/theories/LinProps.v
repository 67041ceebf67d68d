(* Properties C209-C223. *)
From Verif Require Import Base ThreeModel LinModel LinProofs GrowProofs LinMain.
From Coq Require Import Reals Lra Psatz String.
Local Open Scope R_scope.
Local Notation length := List.length.

(* a cosmology: h = Om = 1, Ob = 0.01, n_s = 0, power 4 below k = 1/2 and 1 above *)
Definition c0 : params :=
  {| c_h := 1; c_Ob := / 100; c_Om := 1; c_Tcmb := 27 / 10; c_ns := 0; c_H0 := 100; c_kmin := / 1000; c_kmax := 10; c_sigma8 := 4 / 5;
     c_growth := fun z => / (1 + z); c_pklin := fun k _ => if rltb k (/ 2) then 4 else 1; c_pk := fun k _ => if rltb k (/ 2) then 4 else 2 |}.
Definition grid0 : list R := [/ 4].
Definition tophat0 (l : list R) (r : R) : R := hd 0 l.
Lemma physical0 : physical c0. Proof. unfold physical. cbn. lra. Qed.
Lemma Rpower0 x : Rpower x 0 = 1. Proof. unfold Rpower. rewrite Rmult_0_l. apply exp_0. Qed.
Lemma sqrt4 : sqrt 4 = 2. Proof. replace 4 with (2 * 2) by ring. apply sqrt_square. lra. Qed.
Lemma KMIN_range : 0 < KMIN < / 2.
Proof.
  unfold KMIN. split; [apply Rinv_0_lt_compat, pow_lt; lra|]. apply Rinv_lt_contravar; [assert (0 < 10 ^ 8) by (apply pow_lt; lra); lra|].
  apply Rlt_le_trans with (10 ^ 1); [lra|]. apply Rle_pow; [lra|lia].
Qed.
Lemma cnorm0 : class_norm c0 = / 2.
Proof.
  destruct KMIN_range as [K1 K2]. unfold class_norm, class_T. rewrite (rltb_t _ _ K1). cbn [c0 c_pklin c_h c_ns]. rewrite (rltb_t _ _ K2), Rpower0.
  replace (4 / 1 ^ 3 / 1) with 4 by field. rewrite sqrt4. field.
Qed.
Lemma classT_low z k : 0 < k < / 2 -> class_T c0 (/ 2) z k = 1.
Proof. intros [A B]. unfold class_T. rewrite (rltb_t _ _ A). cbn [c0 c_pklin c_h c_ns]. rewrite (rltb_t _ _ B), Rpower0. replace (4 / 1 ^ 3 / 1) with 4 by field. rewrite sqrt4. field. Qed.
Lemma classT_high z k : / 2 <= k -> class_T c0 (/ 2) z k = / 2.
Proof. intros A. unfold class_T. rewrite (rltb_t 0 k) by lra. cbn [c0 c_pklin c_h c_ns]. rewrite (rltb_f k (/ 2)) by lra. rewrite Rpower0. replace (1 / 1 ^ 3 / 1) with 1 by field. rewrite sqrt_1. field. Qed.
Definition p0 : power := {| p_cosmo := c0; p_kind := CLASS; p_cnorm := / 2; p_sigma8 := 4 / 5; p_norm := 16 / 25; p_z := 0 |}.
Lemma power0_floats k z : 0 < k < 99999 / 10000 -> pcall (set_redshift p0 z) (Floats [k]) = [16 / 25 * (if rltb k (/ 2) then 1 else / 4)].
Proof.
  intros [K1 K2]. unfold pcall. cbn [set_redshift p0 p_cosmo p_kind p_cnorm p_z p_norm values map]. unfold store, kpow. cbn [integral c0 c_kmax c_ns]. fold c0.
  rewrite (rltb_t k (99999 / 100000 * 10)) by lra. rewrite (rltb_t 0 k K1), Rpower0. destruct (rltb k (/ 2)) eqn:E.
  - apply rltb_yes in E. rewrite classT_low by lra. f_equal. field.
  - apply rltb_no in E. rewrite classT_high by lra. f_equal. field.
Qed.
Lemma power0 z : LinearPower grid0 tophat0 c0 z "CLASS" = Ok (set_redshift p0 z).
Proof.
  unfold LinearPower. cbn [kind_of String.eqb Ascii.eqb Bool.eqb rbind]. rewrite cnorm0. unfold set_redshift, p0. cbn [p_cosmo p_kind p_cnorm p_sigma8 p_norm]. do 2 f_equal.
  unfold sigma_r, tophat0, pcall, grid0. cbn [p_cosmo p_kind p_cnorm p_z p_norm values map hd]. unfold store, kpow. cbn [integral c0 c_kmax c_ns c_sigma8]. fold c0.
  rewrite (rltb_t (/ 4) (99999 / 100000 * 10)) by lra. rewrite (rltb_t 0 (/ 4)) by lra. rewrite Rpower0, classT_low by lra.
  replace (1 * (1 * 1 ^ 2)) with 1 by ring. rewrite sqrt_1. field.
Qed.
Lemma sigma0 z : sigma_r grid0 tophat0 (set_redshift (set_redshift p0 z) 0) 8 = 4 / 5.
Proof.
  unfold sigma_r, tophat0, grid0. change (set_redshift (set_redshift p0 z) 0) with (set_redshift p0 0). rewrite power0_floats by lra. rewrite (rltb_t (/ 4) (/ 2)) by lra. cbn [hd].
  replace (16 / 25 * 1) with (4 / 5 * (4 / 5)) by field. apply sqrt_square. lra.
Qed.
Lemma linear0 a l : tophat0 (map (fun x => a * x) l) 8 = a * tophat0 l 8.
Proof. destruct l; cbn; ring. Qed.
Lemma positive0 k z : 0 < k -> 0 < c_pklin c0 k z. Proof. intros _. cbn. destruct (rltb k (/ 2)); lra. Qed.

Ltac nozero := unfold no_zero; repeat apply Forall_cons; try apply Forall_nil; cbv beta iota; [exact I || lra ..].
(* C209: after any changes of redshift and sigma8 the power is the first one at the last redshift, times the square of the ratio of the sigma8s *)
Theorem C209_sets p l q : p_sigma8 p <> 0 -> do_ops p l = Ok q ->
  p_z q = last_z (p_z p) l /\ p_sigma8 q = last_sigma8 (p_sigma8 p) l /\
  forall k, pcall q k = map (fun x => (last_sigma8 (p_sigma8 p) l / p_sigma8 p) ^ 2 * x) (pcall (set_redshift p (last_z (p_z p) l)) k).
Proof. exact (power_sets p l q). Qed.
Print Assumptions C209_sets.
Theorem C209_ok p l : p_sigma8 p <> 0 -> no_zero l -> exists q, do_ops p l = Ok q.
Proof. exact (do_ops_ok l p). Qed.
Print Assumptions C209_ok.
Theorem C209_sigma8 grid tophat c z t p l q : (forall a l, tophat (map (fun x => a * x) l) 8 = a * tophat l 8) ->
  LinearPower grid tophat c z t = Ok p -> 0 < c_sigma8 c -> 0 < sigma_r grid tophat (set_redshift p 0) 8 ->
  do_ops p l = Ok q -> 0 <= last_sigma8 (c_sigma8 c) l -> sigma_r grid tophat (set_redshift q 0) 8 = last_sigma8 (c_sigma8 c) l.
Proof. intros H. exact (sigma_is_sigma8 grid tophat H c z t p l q). Qed.
Print Assumptions C209_sigma8.
Example C209_example : exists q, do_ops (set_redshift p0 1) [Sigma8 (8 / 5); Redshift 2; Sigma8 (2 / 5)] = Ok q /\
  pcall q (Floats [1]) = [/ 4 * (16 / 25 * / 4)] /\ sigma_r grid0 tophat0 (set_redshift q 0) 8 = 2 / 5.
Proof.
  destruct (C209_ok (set_redshift p0 1) [Sigma8 (8 / 5); Redshift 2; Sigma8 (2 / 5)]) as [q E]. { cbn. lra. } { nozero. }
  exists q. split; [exact E|]. split.
  - assert (N : p_sigma8 (set_redshift p0 1) <> 0) by (cbn; lra). destruct (C209_sets _ _ q N E) as (_ & _ & P). rewrite P. cbn [last_sigma8 last_z fold_left set_redshift p_sigma8 p_z p0].
    change (set_redshift (set_redshift p0 1) 2) with (set_redshift p0 2). rewrite power0_floats by lra. rewrite (rltb_f 1 (/ 2)) by lra. cbn [map]. f_equal. field.
  - rewrite (C209_sigma8 grid0 tophat0 c0 1 "CLASS" (set_redshift p0 1) [Sigma8 (8 / 5); Redshift 2; Sigma8 (2 / 5)] q linear0 (power0 1)); [reflexivity|cbn; lra|rewrite sigma0; lra|exact E|cbn; lra].
Qed.
Theorem C210_zero_refuted : exists grid tophat c p q, LinearPower grid tophat c 0 "CLASS" = Ok p /\ 0 < p_sigma8 p /\ do_ops p [Sigma8 0] = Ok q /\ do_ops q [Sigma8 (p_sigma8 p)] = Err ZeroDivisionError.
Proof.
  exists grid0, tophat0, c0, (set_redshift p0 0). eexists. split; [apply power0|]. split; [cbn; lra|]. split.
  - cbn [do_ops do_op]. unfold set_sigma8. rewrite (proj2 (reqb_false _ _)) by (cbn; lra). cbn [rbind]. reflexivity.
  - cbn [do_ops do_op]. unfold set_sigma8. cbn [p_sigma8]. rewrite (proj2 (reqb_iff 0 0) eq_refl). reflexivity.
Qed.
Print Assumptions C210_zero_refuted.

(* C211 *)
Theorem C211_class grid tophat c z p : (forall a l, tophat (map (fun x => a * x) l) 8 = a * tophat l 8) ->
  LinearPower grid tophat c z "CLASS" = Ok p -> 0 < c_h c -> 0 < c_sigma8 c -> 0 < sigma_r grid tophat (set_redshift p 0) 8 ->
  (forall k z, 0 < k -> 0 < c_pklin c k z) -> 0 < c_kmax c ->
  exists A, 0 < A /\
    (forall z l, Forall (fun k => 0 < k < 99999 / 100000 * c_kmax c) l -> pcall (set_redshift p z) (Floats l) = map (fun k => A * c_pklin c k z) l) /\
    (forall z l, c_growth c z <> 0 -> eh_T c (c_kmax c) <> 0 -> Forall (fun k => 99999 / 100000 * c_kmax c <= k) l ->
       pcall (set_redshift p z) (Floats l) = map (fun k => A * c_pklin c (c_kmax c) z * Rpower (k / c_kmax c) (c_ns c) * (eh_T c k / eh_T c (c_kmax c)) ^ 2) l).
Proof. intros H. exact (class_power grid tophat H c z p). Qed.
Print Assumptions C211_class.
Example C211_example : exists A, 0 < A /\ pcall (set_redshift p0 3) (Floats [/ 8; 1]) = [A * 4; A * 1].
Proof.
  destruct (C211_class grid0 tophat0 c0 3 (set_redshift p0 3) linear0 (power0 3)) as (A & P & E & _); [cbn; lra|cbn; lra|rewrite sigma0; lra|exact positive0|cbn; lra|].
  exists A. split; [exact P|]. change (set_redshift p0 3) with (set_redshift (set_redshift p0 3) 3). rewrite E by (repeat apply Forall_cons; try apply Forall_nil; cbn; lra). cbn [map c0 c_pklin].
  rewrite (rltb_t (/ 8) (/ 2)), (rltb_f 1 (/ 2)) by lra. reflexivity.
Qed.
Lemma trunc_quarter : trunc (/ 4) = 0.
Proof. unfold trunc. rewrite (rltb_f (/ 4) 0) by lra. unfold Int_part. rewrite <- (tech_up (/ 4) 1) by lra. reflexivity. Qed.
Theorem C212_integers_refuted : exists grid tophat c p, LinearPower grid tophat c 0 "CLASS" = Ok p /\
  pcall p (Ints [1%Z]) = [0] /\ exists x, 0 < x /\ pcall p (Floats [IZR 1]) = [x].
Proof.
  exists grid0, tophat0, c0, (set_redshift p0 0). split; [apply power0|]. split.
  - unfold pcall. cbn [set_redshift p0 p_cosmo p_kind p_cnorm p_z p_norm values map]. unfold store, kpow. cbn [integral c0 c_kmax c_ns]. fold c0.
    rewrite (rltb_t 1 (99999 / 100000 * 10)) by lra. rewrite (rltb_t 0 1) by lra. rewrite Rpower0, classT_high by lra. replace (1 * (/ 2) ^ 2) with (/ 4) by field. rewrite trunc_quarter, Rmult_0_r. reflexivity.
  - exists (16 / 25 * / 4). split; [lra|]. rewrite power0_floats by lra. rewrite (rltb_f 1 (/ 2)) by lra. reflexivity.
Qed.
Print Assumptions C212_integers_refuted.

(* C213: the transfer function of Eisenstein & Hu tends to the growth factor on large scales *)
Theorem C213_large_scales c : physical c -> exists C, 0 <= C /\ forall z k, scalar_zero k = false ->
  Forall2 (fun k t => Rabs (t - c_growth c z) <= C * k ^ 2 * Rabs (c_growth c z)) (values k) (analytic (eh_T c) c z k).
Proof. exact (eh_large_scales c). Qed.
Print Assumptions C213_large_scales.
Example C213_example : physical c0 /\ scalar_zero (Floats [0; 1]) = false.
Proof. split; [exact physical0|reflexivity]. Qed.
(* C214: the one without wiggles does, and lies between 0 and the growth factor *)
Theorem C214_large_scales c : physical c -> 0 < nw_alpha c -> exists C, 0 <= C /\ forall z k, scalar_zero k = false ->
  Forall2 (fun k t => Rabs (t - c_growth c z) <= C * k ^ 2 * Rabs (c_growth c z)) (values k) (analytic (nw_T c) c z k).
Proof. exact (nw_large_scales c). Qed.
Print Assumptions C214_large_scales.
Theorem C214_range c z k : physical c -> 0 < nw_alpha c -> 0 < c_growth c z ->
  Forall (fun t => 0 < t) (analytic (nw_T c) c z k) /\ (scalar_zero k = false -> Forall (fun t => t <= c_growth c z) (analytic (nw_T c) c z k)).
Proof. exact (nw_range c z k). Qed.
Print Assumptions C214_range.
Example C214_example : physical c0 /\ 0 < nw_alpha c0 /\ 0 < c_growth c0 1.
Proof.
  split; [exact physical0|]. split; [|cbn; lra]. unfold nw_alpha. cbn [c0 c_Om c_h c_Ob].
  assert (A : ln (431 * (1 * 1 ^ 2)) <= 9).
  { apply Rle_trans with (ln (exp 9)); [|rewrite ln_exp; lra]. apply ln_mono; [lra|]. assert (E := exp_ineq1 1 ltac:(lra)).
    replace (exp 9) with (exp 1 ^ 9). { apply Rle_trans with (2 ^ 9); [lra|]. apply pow_incr. lra. }
    rewrite <- Rpower_pow by apply exp_pos. unfold Rpower. rewrite ln_exp. f_equal. cbn [INR]. ring. }
  assert (B : 0 <= ln (223 / 10 * (1 * 1 ^ 2))). { rewrite <- ln_1 at 1. apply ln_mono; lra. }
  replace (/ 100 / 1) with (/ 100) by field. replace ((/ 100) ^ 2) with (/ 10000) by field. lra.
Qed.
Theorem C215_scalar_zero_refuted : exists c z, physical c /\ 0 < z /\ analytic (eh_T c) c z (Scalar 0) <> analytic (eh_T c) c z (Floats [0]) /\
  analytic (nw_T c) c z (Scalar 0) <> analytic (nw_T c) c z (Floats [0]).
Proof.
  exists c0, 1. split; [exact physical0|]. split; [lra|]. unfold analytic, scalar_zero. rewrite (proj2 (reqb_iff 0 0) eq_refl). cbn [values map c0 c_growth]. rewrite (rltb_f 0 0) by lra.
  split; intros E; injection E as E; lra.
Qed.
Print Assumptions C215_scalar_zero_refuted.
(* C216: beta_c is not the published one, whatever the cosmology, when there are few baryons *)
Theorem C216_larger c : physical c -> / 100 <= Omh2 (eh_setup c) -> f_baryon (eh_setup c) <= / 50 ->
  published_beta_c (Omh2 (eh_setup c)) (f_baryon (eh_setup c)) < beta_c (eh_setup c).
Proof. exact (beta_c_larger c). Qed.
Print Assumptions C216_larger.
Theorem C216_beta_c_refuted : exists c, physical c /\ beta_c (eh_setup c) <> published_beta_c (Omh2 (eh_setup c)) (f_baryon (eh_setup c)).
Proof. exists c0. split; [exact physical0|]. apply Rgt_not_eq, C216_larger; [exact physical0|cbn; lra|cbn; lra]. Qed.
Print Assumptions C216_beta_c_refuted.

(* C217-C219: galaxies *)
Theorem C217_gaussian c b0 p fNL sp z P k : fNL = 0 \/ b0 = p -> galaxy_power c b0 p fNL sp z P k = b0 ^ 2 * P k.
Proof. exact (gaussian_power c b0 p fNL sp z P k). Qed.
Print Assumptions C217_gaussian.
Example C217_example : galaxy_power c0 2 1 0 300000 1 (fun _ => 5) (/ 10) = 20 /\ galaxy_power c0 2 2 7 300000 1 (fun _ => 5) (/ 10) = 20 /\ galaxy_power c0 2 1 7 300000 1 (fun _ => 5) (/ 10) <> 20.
Proof.
  split; [rewrite C217_gaussian by auto; ring|]. split; [rewrite C217_gaussian by auto; ring|].
  unfold galaxy_power, total_bias. cbn [c0 c_Om c_H0]. set (d := 3 * 7 * (2 - 1) * (1686 / 1000) * 1 / ((/ 10) ^ 2 * sqrt 5 * (1 / (1 + 1))) * (100 / 300000) ^ 2).
  assert (D : 0 < d).
  { unfold d. apply Rmult_lt_0_compat; [|apply pow_lt; lra]. apply Rdiv_lt_0_compat; [lra|]. apply Rmult_lt_0_compat; [|lra]. apply Rmult_lt_0_compat; [apply pow_lt; lra|apply sqrt_lt0; lra]. }
  nra.
Qed.
Theorem C218_correlation_refuted : correlation_accepts Galaxy_power = Err AttributeError /\ Forall (fun o => correlation_accepts o = Ok tt) [Linear_power; Halofit_power; Zeldovich_power].
Proof. split; [reflexivity|repeat constructor]. Qed.
Print Assumptions C218_correlation_refuted.
(* the scale-dependent bias changes when the power changes its amplitude *)
Theorem C219_amplitude_refuted : exists c b0 p fNL sp z P k A, 0 < A /\ 0 < k /\ 0 < P k /\
  total_bias c b0 p fNL sp z (fun k => A * P k) k - b0 = (total_bias c b0 p fNL sp z P k - b0) / 2 /\ total_bias c b0 p fNL sp z P k - b0 > 0.
Proof.
  exists c0, 2, 1, 7, 300000, 0, (fun _ => 1), (/ 10), 4. repeat split; try lra.
  - rewrite (bias_amplitude c0 2 1 7 300000 0 (fun _ => 1) (/ 10) 4) by lra. rewrite sqrt4. reflexivity.
  - unfold total_bias. cbn [c0 c_Om c_H0]. rewrite sqrt_1. lra.
Qed.
Print Assumptions C219_amplitude_refuted.

(* C220: HalofitPower *)
Theorem C220_range s l :
  (h_call s (Floats l) = Err ValueError <-> l = [] \/ Exists (fun k => c_kmax (h_cosmo s) < k) l) /\
  (l <> [] -> Forall (fun k => k <= c_kmax (h_cosmo s)) l -> exists v, h_call s (Floats l) = Ok v /\
     Forall2 (fun k x => (100001 / 100000 * c_kmin (h_cosmo s) < k -> x = c_pk (h_cosmo s) k (h_z s)) /\ (k <= 100001 / 100000 * c_kmin (h_cosmo s) -> x = c_pklin (h_cosmo s) k (h_z s))) l v).
Proof. exact (h_call_spec s l). Qed.
Print Assumptions C220_range.
Theorem C220_current m c s : (forall c v, c_sigma8 (m c v) = v) -> h_reach m c s -> c_sigma8 (h_cosmo s) = h_sigma8 s /\ h_attrs s = h_cosmo s.
Proof. exact (halofit_current m c s). Qed.
Print Assumptions C220_current.
Definition match0 (c : params) (v : R) : params :=
  {| c_h := c_h c; c_Ob := c_Ob c; c_Om := c_Om c; c_Tcmb := c_Tcmb c; c_ns := c_ns c; c_H0 := c_H0 c; c_kmin := c_kmin c; c_kmax := c_kmax c; c_sigma8 := v;
     c_growth := c_growth c; c_pklin := fun k z => (v / c_sigma8 c) ^ 2 * c_pklin c k z; c_pk := fun k z => (v / c_sigma8 c) ^ 2 * c_pk c k z |}.
Example C220_example : (forall c v, c_sigma8 (match0 c v) = v) /\ h_reach match0 c0 (h_set_redshift (h_set_sigma8 match0 (Halofit c0 1) 1) 2) /\
  h_call (Halofit c0 1) (Floats [1; / 10000]) = Ok [2; 4] /\ h_call (Halofit c0 1) (Floats [1; 20]) = Err ValueError.
Proof.
  split; [reflexivity|]. split; [repeat constructor|]. split.
  - unfold h_call. cbn [values rmax Halofit h_cosmo h_z c0 c_kmax c_kmin c_pk c_pklin map]. rewrite Rmax_left by lra. rewrite (rltb_f 10 1) by lra. unfold store. cbn [integral].
    rewrite (rltb_t (100001 / 100000 * / 1000) 1), (rltb_f 1 (/ 2)), (rltb_f (100001 / 100000 * / 1000) (/ 10000)), (rltb_t (/ 10000) (/ 2)) by lra. reflexivity.
  - unfold h_call. cbn [values rmax Halofit h_cosmo h_z c0 c_kmax c_kmin]. rewrite Rmax_right by lra. rewrite (rltb_t 10 20) by lra. reflexivity.
Qed.

(* C221: ZeldovichPower *)
Theorem C221_current grid tophat dispersion third J0 J1 c z t s l : Zeldovich grid tophat dispersion third J0 J1 c z t = Ok s ->
  exists p, LinearPower grid tophat c z t = Ok p /\
    z_ops dispersion third J0 J1 s l = rbind (do_ops p l) (fun q => Ok (setup dispersion third J0 J1 q (p_z q) (p_sigma8 q))).
Proof. exact (zeldovich_current grid tophat dispersion third J0 J1 c z t s l). Qed.
Print Assumptions C221_current.
Theorem C221_low_k s k : 0 <= hd 0 (pcall (z_lin s) (Scalar k)) -> 0 <= z_Q3 s -> hd 0 (pcall (z_lin s) (Scalar k)) / 2 <= low_k s k.
Proof. exact (low_k_half s k). Qed.
Print Assumptions C221_low_k.
Definition disp0 (p : power) : R := p_norm p.
Example C221_example : exists s, Zeldovich grid0 tophat0 disp0 disp0 (fun _ => []) (fun _ => []) c0 0 "CLASS" = Ok s /\
  exists t, z_ops disp0 disp0 (fun _ => []) (fun _ => []) s [Sigma8 (8 / 5); Redshift 1] = Ok t /\ z_sigmasq t = 4 * z_sigmasq s /\ z_z t = 1 /\ z_sigma8 t = 8 / 5.
Proof.
  eexists. split; [unfold Zeldovich; rewrite power0; reflexivity|]. eexists. cbn [z_ops z_op rbind setup z_lin]. unfold set_sigma8. rewrite (proj2 (reqb_false _ _)) by (cbn; lra). cbn [rbind z_ops z_op setup z_lin z_z z_sigma8].
  split; [reflexivity|]. split; [|split; reflexivity]. cbn [setup z_sigmasq]. unfold disp0. cbn [set_redshift p_norm p0 p_sigma8]. field.
Qed.

(* C222: the correlation function is proportional to the square of sigma8 *)
Theorem C222_scales grid fftlog p l q s r : (forall a l, fftlog (map (fun x => a * x) l) r = a * fftlog l r) -> p_sigma8 p <> 0 -> do_ops p l = Ok q ->
  xi grid fftlog q s r = (last_sigma8 (p_sigma8 p) l / p_sigma8 p) ^ 2 * xi grid fftlog (set_redshift p (last_z (p_z p) l)) s r.
Proof. exact (xi_scales grid fftlog p l q s r). Qed.
Print Assumptions C222_scales.
Example C222_example : exists q, do_ops p0 [Sigma8 (8 / 5)] = Ok q /\ xi grid0 tophat0 q 0 8 = 4 * xi grid0 tophat0 p0 0 8 /\ xi grid0 tophat0 p0 0 8 = 16 / 25.
Proof.
  destruct (C209_ok p0 [Sigma8 (8 / 5)]) as [q E]. { cbn. lra. } { nozero. } exists q. split; [exact E|]. split.
  - rewrite (C222_scales grid0 tophat0 p0 [Sigma8 (8 / 5)] q 0 8); [|intros; apply linear0|cbn; lra|exact E]. cbn [last_sigma8 last_z fold_left p_sigma8 p_z p0]. fold p0. change (set_redshift p0 0) with p0. field.
  - unfold xi, grid0. change p0 with (set_redshift p0 0). rewrite power0_floats by lra. rewrite (rltb_t (/ 4) (/ 2)) by lra. cbn [combine_with combine map fst snd tophat0 hd]. unfold combine_with. cbn [combine map fst snd tophat0 hd].
    replace (- (/ 4 * 0) ^ 2) with 0 by ring. rewrite exp_0. field.
Qed.
Theorem C223_attrs_refuted : exists m c z v, (forall c v, c_sigma8 (m c v) = v) /\
  let f := cf_set_sigma8 m (Correlation (Halofit c z)) v in c_sigma8 (cf_attrs f) <> h_sigma8 (cf_power f) /\ c_sigma8 (h_attrs (cf_power f)) = v.
Proof. exists match0, c0, 0, 1. split; [reflexivity|]. cbn. split; [lra|reflexivity]. Qed.
Print Assumptions C223_attrs_refuted.
