(* Proofs about LinModel: redshift and sigma8 of power spectra, CLASS power, limits. *)
From Verif Require Import Base ThreeModel LinModel LinProofs GrowProofs.
From Coq Require Import Reals Lra Psatz String.
Local Open Scope R_scope.
Local Notation length := List.length.

Lemma reqb_iff x y : reqb x y = true <-> x = y.
Proof. unfold reqb. destruct (Req_EM_T x y); split; intros; auto; discriminate. Qed.
Lemma reqb_false x y : reqb x y = false <-> x <> y.
Proof. unfold reqb. destruct (Req_EM_T x y); split; intros; congruence. Qed.

(* ---- setting redshift and sigma8 ---- *)
Definition last_z (z : R) (l : list op) : R := fold_left (fun z o => match o with Redshift v => v | Sigma8 _ => z end) l z.
Definition last_sigma8 (s : R) (l : list op) : R := fold_left (fun s o => match o with Redshift _ => s | Sigma8 v => v end) l s.
Lemma do_ops_zero l : forall p q, p_sigma8 p = 0 -> do_ops p l = Ok q -> q = set_redshift p (last_z (p_z p) l) /\ last_sigma8 0 l = 0.
Proof.
  induction l as [|o l IH]; intros p q Z E; cbn [do_ops] in E. { injection E as <-. split; [|reflexivity]. destruct p; reflexivity. }
  destruct o as [z|v]; cbn [do_op rbind] in E.
  - destruct (IH (set_redshift p z) q Z E) as [-> L]. split; [reflexivity|exact L].
  - unfold set_sigma8 in E. rewrite (proj2 (reqb_iff _ _) Z) in E. discriminate.
Qed.
Lemma do_ops_spec l : forall p q, p_sigma8 p <> 0 -> do_ops p l = Ok q ->
  p_cosmo q = p_cosmo p /\ p_kind q = p_kind p /\ p_cnorm q = p_cnorm p /\ p_z q = last_z (p_z p) l /\ p_sigma8 q = last_sigma8 (p_sigma8 p) l /\
  p_norm q = p_norm p * (p_sigma8 q / p_sigma8 p) ^ 2.
Proof.
  induction l as [|o l IH]; intros p q N E; cbn [do_ops] in E.
  { injection E as <-. repeat split. field. exact N. }
  destruct o as [z|v]; cbn [do_op rbind] in E.
  - destruct (IH (set_redshift p z) q N E) as (H1 & H2 & H3 & H4 & H5 & H6). repeat split; assumption.
  - unfold set_sigma8 in E. rewrite (proj2 (reqb_false _ _) N) in E. cbn [rbind] in E.
    destruct (Req_EM_T v 0) as [V|V].
    + apply do_ops_zero in E; [|exact V]. destruct E as [-> L]. cbn [set_redshift p_cosmo p_kind p_cnorm p_z p_sigma8 p_norm]. repeat split.
      subst v. symmetry. exact L.
    + match type of E with do_ops ?p1 l = _ => destruct (IH p1 q V E) as (H1 & H2 & H3 & H4 & H5 & H6) end. cbn [p_cosmo p_kind p_cnorm p_z p_sigma8 p_norm] in *. repeat split; try assumption.
      rewrite H6. field. split; assumption.
Qed.
Definition no_zero (l : list op) : Prop := Forall (fun o => match o with Redshift _ => True | Sigma8 v => v <> 0 end) l.
Lemma do_ops_ok l : forall p, p_sigma8 p <> 0 -> no_zero l -> exists q, do_ops p l = Ok q.
Proof.
  induction l as [|o l IH]; intros p N F. { exists p. reflexivity. }
  apply Forall_cons_iff in F. destruct F as [F1 F2]. destruct o as [z|v]; cbn [do_ops do_op rbind].
  - apply IH; assumption.
  - unfold set_sigma8. rewrite (proj2 (reqb_false _ _) N). cbn [rbind]. apply IH; assumption.
Qed.
(* the power without its normalization *)
Definition raw (c : params) (kd : kind) (cn z : R) (k : karg) : list R := pcall {| p_cosmo := c; p_kind := kd; p_cnorm := cn; p_sigma8 := 1; p_norm := 1; p_z := z |} k.
Lemma map_one (l : list R) : map (fun x => 1 * x) l = l.
Proof. induction l as [|x l IH]; [reflexivity|]. cbn [map]. rewrite IH, Rmult_1_l. reflexivity. Qed.
Lemma pcall_raw p k : pcall p k = map (fun x => p_norm p * x) (raw (p_cosmo p) (p_kind p) (p_cnorm p) (p_z p) k).
Proof. unfold raw, pcall. cbn [p_cosmo p_kind p_cnorm p_z p_norm]. rewrite map_one. reflexivity. Qed.
Lemma power_sets p l q : p_sigma8 p <> 0 -> do_ops p l = Ok q ->
  p_z q = last_z (p_z p) l /\ p_sigma8 q = last_sigma8 (p_sigma8 p) l /\
  forall k, pcall q k = map (fun x => (last_sigma8 (p_sigma8 p) l / p_sigma8 p) ^ 2 * x) (pcall (set_redshift p (last_z (p_z p) l)) k).
Proof.
  intros N E. destruct (do_ops_spec l p q N E) as (H1 & H2 & H3 & H4 & H5 & H6). repeat split; try assumption. intros k.
  rewrite (pcall_raw q), (pcall_raw (set_redshift p (last_z (p_z p) l))). cbn [set_redshift p_cosmo p_kind p_cnorm p_z p_norm].
  rewrite map_map, H1, H2, H3, H4. apply map_ext. intros x. rewrite H6, H5. ring.
Qed.

(* ---- the normalization ---- *)
Section Sigma.
Variable grid : list R.
Variable tophat : list R -> R -> R.
Hypothesis linear : forall a l, tophat (map (fun x => a * x) l) 8 = a * tophat l 8.
Lemma fresh_fields c z t p : LinearPower grid tophat c z t = Ok p ->
  p_cosmo p = c /\ p_z p = z /\ p_sigma8 p = c_sigma8 c /\ p_cnorm p = class_norm c /\ kind_of t = Ok (p_kind p) /\
  p_norm p = (c_sigma8 c / sqrt (tophat (raw c (p_kind p) (class_norm c) 0 (Floats grid)) 8)) ^ 2.
Proof.
  unfold LinearPower. destruct (kind_of t) as [kd|e] eqn:K; [|discriminate]. cbn [rbind]. intros E. injection E as <-.
  cbn [p_cosmo p_kind p_cnorm p_z p_sigma8 p_norm]. repeat split.
Qed.
Lemma sigma_is_sigma8 c z t p l q : LinearPower grid tophat c z t = Ok p -> 0 < c_sigma8 c -> 0 < sigma_r grid tophat (set_redshift p 0) 8 ->
  do_ops p l = Ok q -> 0 <= last_sigma8 (c_sigma8 c) l -> sigma_r grid tophat (set_redshift q 0) 8 = last_sigma8 (c_sigma8 c) l.
Proof.
  intros E S8 V D L. destruct (fresh_fields c z t p E) as (F1 & F2 & F3 & F4 & F5 & F6).
  assert (N : p_sigma8 p <> 0) by (rewrite F3; lra). destruct (do_ops_spec l p q N D) as (H1 & H2 & H3 & H4 & H5 & H6).
  unfold sigma_r in *. rewrite (pcall_raw (set_redshift p 0)) in V. rewrite (pcall_raw (set_redshift q 0)). cbn [set_redshift p_cosmo p_kind p_cnorm p_z p_norm] in *.
  rewrite linear in *. rewrite H1, H2, H3, F1, F4 in *. set (W := tophat (raw c (p_kind p) (class_norm c) 0 (Floats grid)) 8) in *.
  assert (Wp : 0 < W). { destruct (Rlt_dec 0 W) as [Q|Q]; [exact Q|exfalso]. assert (A := pow2_pos (c_sigma8 c / sqrt W)). rewrite <- F6 in A. rewrite sqrt_neg_0 in V; nra. }
  rewrite H6, F6, H5, F3. assert (Sq := sqrt_lt0 W Wp).
  replace ((c_sigma8 c / sqrt W) ^ 2 * (last_sigma8 (c_sigma8 c) l / c_sigma8 c) ^ 2 * W) with (last_sigma8 (c_sigma8 c) l ^ 2 * (W / (sqrt W * sqrt W))) by (field; lra).
  rewrite sqrt_sqrt by lra. replace (W / W) with 1 by (field; lra). rewrite Rmult_1_r. apply sqrt_pow2, L.
Qed.

(* ---- CLASS ---- *)
Lemma class_T_sq c cn z x : 0 < c_h c -> 0 < x -> 0 <= c_pklin c x z ->
  Rpower x (c_ns c) * class_T c cn z x ^ 2 = cn ^ 2 * / c_h c ^ 3 * / Rpower (c_h c) (c_ns c) * c_pklin c x z.
Proof.
  intros H X P. unfold class_T. rewrite (rltb_t 0 x X). rewrite <- Rpower_mult_distr by assumption.
  assert (A1 := Rpower_pos x (c_ns c)). assert (A2 := Rpower_pos (c_h c) (c_ns c)). assert (A3 : 0 < c_h c ^ 3) by (apply pow_lt, H).
  rewrite Rpow_mult_distr, pow2_sqrt.
  - unfold Rdiv. rewrite Rinv_mult. transitivity (cn ^ 2 * (c_pklin c x z * / c_h c ^ 3 * (Rpower x (c_ns c) * / Rpower x (c_ns c) * / Rpower (c_h c) (c_ns c)))); [ring|]. rewrite Rinv_r by lra. ring.
  - apply Rmult_le_pos; [apply Rmult_le_pos; [exact P|left; apply Rinv_0_lt_compat, A3]|]. left. apply Rinv_0_lt_compat, Rmult_lt_0_compat; assumption.
Qed.
Lemma class_power c z p : LinearPower grid tophat c z "CLASS" = Ok p -> 0 < c_h c -> 0 < c_sigma8 c -> 0 < sigma_r grid tophat (set_redshift p 0) 8 ->
  (forall k z, 0 < k -> 0 < c_pklin c k z) -> 0 < c_kmax c ->
  exists A, 0 < A /\
    (forall z l, Forall (fun k => 0 < k < 99999 / 100000 * c_kmax c) l -> pcall (set_redshift p z) (Floats l) = map (fun k => A * c_pklin c k z) l) /\
    (forall z l, c_growth c z <> 0 -> eh_T c (c_kmax c) <> 0 -> Forall (fun k => 99999 / 100000 * c_kmax c <= k) l ->
       pcall (set_redshift p z) (Floats l) = map (fun k => A * c_pklin c (c_kmax c) z * Rpower (k / c_kmax c) (c_ns c) * (eh_T c k / eh_T c (c_kmax c)) ^ 2) l).
Proof.
  intros E H S8 V P KM. destruct (fresh_fields c z _ p E) as (F1 & F2 & F3 & F4 & F5 & F6). injection F5 as F5.
  assert (Wp : 0 < tophat (raw c (p_kind p) (class_norm c) 0 (Floats grid)) 8).
  { unfold sigma_r in V. rewrite (pcall_raw (set_redshift p 0)) in V. cbn [set_redshift p_cosmo p_kind p_cnorm p_z p_norm] in V. rewrite linear, F1, F4 in V.
    set (W := tophat (raw c (p_kind p) (class_norm c) 0 (Floats grid)) 8) in *. destruct (Rlt_dec 0 W) as [Q|Q]; [exact Q|exfalso].
    assert (A := pow2_pos (c_sigma8 c / sqrt W)). rewrite <- F6 in A. rewrite sqrt_neg_0 in V; nra. }
  assert (Np : 0 < p_norm p). { rewrite F6. apply pow_lt, Rdiv_lt_0_compat; [exact S8|apply sqrt_lt0, Wp]. }
  assert (Cn : 0 < class_norm c).
  { unfold class_norm, class_T. assert (K0 : 0 < KMIN) by (unfold KMIN; apply Rinv_0_lt_compat, pow_lt; lra). rewrite (rltb_t 0 KMIN K0). apply Rdiv_lt_0_compat; [lra|]. rewrite Rmult_1_l.
    apply sqrt_lt0, Rdiv_lt_0_compat; [apply Rdiv_lt_0_compat; [apply P, K0|apply pow_lt, H]|apply Rpower_pos]. }
  set (A := p_norm p * (class_norm c ^ 2 * / c_h c ^ 3 * / Rpower (c_h c) (c_ns c))).
  assert (Ih3 : 0 < / c_h c ^ 3) by (apply Rinv_0_lt_compat, pow_lt, H). assert (Ihn : 0 < / Rpower (c_h c) (c_ns c)) by (apply Rinv_0_lt_compat, Rpower_pos).
  exists A. split; [|split].
  - unfold A. apply Rmult_lt_0_compat; [exact Np|]. apply Rmult_lt_0_compat; [|exact Ihn]. apply Rmult_lt_0_compat; [apply pow_lt, Cn|exact Ih3].
  - intros z' l F. unfold pcall. cbn [set_redshift p_cosmo p_kind p_cnorm p_z p_norm values]. rewrite <- F5, F1, F4, map_map. apply map_ext_in. intros k I.
    rewrite Forall_forall in F. destruct (F k I) as [K1 K2]. unfold store. cbn [integral]. rewrite (rltb_t _ _ K2). unfold kpow. rewrite (rltb_t 0 k K1).
    rewrite class_T_sq; [|exact H|exact K1|left; apply P, K1]. unfold A. ring.
  - intros z' l D T F. unfold pcall. cbn [set_redshift p_cosmo p_kind p_cnorm p_z p_norm values]. rewrite <- F5, F1, F4, map_map. apply map_ext_in. intros k I.
    rewrite Forall_forall in F. specialize (F k I). cbv beta in F. assert (K1 : 0 < k) by lra. unfold store. cbn [integral]. rewrite (rltb_f _ _ F). unfold kpow. rewrite (rltb_t 0 k K1), (rltb_t 0 (c_kmax c) KM).
    assert (Q := class_T_sq c (class_norm c) z' (c_kmax c) H KM (Rlt_le _ _ (P (c_kmax c) z' KM))).
    assert (R1 := Rpower_pos (c_kmax c) (c_ns c)).
    assert (Q2 : class_T c (class_norm c) z' (c_kmax c) ^ 2 = class_norm c ^ 2 * / c_h c ^ 3 * / Rpower (c_h c) (c_ns c) * c_pklin c (c_kmax c) z' * / Rpower (c_kmax c) (c_ns c)).
    { rewrite <- Q. field. lra. }
    assert (Rk : Rpower (k / c_kmax c) (c_ns c) = Rpower k (c_ns c) * / Rpower (c_kmax c) (c_ns c)).
    { unfold Rdiv. rewrite <- Rpower_mult_distr; [|exact K1|apply Rinv_0_lt_compat, KM]. f_equal. unfold Rpower. rewrite ln_Rinv by exact KM. rewrite <- exp_Ropp. f_equal. ring. }
    rewrite Rk. unfold A.
    replace ((eh_T c k * c_growth c z' * (class_T c (class_norm c) z' (c_kmax c) / (eh_T c (c_kmax c) * c_growth c z'))) ^ 2)
      with (class_T c (class_norm c) z' (c_kmax c) ^ 2 * (eh_T c k / eh_T c (c_kmax c)) ^ 2) by (field; split; assumption).
    rewrite Q2. ring.
Qed.

(* ---- correlation function ---- *)
Lemma combine_with_scale (a : R) l m : forall g : R -> R, combine_with (fun k P => P * g k) l (map (fun x => a * x) m) = map (fun x => a * x) (combine_with (fun k P => P * g k) l m).
Proof.
  intros g. unfold combine_with. revert m. induction l as [|k l IH]; intros [|y m]; try reflexivity. cbn [map combine fst snd]. rewrite (IH m), Rmult_assoc. reflexivity.
Qed.
Lemma xi_scales (fftlog : list R -> R -> R) p l q s r : (forall a l, fftlog (map (fun x => a * x) l) r = a * fftlog l r) -> p_sigma8 p <> 0 -> do_ops p l = Ok q ->
  xi grid fftlog q s r = (last_sigma8 (p_sigma8 p) l / p_sigma8 p) ^ 2 * xi grid fftlog (set_redshift p (last_z (p_z p) l)) s r.
Proof.
  intros Lin N D. destruct (power_sets p l q N D) as (_ & _ & E). unfold xi. rewrite E, (combine_with_scale _ _ _ (fun k => exp (- (k * s) ^ 2))). apply Lin.
Qed.

(* ---- Zeldovich ---- *)
Variables dispersion third : power -> R.
Variables J0 J1 : power -> list R.
Lemma set_same p : set_redshift p (p_z p) = p. Proof. destruct p; reflexivity. Qed.
Lemma z_ops_setup l : forall p, z_ops dispersion third J0 J1 (setup dispersion third J0 J1 p (p_z p) (p_sigma8 p)) l = rbind (do_ops p l) (fun q => Ok (setup dispersion third J0 J1 q (p_z q) (p_sigma8 q))).
Proof using.
  induction l as [|o l IH]; intros p; [reflexivity|]. destruct o as [z|v]; cbn [z_ops do_ops z_op do_op rbind].
  - change (z_lin (setup dispersion third J0 J1 p (p_z p) (p_sigma8 p))) with p. change (z_sigma8 (setup dispersion third J0 J1 p (p_z p) (p_sigma8 p))) with (p_sigma8 p). apply (IH (set_redshift p z)).
  - change (z_lin (setup dispersion third J0 J1 p (p_z p) (p_sigma8 p))) with p. change (z_z (setup dispersion third J0 J1 p (p_z p) (p_sigma8 p))) with (p_z p).
    unfold set_sigma8. destruct (reqb (p_sigma8 p) 0); [reflexivity|]. cbn [rbind]. apply (IH {| p_cosmo := p_cosmo p; p_kind := p_kind p; p_cnorm := p_cnorm p; p_sigma8 := v; p_norm := p_norm p * (v / p_sigma8 p) ^ 2; p_z := p_z p |}).
Qed.
Lemma zeldovich_current c z t s l : Zeldovich grid tophat dispersion third J0 J1 c z t = Ok s ->
  exists p, LinearPower grid tophat c z t = Ok p /\
    z_ops dispersion third J0 J1 s l = rbind (do_ops p l) (fun q => Ok (setup dispersion third J0 J1 q (p_z q) (p_sigma8 q))).
Proof using.
  unfold Zeldovich. destruct (LinearPower grid tophat c z t) as [p|e] eqn:E; [|discriminate]. cbn [rbind]. intros Q. injection Q as <-. exists p. split; [reflexivity|].
  destruct (fresh_fields c z t p E) as (_ & F2 & F3 & _). rewrite <- F3. rewrite <- F2. rewrite set_same. apply z_ops_setup.
Qed.
Lemma low_k_half s k : 0 <= hd 0 (pcall (z_lin s) (Scalar k)) -> 0 <= z_Q3 s -> hd 0 (pcall (z_lin s) (Scalar k)) / 2 <= low_k s k.
Proof using.
  intros P Q. unfold low_k. set (Pl := hd 0 (pcall (z_lin s) (Scalar k))) in *.
  assert (A1 : 0 <= 1 / (10 * PI ^ 2)). { left. apply Rdiv_lt_0_compat; [lra|]. assert (0 < PI ^ 2) by (apply pow_lt, PI_RGT_0). lra. }
  assert (A2 : 0 <= 1 / (10 * PI ^ 2) * k ^ 4 * z_Q3 s) by (apply Rmult_le_pos; [apply Rmult_le_pos; [exact A1|apply pow4_pos]|exact Q]).
  replace (1 - k ^ 2 * z_sigmasq s + / 2 * k ^ 4 * z_sigmasq s ^ 2) with (/ 2 + / 2 * (1 - k ^ 2 * z_sigmasq s) ^ 2) by (field).
  assert (A3 := pow2_pos (1 - k ^ 2 * z_sigmasq s)). set (w := (1 - k ^ 2 * z_sigmasq s) ^ 2) in *. assert (0 <= w * Pl) by (apply Rmult_le_pos; assumption). lra.
Qed.
End Sigma.

(* ---- halofit ---- *)
Lemma rmax_spec l : match rmax l with None => l = [] | Some m => In m l /\ Forall (fun x => x <= m) l end.
Proof.
  induction l as [|x l IH]; [reflexivity|]. cbn [rmax]. destruct (rmax l) as [m|].
  - destruct IH as [I F]. unfold Rmax. destruct (Rle_dec x m) as [H|H].
    + split; [right; exact I|]. constructor; assumption.
    + split; [left; reflexivity|]. constructor; [lra|]. eapply Forall_impl; [|exact F]. cbv beta. intros. lra.
  - subst l. split; [left; reflexivity|]. constructor; [lra|constructor].
Qed.
Lemma h_call_spec s l :
  (h_call s (Floats l) = Err ValueError <-> l = [] \/ Exists (fun k => c_kmax (h_cosmo s) < k) l) /\
  (l <> [] -> Forall (fun k => k <= c_kmax (h_cosmo s)) l -> exists v, h_call s (Floats l) = Ok v /\
     Forall2 (fun k x => (100001 / 100000 * c_kmin (h_cosmo s) < k -> x = c_pk (h_cosmo s) k (h_z s)) /\ (k <= 100001 / 100000 * c_kmin (h_cosmo s) -> x = c_pklin (h_cosmo s) k (h_z s))) l v).
Proof.
  unfold h_call. cbn [values]. assert (M := rmax_spec l). destruct (rmax l) as [m|]; [destruct M as [I F]|].
  - assert (Ne : l <> []) by (intros ->; destruct I). split.
    + destruct (rltb (c_kmax (h_cosmo s)) m) eqn:T.
      * apply rltb_yes in T. split; [|reflexivity]. intros _. right. apply Exists_exists. exists m. split; assumption.
      * apply rltb_no in T. split; [discriminate|]. intros [->|X]; [contradiction|]. exfalso. apply Exists_exists in X. destruct X as (k & Ik & K). rewrite Forall_forall in F. specialize (F k Ik). cbv beta in F. lra.
    + intros _ G. rewrite Forall_forall in G. rewrite (rltb_f _ _ (G m I)). eexists. split; [reflexivity|].
      clear. induction l as [|k l IH]; [constructor|]. cbn [map]. constructor; [|exact IH]. unfold store. cbn [integral]. split; intros H; [rewrite (rltb_t _ _ H)|rewrite (rltb_f _ _ H)]; reflexivity.
  - subst l. split; [split; [left; reflexivity|reflexivity]|]. intros X. contradiction.
Qed.
Inductive h_reach (m : params -> R -> params) (c : params) : halofit -> Prop :=
| hr_init z : h_reach m c (Halofit c z)
| hr_z s z : h_reach m c s -> h_reach m c (h_set_redshift s z)
| hr_s s v : h_reach m c s -> h_reach m c (h_set_sigma8 m s v).
Lemma halofit_current m c s : (forall c v, c_sigma8 (m c v) = v) -> h_reach m c s -> c_sigma8 (h_cosmo s) = h_sigma8 s /\ h_attrs s = h_cosmo s.
Proof. intros M. induction 1 as [z|s z _ [I1 I2]|s v _ [I1 I2]]; cbn; auto. Qed.

(* ---- galaxies ---- *)
Lemma gaussian_power c b0 p fNL sp z P k : fNL = 0 \/ b0 = p -> galaxy_power c b0 p fNL sp z P k = b0 ^ 2 * P k.
Proof.
  intros H. unfold galaxy_power, total_bias. replace (3 * fNL * (b0 - p)) with 0. { unfold Rdiv. ring. } destruct H as [->| ->]; ring.
Qed.
Lemma bias_amplitude c b0 p fNL sp z P k A : 0 < A -> 0 < P k -> 0 < k -> 0 <= z ->
  total_bias c b0 p fNL sp z (fun k => A * P k) k - b0 = (total_bias c b0 p fNL sp z P k - b0) / sqrt A.
Proof.
  intros HA HP HK HZ. unfold total_bias. rewrite sqrt_mult by lra. assert (S1 := sqrt_lt0 A HA). assert (S2 := sqrt_lt0 _ HP).
  unfold Rdiv. rewrite !Rinv_mult. ring.
Qed.

(* ---- transfers at large scales ---- *)
Lemma analytic_bound (T : R -> R) (C : R) c z k : 0 <= C -> (forall k, 0 < k -> Rabs (T k - 1) <= C * k ^ 2) -> scalar_zero k = false ->
  Forall2 (fun k t => Rabs (t - c_growth c z) <= C * k ^ 2 * Rabs (c_growth c z)) (values k) (analytic T c z k).
Proof.
  intros HC B E. unfold analytic. rewrite E. induction (values k) as [|x l IH]; [constructor|]. cbn [map]. constructor; [|exact IH].
  replace ((if rltb 0 x then T x else 1) * c_growth c z - c_growth c z) with (((if rltb 0 x then T x else 1) - 1) * c_growth c z) by ring. rewrite Rabs_mult.
  apply Rmult_le_compat_r; [apply Rabs_pos|]. destruct (rltb 0 x) eqn:X. { apply B, rltb_yes, X. }
  replace (1 - 1) with 0 by ring. rewrite Rabs_R0. apply Rmult_le_pos; [exact HC|apply pow2_pos].
Qed.
Lemma eh_large_scales c : physical c -> exists C, 0 <= C /\ forall z k, scalar_zero k = false ->
  Forall2 (fun k t => Rabs (t - c_growth c z) <= C * k ^ 2 * Rabs (c_growth c z)) (values k) (analytic (eh_T c) c z k).
Proof.
  intros P. assert (C0 : 0 <= eh_C c). { assert (A := eh_bound c 1 P ltac:(lra)). assert (B := Rabs_pos (eh_T c 1 - 1)). lra. }
  exists (eh_C c). split; [exact C0|]. intros z k E. apply analytic_bound; [exact C0|intros; apply eh_bound; assumption|exact E].
Qed.
Lemma nw_large_scales c : physical c -> 0 < nw_alpha c -> exists C, 0 <= C /\ forall z k, scalar_zero k = false ->
  Forall2 (fun k t => Rabs (t - c_growth c z) <= C * k ^ 2 * Rabs (c_growth c z)) (values k) (analytic (nw_T c) c z k).
Proof.
  intros P Al. assert (C0 : 0 <= nw_C c). { destruct (nw_bound c 1 P Al ltac:(lra)) as [A _]. lra. }
  exists (nw_C c). split; [exact C0|]. intros z k E. apply analytic_bound; [exact C0| |exact E].
  intros x X. destruct (nw_bound c x P Al X) as [A _]. apply Rabs_le. assert (0 <= nw_C c * x ^ 2) by (apply Rmult_le_pos; [exact C0|apply pow2_pos]). lra.
Qed.
Lemma nw_range c z k : physical c -> 0 < nw_alpha c -> 0 < c_growth c z -> Forall (fun t => 0 < t) (analytic (nw_T c) c z k) /\ (scalar_zero k = false -> Forall (fun t => t <= c_growth c z) (analytic (nw_T c) c z k)).
Proof.
  intros P Al D. unfold analytic. destruct (scalar_zero k). { split; [constructor; [lra|constructor]|discriminate]. }
  split; [|intros _]; apply Forall_map, Forall_forall; intros x _; destruct (rltb 0 x) eqn:X; try lra; apply rltb_yes in X; destruct (nw_bound c x P Al X) as [A B]; [apply Rmult_lt_0_compat; assumption|nra].
Qed.

(* ---- beta_c of Eisenstein & Hu (1998), equation 12 ---- *)
Definition published_beta_c (Omh2 f : R) : R :=
  let b1 := 944 / 1000 / (1 + Rpower (458 * Omh2) (- (708 / 1000))) in
  let b2 := Rpower (395 / 1000 * Omh2) (- (266 / 10000)) in
  / (1 + b1 * (Rpower (1 - f) b2 - 1)).
Lemma beta_c_larger c : physical c -> / 100 <= Omh2 (eh_setup c) -> f_baryon (eh_setup c) <= / 50 ->
  published_beta_c (Omh2 (eh_setup c)) (f_baryon (eh_setup c)) < beta_c (eh_setup c).
Proof.
  intros P W F. destruct (eh_is_good c P) as [_ _ _ _ _ _ F0].
  replace (beta_c (eh_setup c)) with (1 / (1 + 944 / 1000 / (1 + Rpower (458 * Omh2 (eh_setup c)) (- (708 / 1000))) * Rpower (1 - f_baryon (eh_setup c)) (395 / 1000 * Rpower (Omh2 (eh_setup c)) (- (266 / 10000))) - 1)) by reflexivity.
  unfold published_beta_c. set (w := Omh2 (eh_setup c)) in *. set (f := f_baryon (eh_setup c)) in *.
  assert (R1 := Rpower_pos (458 * w) (- (708 / 1000))). set (r := Rpower (458 * w) (- (708 / 1000))) in *.
  assert (B1 : 0 < 944 / 1000 / (1 + r) < 944 / 1000).
  { split; [apply Rdiv_lt_0_compat; lra|]. apply (Rmult_lt_reg_r (1 + r)); [lra|]. unfold Rdiv. rewrite Rmult_assoc, Rinv_l by lra. lra. }
  set (b1 := 944 / 1000 / (1 + r)) in *.
  set (b2 := Rpower (395 / 1000 * w) (- (266 / 10000))). set (b2' := 395 / 1000 * Rpower w (- (266 / 10000))).
  assert (B2 : b2 <= 2).
  { unfold b2, Rpower. rewrite <- (exp_ln 2) by lra. assert (L : - 8 * ln 2 <= ln (395 / 1000 * w)).
    { replace (- 8 * ln 2) with (ln (/ 256)). { apply ln_mono; lra. } rewrite ln_Rinv by lra. replace 256 with (2 ^ 8) by lra. rewrite ln_pow by lra. cbn [INR]. ring. }
    assert (L2 : 0 < ln 2) by (rewrite <- ln_1; apply ln_increasing; lra).
    assert (M : - (266 / 10000) * ln (395 / 1000 * w) <= ln 2) by lra. destruct M as [M|M]; [left; apply exp_increasing, M|rewrite M; right; reflexivity]. }
  assert (Lf : ln (1 - f) < 0) by (rewrite <- ln_1; apply ln_increasing; lra).
  assert (U : 96 / 100 <= Rpower (1 - f) b2).
  { apply Rle_trans with (Rpower (1 - f) 2).
    - replace 2 with (INR 2) by reflexivity. rewrite Rpower_pow by lra. cbn [pow]. nra.
    - unfold Rpower. assert (M : 2 * ln (1 - f) <= b2 * ln (1 - f)) by nra. destruct M as [M|M]; [left; apply exp_increasing, M|rewrite M; right; reflexivity]. }
  assert (V : 0 < Rpower (1 - f) b2' < 1).
  { split; [apply Rpower_pos|]. assert (Bp : 0 < b2') by (unfold b2'; assert (A := Rpower_pos w (- (266 / 10000))); lra). clearbody b2'.
    unfold Rpower. apply Rlt_le_trans with (exp 0); [apply exp_increasing; nra|rewrite exp_0; lra]. }
  set (u := Rpower (1 - f) b2) in *. set (v := Rpower (1 - f) b2') in *.
  assert (D1 : 0 < b1 * v) by (apply Rmult_lt_0_compat; lra). assert (D2 : b1 * v < 1 + b1 * (u - 1)) by nra.
  unfold Rdiv. rewrite Rmult_1_l. apply Rinv_lt_contravar; [|lra]. apply Rmult_lt_0_compat; lra.
Qed.
