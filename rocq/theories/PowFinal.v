From Verif Require Import Base BaseProofs Num RanksSpec FiberModel FiberProofs FiberMore BinArr BinProofs PairSpec SurveyMore CgmLocal CgmGlobal CgmGeom CgmRun PowModel PowSpec PowProofs PowMain.
From Coq Require Import Sorted Permutation.
Local Open Scope nat_scope.

Lemma ratio_mean : forall (A : Type) (f : A -> Qc) L, ratio (qsum (map f L)) (nq (length L)) = mean (map f L).
Proof.
  intros A f L. unfold ratio, mean. destruct L as [|x L]; [destruct (Qc_eq_dec (nq (length (@nil A))) 0) as [E|E]; [reflexivity|exfalso; apply E; reflexivity]|].
  destruct (Qc_eq_dec (nq (length (x :: L))) 0) as [E|_]; [exfalso; exact (nq_neq0 (S (length L)) ltac:(lia) E)|]. rewrite map_length. reflexivity.
Qed.
Lemma cratio_mean : forall (A : Type) (f : A -> cplx) L, cratio (qsum (map (fun m => fst (f m)) L), qsum (map (fun m => snd (f m)) L)) (nq (length L)) = cmean (map f L).
Proof.
  intros A f L. unfold cratio, cmean. destruct L as [|x L]; [destruct (Qc_eq_dec (nq (length (@nil A))) 0) as [E|E]; [reflexivity|exfalso; apply E; reflexivity]|].
  destruct (Qc_eq_dec (nq (length (x :: L))) 0) as [E|_]; [exfalso; exact (nq_neq0 (S (length L)) ltac:(lia) E)|]. cbn [fst snd]. rewrite map_length, !map_map. reflexivity.
Qed.
Lemma qsum_wt : forall (A : Type) (L : list A), qsum (map (fun _ => 1%Qc) L) = nq (length L). Proof. exact qsum_ones. Qed.

Section Box.
Variables n0 n1 n2 : nat. Variables u0 u1 u2 : Qc. Variables (root : Qc -> Qc) (los : vec).
Variables (xedges muedges : list Qc).
Hypothesis N2 : 0 < n2. Hypothesis U2 : (0 < u2)%Qc.
Hypothesis Hx : increasing xedges. Hypothesis Px : forall e, In e xedges -> (0 <= e)%Qc.
Hypothesis Hm : increasing muedges. Hypothesis Lm : 2 <= length muedges. Hypothesis Lx : 1 <= length xedges.
Notation a0 := (axis_coord u0 n0). Notation a1 := (axis_coord u1 n1). Notation a2 := (axis_coord u2 n2).
Notation K2 := (k2 n0 n1 n2 u0 u1 u2). Notation MU := (mu_of n0 n1 n2 u0 u1 u2 root los). Notation rp := (rep n0 n1 n2). Notation opp := (opposite n0 n1 n2). Notation mode := (is_mode n0 n1 n2).
Lemma norm2_k2 : forall m, norm2 a0 a1 a2 m = K2 m. Proof using. intros [[i j] l]. reflexivity. Qed.
Lemma mu_mu : forall m, mu root a0 a1 a2 los m = MU m. Proof using. intros [[i j] l]. reflexivity. Qed.
Lemma squares : increasing (map (fun e => (e * e)%Qc) xedges). Proof using All. apply squares_inc; assumption. Qed.
Lemma bin_iff : forall i im lo hi m, nth_error xedges i = Some lo -> nth_error xedges (S i) = Some hi -> S im < length muedges ->
  in_bin root a0 a1 a2 los xedges muedges (S i) (S im) m = true <-> ((lo * lo <= K2 m)%Qc /\ (K2 m < hi * hi)%Qc) /\ in_mubin muedges im (MU m).
Proof using All.
  intros i im lo hi m El Eh Him. rewrite (in_bin_iff root true a0 a1 a2 (fun _ => (0, 0)%Qc) los xedges muedges squares Hm ltac:(lia) Lx i im lo hi m El Eh) by (unfold Nmu; lia). rewrite norm2_k2, mu_mu. apply and_iff_compat_l. unfold in_mubin. split.
  - intros [a [b [E1 [E2 [L H]]]]]. exists a, b. split; [exact E1|]. split; [exact E2|]. split; [exact L|]. destruct H as [H|[H _]]; auto.
  - intros [a [b [E1 [E2 [L H]]]]]. exists a, b. split; [exact E1|]. split; [exact E2|]. split; [exact L|]. destruct (Qclt_le_dec (MU m) b) as [L2|L2]; [left; exact L2|]. destruct H as [H|H]; [left; exact H|right; auto].
Qed.
Lemma row_iff : forall i lo hi e0 m, nth_error xedges i = Some lo -> nth_error xedges (S i) = Some hi -> nth_error muedges 0 = Some e0 ->
  in_row root a0 a1 a2 los xedges muedges i m = true <-> ((lo * lo <= K2 m)%Qc /\ (K2 m < hi * hi)%Qc) /\ (e0 <= MU m)%Qc.
Proof using All. intros i lo hi e0 m El Eh E0. rewrite (in_row_iff root true a0 a1 a2 (fun _ => (0, 0)%Qc) los xedges muedges squares Hm Lm Lx i lo hi e0 m El Eh E0), norm2_k2, mu_mu. reflexivity. Qed.

(* ---- all cells stored ---- *)
Section Plain.
Variable y : cell3 -> cplx.
Variables (blocks : list block) (poles : list Z).
Hypothesis HB : blocks_hold n0 n1 blocks n2.
Hypothesis HP : forall e, In e poles -> (0 <= e)%Z.
Notation full := (cells3 (seq 0 n0) (seq 0 n1) (seq 0 n2)).
Lemma plain : exists r pol, project root false a0 a1 a2 y los xedges muedges poles blocks = Ok (r, pol) /\
  (forall i im lo hi, nth_error xedges i = Some lo -> nth_error xedges (S i) = Some hi -> S im < length muedges ->
     exists L, listing (fun m => shell n0 n1 n2 u0 u1 u2 lo hi m /\ in_mubin muedges im (MU m)) L /\
       at2 (r_n r) i im = Some (nq (length L)) /\ at2 (r_x r) i im = Some (mean (map (fun m => root (K2 m)) L)) /\
       at2 (r_mu r) i im = Some (mean (map MU L)) /\ at2 (r_y r) i im = Some (cmean (map y L))) /\
  (poles = [] -> pol = None) /\
  (poles <> [] -> exists p, pol = Some p /\ forall i lo hi e0, nth_error xedges i = Some lo -> nth_error xedges (S i) = Some hi -> nth_error muedges 0 = Some e0 ->
     exists L, listing (fun m => shell n0 n1 n2 u0 u1 u2 lo hi m /\ (e0 <= MU m)%Qc) L /\
       nth_error (p_n p) i = Some (nq (length L)) /\ nth_error (p_x p) i = Some (mean (map (fun m => root (K2 m)) L)) /\
       forall q ell, nth_error poles q = Some ell -> at2 (p_y p) q i = Some (cmean (map (fun m => times (nq (2 * Z.to_nat ell + 1) * legendre (Z.to_nat ell) (MU m)) (y m)) L))).
Proof using All.
  destruct (project_bins root false a0 a1 a2 y los xedges muedges squares Hm Lm Lx blocks full poles HB HP) as [r [pol [E [H2 [H3 H4]]]]]. exists r, pol. split; [exact E|].
  assert (W : forall B, qsum (map (weight false a2) B) = nq (length B)). { intros B. rewrite <- qsum_ones. apply qsum_ext'. intros m _. reflexivity. }
  assert (R : forall B, qsum (map (fun m => root (norm2 a0 a1 a2 m) * weight false a2 m)%Qc B) = qsum (map (fun m => root (K2 m)) B)). { intros B. apply qsum_ext'. intros m _. rewrite norm2_k2. unfold weight. cbn [andb]. ring. }
  assert (M : forall B, qsum (map (fun m => mu root a0 a1 a2 los m * weight false a2 m)%Qc B) = qsum (map MU B)). { intros B. apply qsum_ext'. intros m _. rewrite mu_mu. unfold weight. cbn [andb]. ring. }
  assert (Y : forall ell m, weighted root false a0 a1 a2 y los ell m = times (nq (2 * ell + 1) * legendre ell (MU m)) (y m)). { intros ell m. unfold weighted, times. cbn [andb]. rewrite mu_mu. f_equal; ring. }
  split; [|split; [exact H3|]].
  - intros i im lo hi El Eh Him. assert (Li : i < Nx xedges) by (assert (S i < length xedges) by (apply nth_error_Some; congruence); unfold Nx; lia). assert (Lim : im < Nmu muedges) by (unfold Nmu; lia).
    specialize (H2 i im Li Lim). cbn zeta in H2. set (B := filter (in_bin root a0 a1 a2 los xedges muedges (S i) (S im)) full) in *. exists B. split.
    + split; [apply NoDup_filter, nodup_full|]. intros m. unfold B. rewrite filter_In, in_full, (bin_iff i im lo hi m El Eh Him). unfold shell. tauto.
    + rewrite W, R, M, ratio_mean, ratio_mean in H2. destruct H2 as [A1 [A2 [A3 A4]]]. split; [exact A1|]. split; [exact A2|]. split; [exact A3|]. rewrite A4. f_equal. rewrite <- cratio_mean. f_equal. f_equal; apply qsum_ext'; intros m _; rewrite Y; unfold times; cbn [fst snd]; rewrite legendre_0; change (nq (2 * 0 + 1)) with 1%Qc; ring.
  - intros Hp. destruct (H4 Hp) as [p [Ep H5]]. exists p. split; [exact Ep|]. intros i lo hi e0 El Eh E0. assert (Li : i < Nx xedges) by (assert (S i < length xedges) by (apply nth_error_Some; congruence); unfold Nx; lia).
    specialize (H5 i Li). cbn zeta in H5. set (B := filter (in_row root a0 a1 a2 los xedges muedges i) full) in *. exists B. split.
    + split; [apply NoDup_filter, nodup_full|]. intros m. unfold B. rewrite filter_In, in_full, (row_iff i lo hi e0 m El Eh E0). unfold shell. tauto.
    + rewrite W, R, ratio_mean in H5. destruct H5 as [A1 [A2 A3]]. split; [exact A1|]. split; [exact A2|]. intros q ell Hq. rewrite (A3 q ell Hq). f_equal. rewrite <- cratio_mean. f_equal. f_equal; apply qsum_ext'; intros m _; rewrite Y; reflexivity.
Qed.
End Plain.

(* ---- only the non-redundant half stored ---- *)
Section Half.
Variable F : cell3 -> cplx.
Hypothesis HF : hermitian n0 n1 n2 F.
Variables (blocks : list block) (poles : list Z).
Hypothesis HB : blocks_hold n0 n1 blocks (n2 / 2 + 1).
Hypothesis HP : forall e, In e poles -> (0 <= e)%Z.
Notation full := (cells3 (seq 0 n0) (seq 0 n1) (seq 0 n2)). Notation half := (cells3 (seq 0 n0) (seq 0 n1) (seq 0 (n2 / 2 + 1))). Notation ns := (nonsingular a2).
Lemma half_wt : forall P, qsum (map (weight true a2) (filter P half)) = nq (length (filter (fun m => P (rp m)) full)).
Proof using All. intros P. rewrite <- qsum_ones, <- (fold_filter n0 n1 n2 u0 u1 u2 N2 U2 P (fun _ => 1%Qc)). apply qsum_ext'. intros m _. unfold weight. cbn [andb]. destruct (ns m); ring. Qed.
Lemma half_even : forall P (g : cell3 -> Qc), (forall m, mode m -> g (opp m) = g m) -> qsum (map (fun m => g m * weight true a2 m)%Qc (filter P half)) = qsum (map g (filter (fun m => P (rp m)) full)).
Proof using All.
  intros P g Hg. rewrite <- (fold_filter n0 n1 n2 u0 u1 u2 N2 U2 P g). apply qsum_ext'. intros m Hin. apply filter_In in Hin. destruct Hin as [Hin _]. apply (in_half n0 n1 n2 u0 u1 u2 N2 U2) in Hin. rewrite (Hg m (proj1 Hin)). unfold weight. cbn [andb]. destruct (ns m); ring.
Qed.
Lemma rep_opp : forall m, mode m -> is_stored n2 m = true -> ns m = true -> rp (opp m) = m.
Proof using All. intros m H Hs Hn. unfold rep. rewrite (opp_unstored n0 n1 n2 u0 u1 u2 N2 U2 m H Hs Hn). apply opp_opp, H. Qed.
Lemma half_rep : forall P (g : cell3 -> Qc), qsum (map (fun m => g m * weight true a2 m)%Qc (filter P half)) = qsum (map (fun m => g (rp m)) (filter (fun m => P (rp m)) full)).
Proof using All.
  intros P g. rewrite <- (fold_filter n0 n1 n2 u0 u1 u2 N2 U2 P (fun m => g (rp m))). apply qsum_ext'. intros m Hin. apply filter_In in Hin. destruct Hin as [Hin _]. apply (in_half n0 n1 n2 u0 u1 u2 N2 U2) in Hin. destruct Hin as [Hm' Hs].
  unfold weight. cbn [andb]. destruct (ns m) eqn:E; [rewrite (rep_opp m Hm' Hs E)|]; unfold rep; rewrite Hs; ring.
Qed.
(* the mirror image of a mode that is not stored *)
Definition mirrored (ell : nat) (m : cell3) : Prop := MU m = (- MU (opp m))%Qc \/ Nat.odd ell = false /\ MU m = MU (opp m).
Lemma half_pole : forall P ell, (forall m, mode m -> is_stored n2 m = false -> P (opp m) = true -> mirrored ell m) ->
  forall part, part = fst \/ part = snd ->
  qsum (map (fun m => part (weighted root true a0 a1 a2 F los ell m)) (filter P half)) = qsum (map (fun m => part (times (nq (2 * ell + 1) * legendre ell (MU m)) (F m))) (filter (fun m => P (rp m)) full)).
Proof using All.
  intros P ell HM part Hpart. rewrite <- (fold_filter n0 n1 n2 u0 u1 u2 N2 U2 P (fun m => part (times (nq (2 * ell + 1) * legendre ell (MU m)) (F m)))). apply qsum_ext'. intros m Hin. apply filter_In in Hin. destruct Hin as [Hin HPm]. apply (in_half n0 n1 n2 u0 u1 u2 N2 U2) in Hin. destruct Hin as [Hm' Hs].
  unfold weighted. rewrite mu_mu. cbn [andb]. destruct (ns m) eqn:E; [|destruct Hpart as [-> | ->]; unfold times; cbn [fst snd]; ring].
  specialize (HM (opp m) (opp_mode n0 n1 n2 m Hm') (opp_unstored n0 n1 n2 u0 u1 u2 N2 U2 m Hm' Hs E)). rewrite (opp_opp n0 n1 n2 m Hm') in HM. specialize (HM HPm). unfold mirrored in HM. rewrite (opp_opp n0 n1 n2 m Hm') in HM. rewrite (HF m Hm').
  assert (EL : legendre ell (MU (opp m)) = if Nat.odd ell then (- legendre ell (MU m))%Qc else legendre ell (MU m)). { destruct HM as [EM|[Eo EM]]; rewrite EM; [apply legendre_neg|rewrite Eo; reflexivity]. }
  rewrite EL. destruct (Nat.odd ell); destruct Hpart as [-> | ->]; unfold times, conj; cbn [fst snd]; ring.
Qed.
Lemma halved : exists r pol, project root true a0 a1 a2 F los xedges muedges poles blocks = Ok (r, pol) /\
  (forall i im lo hi, nth_error xedges i = Some lo -> nth_error xedges (S i) = Some hi -> S im < length muedges ->
     exists L, listing (fun m => shell n0 n1 n2 u0 u1 u2 lo hi m /\ in_mubin muedges im (MU (rp m))) L /\
       at2 (r_n r) i im = Some (nq (length L)) /\ at2 (r_x r) i im = Some (mean (map (fun m => root (K2 m)) L)) /\
       at2 (r_mu r) i im = Some (mean (map (fun m => MU (rp m)) L)) /\ at2 (r_y r) i im = Some (cmean (map F L))) /\
  (poles = [] -> pol = None) /\
  (poles <> [] -> exists p, pol = Some p /\ forall i lo hi e0, nth_error xedges i = Some lo -> nth_error xedges (S i) = Some hi -> nth_error muedges 0 = Some e0 ->
     exists L, listing (fun m => shell n0 n1 n2 u0 u1 u2 lo hi m /\ (e0 <= MU (rp m))%Qc) L /\
       nth_error (p_n p) i = Some (nq (length L)) /\ nth_error (p_x p) i = Some (mean (map (fun m => root (K2 m)) L)) /\
       forall q ell, nth_error poles q = Some ell -> (forall m, shell n0 n1 n2 u0 u1 u2 lo hi m -> is_stored n2 m = false -> mirrored (Z.to_nat ell) m) ->
         at2 (p_y p) q i = Some (cmean (map (fun m => times (nq (2 * Z.to_nat ell + 1) * legendre (Z.to_nat ell) (MU m)) (F m)) L))).
Proof using All.
  destruct (project_bins root true a0 a1 a2 F los xedges muedges squares Hm Lm Lx blocks half poles HB HP) as [r [pol [E [H2 [H3 H4]]]]]. exists r, pol. split; [exact E|].
  assert (R : forall P, qsum (map (fun m => root (norm2 a0 a1 a2 m) * weight true a2 m)%Qc (filter P half)) = qsum (map (fun m => root (K2 m)) (filter (fun m => P (rp m)) full))).
  { intros P. rewrite <- half_even; [apply qsum_ext'; intros m _; rewrite norm2_k2; reflexivity|]. intros m Hm'. rewrite (k2_opp n0 n1 n2 u0 u1 u2 m Hm'). reflexivity. }
  assert (M : forall P, qsum (map (fun m => mu root a0 a1 a2 los m * weight true a2 m)%Qc (filter P half)) = qsum (map (fun m => MU (rp m)) (filter (fun m => P (rp m)) full))).
  { intros P. rewrite <- half_rep. apply qsum_ext'; intros m _; rewrite mu_mu; reflexivity. }
  split; [|split; [exact H3|]].
  - intros i im lo hi El Eh Him. assert (Li : i < Nx xedges) by (assert (S i < length xedges) by (apply nth_error_Some; congruence); unfold Nx; lia). assert (Lim : im < Nmu muedges) by (unfold Nmu; lia).
    specialize (H2 i im Li Lim). cbn zeta in H2. set (P := in_bin root a0 a1 a2 los xedges muedges (S i) (S im)) in *. exists (filter (fun m => P (rp m)) full). split.
    + split; [apply NoDup_filter, nodup_full|]. intros m. unfold P. rewrite filter_In, in_full, (bin_iff i im lo hi (rp m) El Eh Him). unfold shell. split; (intros [Hm' Hr]; rewrite ?(k2_rep n0 n1 n2 u0 u1 u2 m) in * by tauto; tauto).
    + rewrite half_wt, R, M, !ratio_mean in H2. destruct H2 as [A1 [A2 [A3 A4]]]. split; [exact A1|]. split; [exact A2|]. split; [exact A3|]. rewrite A4. f_equal.
      assert (HM0 : forall m, mode m -> is_stored n2 m = false -> P (opp m) = true -> True) by auto.
      assert (Z0 : forall part, part = fst \/ part = snd -> qsum (map (fun m => part (weighted root true a0 a1 a2 F los 0 m)) (filter P half)) = qsum (map (fun m => part (F m)) (filter (fun m => P (rp m)) full))).
      { intros part Hpart. rewrite <- (fold_filter n0 n1 n2 u0 u1 u2 N2 U2 P (fun m => part (F m))). apply qsum_ext'. intros m Hin. apply filter_In in Hin. destruct Hin as [Hin _]. apply (in_half n0 n1 n2 u0 u1 u2 N2 U2) in Hin. destruct Hin as [Hm' _]. rewrite (HF m Hm'). unfold weighted. cbn [andb]. rewrite legendre_0. change (nq (2 * 0 + 1)) with 1%Qc. destruct (ns m); cbn [Nat.odd Nat.even negb]; destruct Hpart as [-> | ->]; unfold conj; cbn [fst snd]; ring. }
      rewrite (Z0 fst) by auto. rewrite (Z0 snd) by auto. apply cratio_mean.
  - intros Hp. destruct (H4 Hp) as [p [Ep H5]]. exists p. split; [exact Ep|]. intros i lo hi e0 El Eh E0. assert (Li : i < Nx xedges) by (assert (S i < length xedges) by (apply nth_error_Some; congruence); unfold Nx; lia).
    specialize (H5 i Li). cbn zeta in H5. set (P := in_row root a0 a1 a2 los xedges muedges i) in *. exists (filter (fun m => P (rp m)) full). split.
    + split; [apply NoDup_filter, nodup_full|]. intros m. unfold P. rewrite filter_In, in_full, (row_iff i lo hi e0 (rp m) El Eh E0). unfold shell. split; (intros [Hm' Hr]; rewrite ?(k2_rep n0 n1 n2 u0 u1 u2 m) in * by tauto; tauto).
    + rewrite half_wt, R, ratio_mean in H5. destruct H5 as [A1 [A2 A3]]. split; [exact A1|]. split; [exact A2|]. intros q ell Hq HM. rewrite (A3 q ell Hq). f_equal. rewrite <- cratio_mean.
      assert (HM' : forall m, mode m -> is_stored n2 m = false -> P (opp m) = true -> mirrored (Z.to_nat ell) m). { intros m Hm' Hs HPm. apply HM; [|exact Hs]. apply (proj1 (row_iff i lo hi e0 (opp m) El Eh E0)) in HPm. rewrite (k2_opp n0 n1 n2 u0 u1 u2 m Hm') in HPm. unfold shell. tauto. }
      rewrite (half_pole P (Z.to_nat ell) HM' fst) by auto. rewrite (half_pole P (Z.to_nat ell) HM' snd) by auto. reflexivity.
Qed.
End Half.
End Box.

(* ---- |mu| <= 1 ---- *)
Section Cauchy.
Variables n0 n1 n2 : nat. Variables u0 u1 u2 : Qc. Variables (root : Qc -> Qc) (los : vec).
Hypothesis HR : sqrt_contract root.
Hypothesis HL : (v0 los * v0 los + v1 los * v1 los + v2 los * v2 los <= 1)%Qc.
Lemma abs_le : forall a b : Qc, (0 < b)%Qc -> (a * a <= b * b)%Qc -> (- b <= a)%Qc /\ (a <= b)%Qc.
Proof using.
  intros a b Hb H. split.
  - destruct (Qclt_le_dec a (- b)) as [L|L]; [|exact L]. exfalso. apply (Qclt_not_le _ _) in H; [exact H|]. assert (L' : (b < - a)%Qc) by qc_lra. apply Qclt_trans with (b * - a)%Qc; [rewrite (Qcmult_comm b (- a)); apply Qcmult_lt_compat_r; assumption|]. replace (a * a)%Qc with ((- a) * (- a))%Qc by ring. apply Qcmult_lt_compat_r; [eapply Qclt_trans; [exact Hb|exact L']|exact L'].
  - destruct (Qclt_le_dec b a) as [L|L]; [|exact L]. exfalso. apply (Qclt_not_le _ _) in H; [exact H|]. apply Qclt_trans with (b * a)%Qc; [rewrite (Qcmult_comm b a); apply Qcmult_lt_compat_r; assumption|]. apply Qcmult_lt_compat_r; [eapply Qclt_trans; [exact Hb|exact L]|exact L].
Qed.
Lemma mu_range : forall m, (- (1) <= mu_of n0 n1 n2 u0 u1 u2 root los m)%Qc /\ (mu_of n0 n1 n2 u0 u1 u2 root los m <= 1)%Qc.
Proof using All.
  intros m. unfold mu_of. destruct (Qc_eq_dec (root (k2 n0 n1 n2 u0 u1 u2 m)) 0) as [E|E]; [split; discriminate|].
  assert (C : (along n0 n1 n2 u0 u1 u2 los m * along n0 n1 n2 u0 u1 u2 los m <= k2 n0 n1 n2 u0 u1 u2 m)%Qc /\ (0 <= k2 n0 n1 n2 u0 u1 u2 m)%Qc).
  { destruct m as [[i j] l]. unfold along, k2. set (a := axis_coord u0 n0 i). set (b := axis_coord u1 n1 j). set (c := axis_coord u2 n2 l). destruct los as [x z w]. cbn [v0 v1 v2] in *.
    pose proof (sq_nonneg a). pose proof (sq_nonneg b). pose proof (sq_nonneg c). assert (K : (0 <= a * a + b * b + c * c)%Qc) by (clear -H H0 H1; qc_lra). split; [|exact K].
    pose proof (sq_nonneg (a * z - b * x)). pose proof (sq_nonneg (b * w - c * z)). pose proof (sq_nonneg (c * x - a * w)).
    assert (Id : ((a * x + b * z + c * w) * (a * x + b * z + c * w) + (a * z - b * x) * (a * z - b * x) + (b * w - c * z) * (b * w - c * z) + (c * x - a * w) * (c * x - a * w) = (x * x + z * z + w * w) * (a * a + b * b + c * c))%Qc) by ring.
    assert (B : ((x * x + z * z + w * w) * (a * a + b * b + c * c) <= 1 * (a * a + b * b + c * c))%Qc) by (apply Qcmult_le_compat_r; assumption). rewrite <- Id in B. rewrite Qcmult_1_l in B.
    eapply Qcle_trans; [|exact B]. clear -H2 H3 H4. revert H2 H3 H4. generalize ((a * x + b * z + c * w) * (a * x + b * z + c * w))%Qc ((a * z - b * x) * (a * z - b * x))%Qc ((b * w - c * z) * (b * w - c * z))%Qc ((c * x - a * w) * (c * x - a * w))%Qc. intros q1 q2 q3 q4 A1 A2 A3. qc_lra. }
  destruct C as [C K]. set (k := k2 n0 n1 n2 u0 u1 u2 m) in *. set (a := along n0 n1 n2 u0 u1 u2 los m) in *. destruct (Qclt_le_dec 0 k) as [Lk|Lk].
  - destruct (HR k Lk) as [R1 R2]. destruct (abs_le a (root k) R1 (Qcle_trans _ _ _ C R2)) as [B1 B2]. assert (I : (0 <= / root k)%Qc) by (apply Qclt_le_weak, qinv_pos, R1). unfold Qcdiv. split.
    + replace (- (1))%Qc with ((- root k) * / root k)%Qc by (field; exact E). apply Qcmult_le_compat_r; assumption.
    + replace 1%Qc with (root k * / root k)%Qc by (field; exact E). apply Qcmult_le_compat_r; assumption.
  - assert (A0 : a = 0%Qc). { apply (sq_zero a 0 0). replace (a * a + 0 * 0 + 0 * 0)%Qc with (a * a)%Qc by ring. apply Qcle_antisym; [eapply Qcle_trans; [exact C|exact Lk]|apply sq_nonneg]. } rewrite A0. unfold Qcdiv. rewrite Qcmult_0_l. split; discriminate.
Qed.
End Cauchy.
