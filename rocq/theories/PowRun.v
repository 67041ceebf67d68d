From Verif Require Import Base BaseProofs Num RanksSpec FiberModel FiberProofs FiberMore BinArr BinProofs PairSpec SurveyMore CgmLocal CgmGlobal CgmGeom CgmRun PowModel PowSpec PowProofs PowMain PowFinal.
From Coq Require Import Sorted Permutation.
Local Open Scope nat_scope.

(* ---- linspace ---- *)
Lemma sorted_map_seq : forall (f : nat -> Qc) n s, (forall i j, s <= i -> i < j -> j < s + n -> (f i < f j)%Qc) -> StronglySorted Qclt (map f (seq s n)).
Proof.
  intros f. induction n as [|n IH]; intros s H; cbn [seq map]; constructor.
  - apply IH. intros i j A B C. apply H; lia.
  - apply Forall_forall. intros b Hb. apply in_map_iff in Hb. destruct Hb as [j [<- Hj]]. apply in_seq in Hj. apply H; lia.
Qed.
Lemma nq_lt : forall i j, i < j -> (nq i < nq j)%Qc. Proof. intros i j H. unfold nq. apply (proj1 (zq_lt _ _)). lia. Qed.
Lemma linspace_inc : forall a b n, (a < b)%Qc -> 0 < n -> increasing (linspace a b n).
Proof.
  intros a b n H Hn. apply sorted_map_seq. intros i j _ Hij _. assert (P : (0 < nq n)%Qc) by (apply (nq_lt 0 n Hn)). assert (I := qinv_pos _ P). assert (D : (0 < b - a)%Qc) by qc_lra.
  assert (G : ((b - a) * nq i / nq n < (b - a) * nq j / nq n)%Qc). { unfold Qcdiv. apply Qcmult_lt_compat_r; [exact I|]. rewrite !(Qcmult_comm (b - a)). apply Qcmult_lt_compat_r; [exact D|apply nq_lt, Hij]. }
  revert G. generalize ((b - a) * nq i / nq n)%Qc ((b - a) * nq j / nq n)%Qc. intros x z G. qc_lra.
Qed.
Lemma linspace_len : forall a b n, length (linspace a b n) = S n. Proof. intros. unfold linspace. rewrite map_length, seq_length. reflexivity. Qed.
Lemma linspace_0 : forall a b n, nth_error (linspace a b n) 0 = Some a.
Proof. intros a b n. unfold linspace. cbn [seq map nth_error]. f_equal. change (nq 0) with 0%Qc. unfold Qcdiv. ring. Qed.
Lemma one_bin : forall a b x, in_mubin (linspace a b 1) 0 x <-> (a <= x)%Qc.
Proof.
  intros a b x. unfold in_mubin. rewrite linspace_0. split.
  - intros [a' [b' [E [_ [L _]]]]]. injection E as <-. exact L.
  - intros L. exists a. exists (a + (b - a) * nq 1 / nq 1)%Qc. split; [reflexivity|]. split; [reflexivity|]. split; [exact L|]. right. rewrite linspace_len. reflexivity.
Qed.

(* ---- the power of Hermitian fields ---- *)
Lemma spectrum_power : forall v f g m, power3d v f g m = spectrum v f g m.
Proof.
  intros v f g [[i j] l]. unfold power3d, spectrum. destruct i, j, l; cbn [Nat.eqb andb]; unfold scale, times; cbn [fst snd]; f_equal; ring.
Qed.
Lemma neg_zero : forall n i, i < n -> neg n i = 0 <-> i = 0.
Proof. intros n i H. unfold neg. destruct (i =? 0) eqn:E; [apply Nat.eqb_eq in E; tauto|apply Nat.eqb_neq in E; lia]. Qed.
Lemma spectrum_hermitian : forall n0 n1 n2 v f g, hermitian n0 n1 n2 f -> hermitian n0 n1 n2 g -> hermitian n0 n1 n2 (spectrum v f g).
Proof.
  intros n0 n1 n2 v f g Hf Hg m Hm. rewrite <- !spectrum_power. destruct m as [[i j] l]. pose proof (Hf _ Hm) as Ef. pose proof (Hg _ Hm) as Eg. destruct Hm as [A [B C]]. cbn [opposite] in *. unfold power3d.
  assert (E : (neg n0 i =? 0) && (neg n1 j =? 0) && (neg n2 l =? 0) = (i =? 0) && (j =? 0) && (l =? 0)). { apply Bool.eq_iff_eq_true. rewrite !andb_true_iff, !Nat.eqb_eq, !neg_zero by assumption. reflexivity. }
  rewrite E, Ef, Eg. destruct ((i =? 0) && (j =? 0) && (l =? 0)); unfold scale, conj, cmul; cbn [fst snd]; f_equal; ring.
Qed.
Lemma project_ext : forall root c c0 c1 c2 y y' los x mu poles blocks, (forall m, y m = y' m) -> project root c c0 c1 c2 y los x mu poles blocks = project root c c0 c1 c2 y' los x mu poles blocks.
Proof.
  intros root c c0 c1 c2 y y' los x mu poles blocks H. unfold project. destruct (existsb _ poles); [reflexivity|]. f_equal.
  - apply f_equal. apply map_ext. intros b. unfold local_sums. generalize (map (slab b) (b0 b)). intros sl. set (ells := if existsb (Nat.eqb 0) (map Z.to_nat poles) then _ else _). generalize (sums0 x mu ells). induction sl as [|s sl IH]; intros s0; [reflexivity|]. cbn [add_slabs].
    assert (E : add_slab root c c0 c1 c2 y los x mu ells s0 s = add_slab root c c0 c1 c2 y' los x mu ells s0 s).
    { unfold add_slab. destruct s as [|m s]; [reflexivity|]. destruct (rall _); [|reflexivity]. cbn [rbind]. do 2 f_equal. apply map_ext. intros [ell [re im]].
      assert (W : forall part, (part = fst \/ part = snd) -> map (fun m => part (weighted root c c0 c1 c2 y los ell m)) (m :: s) = map (fun m => part (weighted root c c0 c1 c2 y' los ell m)) (m :: s)) by (intros part _; apply map_ext; intros z; unfold weighted; rewrite H; reflexivity).
      rewrite (W fst) by auto. rewrite (W snd) by auto. reflexivity. }
    rewrite E. destruct (add_slab root c c0 c1 c2 y' los x mu ells s0 s); [|reflexivity]. cbn [rbind]. apply IH.
Qed.

Section Mirror.
Variables n0 n1 n2 : nat. Variables u0 u1 u2 : Qc. Variables (root : Qc -> Qc) (los : vec).
Notation MU := (mu_of n0 n1 n2 u0 u1 u2 root los). Notation opp := (opposite n0 n1 n2). Notation mode := (is_mode n0 n1 n2).
Lemma term_neg : forall u n i v, i < n -> v = 0%Qc \/ 2 * i <> n -> (axis_coord u n (neg n i) * v = - (axis_coord u n i * v))%Qc.
Proof using. intros u n i v H [->|Hn]; [ring|]. destruct (freq_neg n i H) as [E|[E _]]; [|congruence]. unfold axis_coord. rewrite E, zq_opp. ring. Qed.
Lemma term_neg' : forall u n i v, i < n -> (axis_coord u n (neg n i) * v = - (axis_coord u n i * v))%Qc \/ (axis_coord u n (neg n i) * v = axis_coord u n i * v)%Qc.
Proof using. intros u n i v H. destruct (freq_neg n i H) as [E|[_ E]]; [left; unfold axis_coord; rewrite E, zq_opp; ring|right; rewrite E; reflexivity]. Qed.
Lemma mirrored_ok : forall ell m, mode m -> clear_of_nyquist n0 n1 n2 los m \/ Nat.odd ell = false /\ along_axis los -> mirrored n0 n1 n2 u0 u1 u2 root los ell m.
Proof using.
  intros ell m Hm H. unfold mirrored. unfold mu_of. rewrite (k2_opp n0 n1 n2 u0 u1 u2 m Hm). destruct (Qc_eq_dec (root (k2 n0 n1 n2 u0 u1 u2 m)) 0); [left; ring|].
  destruct m as [[i j] l]. destruct Hm as [A [B C]]. unfold along, opposite.
  assert (G : (axis_coord u0 n0 (neg n0 i) * v0 los + axis_coord u1 n1 (neg n1 j) * v1 los + axis_coord u2 n2 (neg n2 l) * v2 los = - (axis_coord u0 n0 i * v0 los + axis_coord u1 n1 j * v1 los + axis_coord u2 n2 l * v2 los))%Qc \/
    Nat.odd ell = false /\ (axis_coord u0 n0 (neg n0 i) * v0 los + axis_coord u1 n1 (neg n1 j) * v1 los + axis_coord u2 n2 (neg n2 l) * v2 los = axis_coord u0 n0 i * v0 los + axis_coord u1 n1 j * v1 los + axis_coord u2 n2 l * v2 los)%Qc).
  { destruct H as [[H0 [H1 H2]]|[Ho H]].
    - left. rewrite !term_neg by assumption. ring.
    - destruct H as [[E1 E2]|[[E1 E2]|[E1 E2]]]; rewrite E1, E2.
      + destruct (term_neg' u0 n0 i (v0 los) A) as [E|E]; rewrite E; [left|right; split; [exact Ho|]]; ring.
      + destruct (term_neg' u1 n1 j (v1 los) B) as [E|E]; rewrite E; [left|right; split; [exact Ho|]]; ring.
      + destruct (term_neg' u2 n2 l (v2 los) C) as [E|E]; rewrite E; [left|right; split; [exact Ho|]]; ring. }
  destruct G as [G|[Go G]]; rewrite G; [left; unfold Qcdiv; ring|right; split; [exact Go|reflexivity]].
Qed.
End Mirror.

(* ---- FFTPower ---- *)
Section Power.
Variables n0 n1 n2 : nat. Variables u0 u1 u2 : Qc. Variables (root : Qc -> Qc) (los : vec).
Variables (kedges : list Qc) (nmu : nat) (volume : Qc) (f g : cell3 -> cplx) (poles : list Z) (blocks : list block).
Hypothesis N2 : 0 < n2. Hypothesis U2 : (0 < u2)%Qc.
Hypothesis HR : sqrt_contract root. Hypothesis HL : (length2 los <= 1)%Qc.
Hypothesis Hf : hermitian n0 n1 n2 f. Hypothesis Hg : hermitian n0 n1 n2 g.
Hypothesis Hk : increasing kedges. Hypothesis Pk : forall e, In e kedges -> (0 <= e)%Qc. Hypothesis Lk : 1 <= length kedges.
Hypothesis Hmu : 0 < nmu.
Hypothesis HB : blocks_hold n0 n1 blocks (n2 / 2 + 1). Hypothesis HP : forall e, In e poles -> (0 <= e)%Z.
Notation K2 := (k2 n0 n1 n2 u0 u1 u2). Notation MU := (mu_of n0 n1 n2 u0 u1 u2 root los). Notation rp := (rep n0 n1 n2).
Notation run := (fftpower root (axis_coord u0 n0) (axis_coord u1 n1) (axis_coord u2 n2) volume f g los kedges nmu poles blocks).
Lemma run_halved : exists r pol, run = Ok (r, pol) /\
  (forall i im lo hi, nth_error kedges i = Some lo -> nth_error kedges (S i) = Some hi -> im < nmu ->
     exists L, listing (fun m => shell n0 n1 n2 u0 u1 u2 lo hi m /\ in_mubin (linspace (-(1)) 1 nmu) im (MU (rp m))) L /\
       at2 (r_n r) i im = Some (nq (length L)) /\ at2 (r_x r) i im = Some (mean (map (fun m => root (K2 m)) L)) /\
       at2 (r_mu r) i im = Some (mean (map (fun m => MU (rp m)) L)) /\ at2 (r_y r) i im = Some (cmean (map (spectrum volume f g) L))) /\
  (poles = [] -> pol = None) /\
  (poles <> [] -> exists p, pol = Some p /\ forall i lo hi, nth_error kedges i = Some lo -> nth_error kedges (S i) = Some hi ->
     exists L, listing (shell n0 n1 n2 u0 u1 u2 lo hi) L /\
       nth_error (p_n p) i = Some (nq (length L)) /\ nth_error (p_x p) i = Some (mean (map (fun m => root (K2 m)) L)) /\
       forall q ell, nth_error poles q = Some ell -> (forall m, shell n0 n1 n2 u0 u1 u2 lo hi m -> clear_of_nyquist n0 n1 n2 los m \/ Z.odd ell = false /\ along_axis los) ->
         at2 (p_y p) q i = Some (cmean (map (fun m => times (nq (2 * Z.to_nat ell + 1) * legendre (Z.to_nat ell) (MU m)) (spectrum volume f g m)) L))).
Proof using All.
  assert (H11 : (- (1) < 1)%Qc) by reflexivity.
  destruct (halved n0 n1 n2 u0 u1 u2 root los kedges (linspace (-(1)) 1 nmu) N2 U2 Hk Pk (linspace_inc _ _ _ H11 Hmu) ltac:(rewrite linspace_len; lia) Lk (spectrum volume f g) (spectrum_hermitian n0 n1 n2 volume f g Hf Hg) blocks poles HB HP) as [r [pol [E [A1 [A2 A3]]]]].
  exists r, pol. split; [unfold fftpower; rewrite (project_ext _ _ _ _ _ _ (spectrum volume f g)) by (intros; apply spectrum_power); exact E|]. split; [|split; [exact A2|]].
  - intros i im lo hi El Eh Him. apply (A1 i im lo hi El Eh). rewrite linspace_len. lia.
  - intros Hp. destruct (A3 Hp) as [p [Ep B]]. exists p. split; [exact Ep|]. intros i lo hi El Eh. destruct (B i lo hi (-(1))%Qc El Eh (linspace_0 _ _ _)) as [L [[L1 L2] [C1 [C2 C3]]]]. exists L. split; [|split; [exact C1|split; [exact C2|]]].
    + split; [exact L1|]. intros m. rewrite L2. pose proof (proj1 (mu_range n0 n1 n2 u0 u1 u2 root los HR HL (rp m))). tauto.
    + intros q ell Hq Hc. apply (C3 q ell Hq). intros m Hs _. apply mirrored_ok; [apply Hs|]. destruct (Hc m Hs) as [G|[G1 G2]]; [left; exact G|right; split; [|exact G2]]. assert (P0 : (0 <= ell)%Z) by (apply HP; eapply nth_error_In; exact Hq).
      rewrite <- (Z2Nat.id ell P0) in G1. destruct (Nat.odd (Z.to_nat ell)) eqn:Eo; [|reflexivity]. apply Nat.odd_spec in Eo. destruct Eo as [k Ek]. rewrite Ek in G1. replace (Z.of_nat (2 * k + 1)) with (2 * Z.of_nat k + 1)%Z in G1 by lia. rewrite Z.odd_add_mul_2 in G1 || (assert (Ho : Z.Odd (2 * Z.of_nat k + 1)) by (exists (Z.of_nat k); lia); apply Z.odd_spec in Ho; congruence).
Qed.
Lemma run_1d : nmu = 1 -> exists r pol, run = Ok (r, pol) /\
  (forall i lo hi, nth_error kedges i = Some lo -> nth_error kedges (S i) = Some hi ->
     exists L, listing (shell n0 n1 n2 u0 u1 u2 lo hi) L /\
       at2 (r_n r) i 0 = Some (nq (length L)) /\ at2 (r_x r) i 0 = Some (mean (map (fun m => root (K2 m)) L)) /\ at2 (r_y r) i 0 = Some (cmean (map (spectrum volume f g) L))).
Proof using All.
  intros E1. destruct run_halved as [r [pol [E [A1 _]]]]. exists r, pol. split; [exact E|]. intros i lo hi El Eh. destruct (A1 i 0 lo hi El Eh Hmu) as [L [[L1 L2] [B1 [B2 [_ B4]]]]]. exists L. split; [|auto]. split; [exact L1|]. intros m. rewrite L2. rewrite E1, one_bin. pose proof (proj1 (mu_range n0 n1 n2 u0 u1 u2 root los HR HL (rp m))). tauto.
Qed.
End Power.

(* ---- FFTCorr ---- *)
Section Corr.
Variables n0 n1 n2 : nat. Variables u0 u1 u2 : Qc. Variables (root : Qc -> Qc) (los : vec).
Variables (redges : list Qc) (nmu : nat) (xi : cell3 -> Qc) (poles : list Z) (blocks : list block).
Hypothesis N2 : 0 < n2. Hypothesis U2 : (0 < u2)%Qc.
Hypothesis Hk : increasing redges. Hypothesis Pk : forall e, In e redges -> (0 <= e)%Qc. Hypothesis Lk : 1 <= length redges.
Hypothesis Hmu : 0 < nmu.
Hypothesis HB : blocks_hold n0 n1 blocks n2. Hypothesis HP : forall e, In e poles -> (0 <= e)%Z.
Notation K2 := (k2 n0 n1 n2 u0 u1 u2). Notation MU := (mu_of n0 n1 n2 u0 u1 u2 root los).
Notation run := (fftcorr root (axis_coord u0 n0) (axis_coord u1 n1) (axis_coord u2 n2) xi los redges nmu poles blocks).
Lemma corr_run : exists r pol, run = Ok (r, pol) /\
  (forall i im lo hi, nth_error redges i = Some lo -> nth_error redges (S i) = Some hi -> im < nmu ->
     exists L, listing (fun m => shell n0 n1 n2 u0 u1 u2 lo hi m /\ in_mubin (linspace 0 1 nmu) im (MU m)) L /\
       at2 (r_n r) i im = Some (nq (length L)) /\ at2 (r_x r) i im = Some (mean (map (fun m => root (K2 m)) L)) /\
       at2 (r_mu r) i im = Some (mean (map MU L)) /\ at2 (r_y r) i im = Some (cmean (map (fun m => (xi m, 0%Qc)) L))) /\
  (poles = [] -> pol = None) /\
  (poles <> [] -> exists p, pol = Some p /\ forall i lo hi, nth_error redges i = Some lo -> nth_error redges (S i) = Some hi ->
     exists L, listing (fun m => shell n0 n1 n2 u0 u1 u2 lo hi m /\ (0 <= MU m)%Qc) L /\
       nth_error (p_n p) i = Some (nq (length L)) /\ nth_error (p_x p) i = Some (mean (map (fun m => root (K2 m)) L)) /\
       forall q ell, nth_error poles q = Some ell ->
         at2 (p_y p) q i = Some (cmean (map (fun m => times (nq (2 * Z.to_nat ell + 1) * legendre (Z.to_nat ell) (MU m)) (xi m, 0%Qc)) L))).
Proof using All.
  assert (H11 : (0 < 1)%Qc) by reflexivity.
  destruct (plain n0 n1 n2 u0 u1 u2 root los redges (linspace 0 1 nmu) N2 U2 Hk Pk (linspace_inc _ _ _ H11 Hmu) ltac:(rewrite linspace_len; lia) Lk (fun m => (xi m, 0%Qc)) blocks poles HB HP) as [r [pol [E [A1 [A2 A3]]]]].
  exists r, pol. split; [exact E|]. split; [|split; [exact A2|]].
  - intros i im lo hi El Eh Him. apply (A1 i im lo hi El Eh). rewrite linspace_len. lia.
  - intros Hp. destruct (A3 Hp) as [p [Ep B]]. exists p. split; [exact Ep|]. intros i lo hi El Eh. apply (B i lo hi 0%Qc El Eh (linspace_0 _ _ _)).
Qed.
End Corr.

(* ---- any distribution over the ranks ---- *)
Lemma list_nth_ext : forall (l l' : list Qc) n, length l = n -> length l' = n -> (forall b, b < n -> nth b l 0%Qc = nth b l' 0%Qc) -> l = l'.
Proof. intros l l' n H1 H2 H. apply (nth_ext l l' 0%Qc 0%Qc); [congruence|]. intros b Hb. apply H. lia. Qed.
Lemma blocks_same : forall root compressed c0 c1 c2 y los xedges muedges poles blocks blocks',
  increasing (map (fun e => (e * e)%Qc) xedges) -> increasing muedges -> 1 <= length muedges -> 1 <= length xedges ->
  Permutation (concat (map (fun b => cells3 (b0 b) (b1 b) (b2 b)) blocks)) (concat (map (fun b => cells3 (b0 b) (b1 b) (b2 b)) blocks')) ->
  project root compressed c0 c1 c2 y los xedges muedges poles blocks = project root compressed c0 c1 c2 y los xedges muedges poles blocks'.
Proof.
  intros root compressed c0 c1 c2 y los xedges muedges poles blocks blocks' Hx Hm Lm Lx HB. unfold project. destruct (existsb _ poles); [reflexivity|]. set (ells := if existsb (Nat.eqb 0) (map Z.to_nat poles) then _ else _).
  destruct (all_sums root compressed c0 c1 c2 y los xedges muedges Hx Hm Lm Lx ells blocks _ HB) as [p1 [E1 S1]]. destruct (all_sums root compressed c0 c1 c2 y los xedges muedges Hx Hm Lm Lx ells blocks' _ (Permutation_refl _)) as [p2 [E2 S2]].
  rewrite E1, E2. cbn [rbind].
  assert (E : total_sums xedges muedges ells p1 = total_sums xedges muedges ells p2); [|rewrite E; reflexivity].
  destruct S1 as [A1 A2 A3 A4 A5]. destruct S2 as [B1 B2 B3 B4 B5].
  assert (U : forall t t' f cells, holds root c0 c1 c2 los xedges muedges t f cells -> holds root c0 c1 c2 los xedges muedges t' f cells -> t = t') by (intros t t' f cells [G1 G2] [G3 G4]; apply (list_nth_ext _ _ _ G1 G3); intros b Hb; rewrite (G2 b Hb), (G4 b Hb); reflexivity).
  destruct (total_sums xedges muedges ells p1) as [x1 m1 k1 y1]. destruct (total_sums xedges muedges ells p2) as [x2 m2 k2' y2]. cbn [s_x s_mu s_n s_y] in *.
  rewrite (U _ _ _ _ A1 B1), (U _ _ _ _ A2 B2), (U _ _ _ _ A3 B3). f_equal. apply nth_error_ext. intros e. destruct (nth_error y1 e) as [[r1 i1]|] eqn:G1.
  - assert (L : e < length y1) by (apply nth_error_Some; congruence). destruct (nth_error y2 e) as [[r2 i2]|] eqn:G2; [|apply nth_error_None in G2; lia]. destruct (nth_error ells e) as [ell|] eqn:G3; [|apply nth_error_None in G3; lia].
    destruct (A5 e ell r1 i1 G3 G1) as [C1 C2]. destruct (B5 e ell r2 i2 G3 G2) as [D1 D2]. rewrite (U _ _ _ _ C1 D1), (U _ _ _ _ C2 D2). reflexivity.
  - apply nth_error_None in G1. symmetry. apply nth_error_None. lia.
Qed.

(* ---- ProjectedFFTPower ---- *)
Section Proj.
Variables (root : Qc -> Qc) (n0 n1 : nat) (u0 u1 : Qc) (pk : nat * nat -> cplx) (area : Qc) (kedges : list Qc).
Hypothesis N1 : 0 < n1. Hypothesis HW : n1 = 1 \/ Nat.even n1 = true.
Hypothesis HF : hermitian2 n0 n1 pk.
Hypothesis Hk : increasing kedges.
Notation km := (kmag2 root n0 n1 u0 u1).
Lemma kmag_km : forall m, kmag root n0 n1 u0 u1 m = km m. Proof using. reflexivity. Qed.
Notation c3 := (fun m : nat * nat => (0, fst m, snd m)).
Notation rp2 := (fun m : nat * nat => if snd m <=? n1 / 2 then m else (neg n0 (fst m), neg n1 (snd m))).
Notation full := (list_prod (seq 0 n0) (seq 0 n1)).
Lemma W_fold : forall (P : nat * nat -> bool) (h : nat * nat -> Qc),
  qsum (map (fun m => (h m + (if (0 <? freq n1 (snd m))%Z then h (neg n0 (fst m), neg n1 (snd m)) else 0))%Qc) (filter P (pcells n0 n1))) = qsum (map h (filter (fun m => P (rp2 m)) full)).
Proof using All.
  intros P h. pose proof (fold_filter 1 n0 n1 0 0 1 N1 ltac:(reflexivity) (fun m => let '(_, i, j) := m in P (i, j)) (fun m => let '(_, i, j) := m in h (i, j))) as G.
  unfold cells3 in G. change (list_prod (seq 0 1) (seq 0 n0)) with (map (fun i => (0, i)) (seq 0 n0) ++ []) in G. rewrite app_nil_r in G.
  assert (LP : forall B : list nat, list_prod (map (fun i => (0, i)) (seq 0 n0)) B = map c3 (list_prod (seq 0 n0) B)). { clear. intros B. generalize (seq 0 n0). intros l. induction l as [|i l IH]; [reflexivity|]. cbn [map list_prod]. rewrite map_app, map_map, IH. reflexivity. }
  rewrite !LP, !filter_map, !map_map in G. unfold pcells, width. unfold pcells, width in *.
  etransitivity; [|etransitivity; [exact G|]].
  - rewrite (filter_ext_in' _ P (fun x => P (fst x, snd x))) by (intros [i j] _; reflexivity). apply qsum_ext'. intros [i j] _. cbn [fst snd opposite]. rewrite (ns_freq 1 n0 n1 0 0 1 N1 ltac:(reflexivity)). reflexivity.
  - rewrite (filter_ext_in' _ _ (fun m => P (rp2 m))) by (intros [i j] _; unfold rep; cbn [fst snd is_stored opposite]; destruct (j <=? n1 / 2); reflexivity). apply qsum_ext'. intros [i j] _. reflexivity.
Qed.
Lemma W_weight : forall m, In m (pcells n0 n1) -> W n1 m = (1 + (if (0 <? freq n1 (snd m))%Z then 1 else 0))%Qc.
Proof using All.
  intros [i j] H. unfold pcells in H. apply in_prod_iff in H. destruct H as [_ H]. apply in_seq in H. unfold W, width, freq in *. cbn [snd]. 
  assert (HE : n1 = 1 \/ n1 = 2 * (n1 / 2)). { destruct HW as [E|E]; [left; exact E|right]. apply Nat.even_spec in E. destruct E as [k E]. lia. }
  destruct (j =? 0) eqn:E0; [apply Nat.eqb_eq in E0; subst j; cbn [orb]; destruct (2 * 0 <? n1) eqn:E; [apply Nat.ltb_lt in E|apply Nat.ltb_ge in E; lia]; cbn; ring|]. apply Nat.eqb_neq in E0. cbn [orb].
  destruct (j =? n1 / 2 + 1 - 1) eqn:E1; [apply Nat.eqb_eq in E1|apply Nat.eqb_neq in E1].
  - destruct (2 * j <? n1) eqn:E; [apply Nat.ltb_lt in E; lia|apply Nat.ltb_ge in E]. destruct (0 <? Z.of_nat j - Z.of_nat n1)%Z eqn:E2; [apply Z.ltb_lt in E2; lia|]. ring.
  - destruct (2 * j <? n1) eqn:E; [apply Nat.ltb_lt in E|apply Nat.ltb_ge in E; lia]. destruct (0 <? Z.of_nat j)%Z eqn:E2; [|apply Z.ltb_ge in E2; lia]. reflexivity.
Qed.
Lemma W_sum : forall (P : nat * nat -> bool) (h : nat * nat -> Qc), (forall m, is_mode2 n0 n1 m -> h (neg n0 (fst m), neg n1 (snd m)) = h m) ->
  qsum (map (fun m => (W n1 m * h m)%Qc) (filter P (pcells n0 n1))) = qsum (map h (filter (fun m => P (rp2 m)) full)).
Proof using All.
  intros P h Hh. rewrite <- W_fold. apply qsum_ext'. intros m Hm. apply filter_In in Hm. destruct Hm as [Hm _]. rewrite (W_weight m Hm). rewrite (Hh m); [destruct (0 <? freq n1 (snd m))%Z; ring|]. destruct m as [i j]. unfold pcells, width in Hm. apply in_prod_iff in Hm. rewrite !in_seq in Hm. unfold is_mode2. cbn [fst snd]. pose proof (Nat.div_lt n1 2). destruct Hm as [Hi Hj]. split; [lia|]. assert (n1 = 1 \/ 1 < n1) as [E|E] by lia; [subst n1; cbn in Hj; lia|]. assert (n1 / 2 < n1) by (apply Nat.div_lt; lia). lia.
Qed.
Lemma km_neg : forall m, is_mode2 n0 n1 m -> km (neg n0 (fst m), neg n1 (snd m)) = km m.
Proof using. intros [i j] [A B]. unfold kmag2. cbn [fst snd] in *. rewrite !coord_neg_sq by assumption. reflexivity. Qed.
Lemma re_neg : forall m, is_mode2 n0 n1 m -> fst (pk (neg n0 (fst m), neg n1 (snd m))) = fst (pk m).
Proof using HF. intros m H. rewrite (HF m H). reflexivity. Qed.
Lemma projected_ok : exists r, projected root n0 n1 u0 u1 pk area kedges = Ok r /\
  length (q_modes r) = length kedges - 1 /\
  forall i lo hi, nth_error kedges i = Some lo -> nth_error kedges (S i) = Some hi ->
    exists L, NoDup L /\ (forall m, In m L <-> is_mode2 n0 n1 m /\ (lo <= km m)%Qc /\ (km m < hi)%Qc) /\
      nth_error (q_modes r) i = Some (nq (length L)) /\ nth_error (q_k r) i = Some (mean (map km L)) /\
      exists im, nth_error (q_power r) i = Some (match mean (map (fun m => fst (pk m)) L) with None => None | Some a => Some (a * area, im)%Qc end).
Proof using All.
  unfold projected. rewrite (map_ext _ (fun m => Ok (dig kedges (km m)))) by (intros m; apply digitize_inc, Hk). rewrite rall_oks. cbn [rbind]. eexists. split; [reflexivity|]. cbn [q_modes q_k q_power]. split; [rewrite map_length, seq_length; reflexivity|].
  intros i lo hi El Eh. assert (Li : S i < length kedges) by (apply nth_error_Some; congruence).
  assert (In' : forall (A : Type) (f : nat -> A), nth_error (map (fun i => f (S i)) (seq 0 (length kedges - 1))) i = Some (f (S i))). { intros A f. rewrite nth_error_map', nth_error_seq. assert (E : (i <? length kedges - 1) = true) by (apply Nat.ltb_lt; lia). rewrite E. reflexivity. }
  rewrite (In' _ (fun i => nth i _ 0%Qc)). rewrite (In' _ (fun i => ratio _ _)). rewrite (In' _ (fun i => option_map _ _)).
  rewrite !bincount_nth by lia. rewrite !combine_map_l, !filter_map, !map_map. cbn [fst snd].
  set (P := fun m => dig kedges (km m) =? S i). set (L := filter (fun m => P (rp2 m)) full). exists L.
  assert (M : forall m, In m full <-> is_mode2 n0 n1 m) by (intros [a b]; rewrite in_prod_iff, !in_seq; unfold is_mode2; cbn [fst snd]; lia).
  assert (KR : forall m, is_mode2 n0 n1 m -> km (rp2 m) = km m) by (intros m Hm; destruct (snd m <=? n1 / 2); [reflexivity|apply km_neg, Hm]).
  assert (W1 : qsum (map (W n1) (filter P (pcells n0 n1))) = nq (length L)). { rewrite <- qsum_ones. unfold L. rewrite <- (W_sum P (fun _ => 1%Qc)) by reflexivity. apply qsum_ext'. intros m _. ring. }
  split; [apply NoDup_filter, nodup_prod; apply seq_NoDup|]. split; [|split; [|split]].
  - intros m. unfold L. rewrite filter_In, M. unfold P. split.
    + intros [Hm E]. rewrite (KR m Hm), Nat.eqb_eq, (dig_iff _ _ _ Hk) in E. destruct E as [a [Ea [La Hb]]]. rewrite El in Ea. injection Ea as <-. auto.
    + intros [Hm [A B]]. split; [exact Hm|]. rewrite (KR m Hm), Nat.eqb_eq, (dig_iff _ _ _ Hk). exists lo. split; [exact El|]. split; [exact A|]. intros b E. rewrite Eh in E. injection E as <-. exact B.
  - f_equal. exact W1.
  - change (Some (ratio (qsum (map (fun m => (W n1 m * km m)%Qc) (filter P (pcells n0 n1)))) (qsum (map (W n1) (filter P (pcells n0 n1))))) = Some (mean (map km L))). rewrite W1. rewrite (W_sum P km km_neg). fold L. rewrite ratio_mean. reflexivity.
  - change (exists im, Some (option_map (scale area) (cratio (qsum (map (fun m => (W n1 m * fst (pk m))%Qc) (filter P (pcells n0 n1))), qsum (map (fun m => (W n1 m * snd (pk m))%Qc) (filter P (pcells n0 n1)))) (qsum (map (W n1) (filter P (pcells n0 n1)))))) = Some (match mean (map (fun m => fst (pk m)) L) with None => None | Some a => Some (a * area, im)%Qc end)).
    rewrite W1. rewrite (W_sum P (fun m => fst (pk m)) re_neg). fold L. rewrite <- ratio_mean. unfold ratio, cratio. destruct (Qc_eq_dec (nq (length L)) 0); cbn [option_map]; [exists 0%Qc; reflexivity|]. unfold scale. cbn [fst snd]. eexists. reflexivity.
Qed.
End Proj.
