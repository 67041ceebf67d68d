From Verif Require Import Base BaseProofs Num.
From Coq Require Import Reals Lra Qreals.
From Verif Require Import RandModel RandProofs ThreeModel ThreeProofs SkyModel ConvModel MockModel MockSpec MockProofs MockMean DftModel DftSpec DftProofs DftMain LegProps ShnModel ShnSpec.
From Verif Require PaintModel PaintSpec PaintProofs.
Local Open Scope R_scope.
Local Notation length := List.length.

Lemma real_0 : real_of 0%Qc = 0.
Proof. exact (real_zq 0). Qed.
Lemma real_1 : real_of 1%Qc = 1.
Proof. exact (real_zq 1). Qed.
Lemma real_nz q : q <> 0%Qc -> real_of q <> 0.
Proof.
  intros H E. apply H. apply Qc_is_canon. apply eqR_Qeq. unfold real_of in E. rewrite E. unfold Q2R. cbn. lra.
Qed.
Lemma real_quot a b : b <> 0%Qc -> real_of (a / b)%Qc = real_of a / real_of b.
Proof.
  intros H. assert (real_of b <> 0) by (apply real_nz; exact H). apply (Rmult_eq_reg_r (real_of b)); [|assumption].
  rewrite <- real_mult, Qcmult_comm, Qcmult_div_r by exact H. field. assumption.
Qed.
Lemma real_qsum {A} (f : A -> Qc) : forall l, real_of (qsum (map f l)) = rsum (map (fun x => real_of (f x)) l).
Proof. induction l as [|x l IH]; [exact real_0|]. cbn [map]. rewrite qsum_cons. cbn [rsum]. rewrite real_plus, IH. reflexivity. Qed.

(* ---- sums over a list of objects ---- *)
Section Obj.
Context {A : Type}.
Variables (wt : A -> R) (at_ : A -> mode).
Definition csum (N m : mode) (l : list A) : R := rsum (map (fun p => wt p * cos (angle N m (at_ p))) l).
Definition ssum (N m : mode) (l : list A) : R := rsum (map (fun p => wt p * sin (angle N m (at_ p))) l).
Definition laid (N : mode) (Kr : mode -> R) (l : list A) (x : mode) : R := rsum (map (fun p => wt p * Kr (moved N x (opposite N (at_ p)))) l).
Lemma laid_mode N Kr m l : is_mode N m -> Forall (fun p => is_mode N (at_ p)) l ->
  r2c N (laid N Kr l) m = cmul (r2c N Kr m) (csum N m l, - ssum N m l).
Proof.
  intros M F. assert (Z := mode_size N m M). induction l as [|p l IH].
  - unfold laid, csum, ssum. cbn [map rsum]. unfold r2c, cmul. cbn [fst snd]. rewrite !rsum_zero by (intros; ring). f_equal; ring.
  - specialize (IH (Forall_inv_tail F)). assert (X := Forall_inv F). cbn beta in X.
    assert (E := r2c_moved N Kr (opposite N (at_ p)) m Z M). rewrite (same_cos _ _ (angle_minus N m _ X)), (same_sin _ _ (angle_minus N m _ X)), cos_neg, sin_neg in E.
    assert (E1 := f_equal fst E). assert (E2 := f_equal snd E). assert (I1 := f_equal fst IH). assert (I2 := f_equal snd IH). clear E IH.
    unfold csum, ssum in *. cbn [map rsum]. unfold r2c at 1. unfold laid. cbn [map rsum].
    fold (laid N Kr l).
    apply (f_equal2 pair).
    + rewrite (rsum_ext' _ (fun x => wt p * (Kr (moved N x (opposite N (at_ p))) * cos (angle N m x)) + laid N Kr l x * cos (angle N m x))) by (intros; unfold laid; ring).
      rewrite rsum_plus, rsum_scl. unfold r2c in E1 at 1. unfold r2c in I1 at 1. cbn [fst] in E1, I1. rewrite Rmult_plus_distr_l, I1.
      transitivity (wt p * (/ ncell N * rsum (map (fun x => Kr (moved N x (opposite N (at_ p))) * cos (angle N m x)) (cells N))) + fst (cmul (r2c N Kr m) (rsum (map (fun p0 : A => wt p0 * cos (angle N m (at_ p0))) l), - rsum (map (fun p0 : A => wt p0 * sin (angle N m (at_ p0))) l)))); [ring|].
      rewrite E1. unfold cmul. cbn [fst snd]. ring.
    + rewrite (rsum_ext' _ (fun x => wt p * (Kr (moved N x (opposite N (at_ p))) * sin (angle N m x)) + laid N Kr l x * sin (angle N m x))) by (intros; unfold laid; ring).
      rewrite rsum_plus, rsum_scl. unfold r2c in E2 at 1. unfold r2c in I2 at 1. cbn [snd] in E2, I2. rewrite Rmult_plus_distr_l, Ropp_plus_distr, I2.
      transitivity (wt p * - (/ ncell N * rsum (map (fun x => Kr (moved N x (opposite N (at_ p))) * sin (angle N m x)) (cells N))) + snd (cmul (r2c N Kr m) (rsum (map (fun p0 : A => wt p0 * cos (angle N m (at_ p0))) l), - rsum (map (fun p0 : A => wt p0 * sin (angle N m (at_ p0))) l)))); [ring|].
      rewrite E2. unfold cmul. cbn [fst snd]. ring.
Qed.
End Obj.

(* ---- the field of a painted catalog ---- *)
Lemma size_ncell N : INR (size N) = ncell N.
Proof. destruct N as [[n0 n1] n2]. unfold size, ncell. rewrite !mult_INR. reflexivity. Qed.
Lemma real_nq n : real_of (nq n) = INR n.
Proof. unfold nq. rewrite real_zq. rewrite <- INR_IZR_INZ. reflexivity. Qed.
Definition pw (p : PaintModel.particle mode) : R := real_of (PaintModel.w p).
Lemma selected_value (k : PaintModel.columns mode) p : PaintModel.value k = None -> In p (PaintSpec.selected k) -> PaintModel.v p = 1%Qc.
Proof. intros V H. apply in_map_iff in H. destruct H as (ip & <- & _). cbn [PaintModel.v]. rewrite V. reflexivity. Qed.
Lemma selected_pos (k : PaintModel.columns mode) p : In p (PaintSpec.selected k) -> In (PaintModel.pos p) (PaintModel.position k).
Proof. intros H. apply in_map_iff in H. destruct H as (ip & <- & H). apply filter_In in H as [H _]. destruct ip as [i y]. apply in_combine_r in H. exact H. Qed.

Section Painted.
Variables (N : mode) (K : mode -> Qc) (kern kern2 : mode -> PaintModel.field) (volume : Qc) (compose : PaintModel.field -> PaintModel.field -> PaintModel.field).
Hypothesis HN : mesh_size N.
Hypothesis HK : window N (number N) K kern.

Lemma painted_field throttle chunk ranks r :
  Forall PaintSpec.aligned ranks -> (1 <= chunk)%Z -> (forall k, In k ranks -> PaintModel.value k = None) ->
  (forall k p, In k ranks -> In p (PaintModel.position k) -> is_mode N p) ->
  PaintModel.to_real_field mode kern kern2 (size N) volume compose throttle chunk false true None ranks = Ok r ->
  (0 < PaintModel.aW r)%Qc ->
  let l := PaintSpec.all_selected ranks in
  Forall (fun p => is_mode N (PaintModel.pos p)) l /\
  real_of (PaintModel.aW r) = rsum (map pw l) /\
  PaintModel.shotnoise r = Some (volume * (PaintModel.aW2 r / (PaintModel.aW r * PaintModel.aW r)))%Qc /\
  real_of (PaintModel.aW2 r) = rsum (map (fun p => pw p * pw p) l) /\
  forall x, is_mode N x -> read N r x = ncell N / real_of (PaintModel.aW r) * laid pw PaintModel.pos N (fun y => real_of (K y)) l x.
Proof.
  intros HA HC HV HP E W l.
  assert (V1 : forall p, In p l -> PaintModel.v p = 1%Qc). { intros p H. apply in_concat in H. destruct H as (y & Hy & H). apply in_map_iff in Hy. destruct Hy as (k & <- & Hk). exact (selected_value k p (HV k Hk) H). }
  assert (F : Forall (fun p => is_mode N (PaintModel.pos p)) l).
  { apply Forall_forall. intros p H. apply in_concat in H. destruct H as (y & Hy & H). apply in_map_iff in Hy. destruct Hy as (k & <- & Hk). exact (HP k _ Hk (selected_pos k p H)). }
  destruct (PaintProofs.to_real_field_ok mode kern kern2 (size N) volume compose throttle chunk false true None ranks HA HC) as [(r' & f1 & f2 & E' & F1 & _ & _ & A & A2 & B & C & D)|[E' _]]; [|congruence].
  assert (r' = r) by congruence. subst r'. clear E'. fold l in A, A2, F1.
  assert (W0 : PaintModel.aW r <> 0%Qc). { intros Q. rewrite Q in W. discriminate W. }
  assert (PN := ncell_pos N HN). assert (N0 : nq (size N) <> 0%Qc). { intros Q. assert (Q' := f_equal real_of Q). rewrite real_nq, real_0, size_ncell in Q'. lra. }
  assert (RW := real_nz _ W0).
  split; [exact F|]. split; [rewrite A; apply real_qsum|]. split.
  { rewrite C. destruct (Qc_eq_dec _ _) as [Q|Q]; [|reflexivity]. apply Qcmult_integral in Q. destruct Q; contradiction. }
  split; [rewrite A2, real_qsum; apply rsum_ext'; intros; apply real_mult|].
  intros x X. unfold read. rewrite D. assert (NP : (0 < PaintModel.nbar r)%Qc). { rewrite B. apply (PaintProofs.div_pos (PaintModel.aW r) (nq (size N))); [|exact W]. apply PaintProofs.nq_pos. clear - HN. destruct N as [[n0 n1] n2]. destruct HN as (? & ? & ?). unfold size. nia. }
  destruct (Qclt_le_dec 0 (PaintModel.nbar r)) as [_|Q]; [|exfalso; exact (Qclt_not_le _ _ NP Q)].
  assert (N1 : PaintModel.nbar r <> 0%Qc) by (intros Q; rewrite Q in NP; discriminate NP).
  rewrite real_quot by exact N1. unfold PaintSpec.painted, PaintModel.fadd, PaintModel.fzero. rewrite F1. rewrite real_plus, real_0, Rplus_0_l. unfold PaintSpec.deposit. rewrite real_qsum.
  rewrite B, real_quot by exact N0. rewrite real_nq, size_ncell.
  replace (rsum _) with (laid pw PaintModel.pos N (fun y => real_of (K y)) l x); [field; split; lra|].
  unfold laid. apply rsum_ext'. intros p Hp. rewrite (V1 p Hp). rewrite (HK (PaintModel.pos p) x); [|exact (proj1 (Forall_forall _ _) F p Hp)|exact X].
  rewrite !real_mult, real_1. unfold pw. ring.
Qed.

Lemma painted_mode throttle chunk ranks r m :
  Forall PaintSpec.aligned ranks -> (1 <= chunk)%Z -> (forall k, In k ranks -> PaintModel.value k = None) ->
  (forall k p, In k ranks -> In p (PaintModel.position k) -> is_mode N p) ->
  PaintModel.to_real_field mode kern kern2 (size N) volume compose throttle chunk false true None ranks = Ok r ->
  (0 < PaintModel.aW r)%Qc -> is_mode N m ->
  r2c N (read N r) m = cscale (ncell N / real_of (PaintModel.aW r)) (cmul (r2c N (fun y => real_of (K y)) m)
     (csum pw PaintModel.pos N m (PaintSpec.all_selected ranks), - ssum pw PaintModel.pos N m (PaintSpec.all_selected ranks))).
Proof.
  intros HA HC HV HP E W M. destruct (painted_field throttle chunk ranks r HA HC HV HP E W) as (F & _ & _ & _ & D).
  rewrite <- (laid_mode pw PaintModel.pos N _ m _ M F).
  rewrite (r2c_ext N (read N r) (fun x => ncell N / real_of (PaintModel.aW r) * laid pw PaintModel.pos N (fun y => real_of (K y)) (PaintSpec.all_selected ranks) x) m D).
  unfold r2c, cscale. cbn [fst snd]. set (c := ncell N / _). f_equal.
  - rewrite (rsum_ext' _ (fun x => c * (laid pw PaintModel.pos N (fun y => real_of (K y)) (PaintSpec.all_selected ranks) x * cos (angle N m x)))) by (intros; ring). rewrite rsum_scl. ring.
  - rewrite (rsum_ext' _ (fun x => c * (laid pw PaintModel.pos N (fun y => real_of (K y)) (PaintSpec.all_selected ranks) x * sin (angle N m x)))) by (intros; ring). rewrite rsum_scl. ring.
Qed.
End Painted.

(* the power of given objects *)
Lemma power_objects N L K kern kern2 volume compose throttle chunk ranks r m :
  mesh_size N -> window N (number N) K kern ->
  Forall PaintSpec.aligned ranks -> (1 <= chunk)%Z -> (forall k, In k ranks -> PaintModel.value k = None) ->
  (forall k p, In k ranks -> In p (PaintModel.position k) -> is_mode N p) ->
  PaintModel.to_real_field mode kern kern2 (size N) volume compose throttle chunk false true None ranks = Ok r ->
  (0 < PaintModel.aW r)%Qc -> is_mode N m -> m <> (0, 0, 0)%nat ->
  power N L (read N r) (read N r) m =
    (box_volume L * window_power N K m * structure N (PaintSpec.all_selected ranks) m / (real_of (PaintModel.aW r) * real_of (PaintModel.aW r)), 0).
Proof.
  intros HN HK HA HC HV HP E W M M0. assert (PN := ncell_pos N HN). assert (RW : real_of (PaintModel.aW r) <> 0). { apply real_nz. intros Q. rewrite Q in W. discriminate W. }
  rewrite power_raw. destruct (is_zero m) eqn:Ez; [apply is_zero_iff in Ez; contradiction|].
  unfold raw. rewrite (painted_mode N K kern kern2 volume compose HN HK throttle chunk ranks r m HA HC HV HP E W M).
  unfold window_power, structure. change (box_volume L) with (vol L). unfold csum, ssum, pw.
  set (c := rsum (map (fun p => _ * cos _) (PaintSpec.all_selected ranks))). set (s := rsum (map (fun p => _ * sin _) (PaintSpec.all_selected ranks))).
  unfold r2c, cmul, conj, cscale. cbn [fst snd].
  set (a := rsum (map (fun x => real_of (K x) * cos (angle N m x)) (cells N))). set (b := rsum (map (fun x => real_of (K x) * sin (angle N m x)) (cells N))). cbv zeta.
  f_equal; field; split; lra.
Qed.
