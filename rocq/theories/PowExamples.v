(* Concrete meshes, for the refuted claims and for the examples. *)
From Verif Require Import Base BaseProofs Num FiberModel FiberProofs PairSpec SurveyMore CgmGeom PowModel PowSpec PowProofs PowMain PowFinal PowRun.
From Coq Require Import Sorted Permutation.
Local Open Scope nat_scope.

(* a square root that is exact on square integers and never too small *)
Definition exroot (x : Qc) : Qc :=
  let q := this x in
  if Pos.eqb (Qden q) 1 && Z.eqb (Z.sqrt (Qnum q) * Z.sqrt (Qnum q)) (Qnum q) then zq (Z.sqrt (Qnum q)) else ((x + 1) / (1 + 1))%Qc.
Lemma exroot_ok : sqrt_contract exroot.
Proof.
  intros x Hx. unfold exroot. destruct (Pos.eqb (Qden x) 1 && Z.eqb (Z.sqrt (Qnum x) * Z.sqrt (Qnum x)) (Qnum x)) eqn:E.
  - apply andb_true_iff in E. destruct E as [E1 E2]. apply Pos.eqb_eq in E1. apply Z.eqb_eq in E2. assert (X : x = zq (Qnum x)). { apply Qc_is_canon. unfold zq. cbn [this Q2Qc]. rewrite Qred_correct. destruct x as [[a b] c]. cbn in *. subst b. reflexivity. }
    assert (P : (0 < Qnum x)%Z). { rewrite X in Hx. rewrite <- zq_0 in Hx. apply (proj2 (zq_lt _ _)) in Hx. exact Hx. } split.
    + rewrite <- zq_0. apply (proj1 (zq_lt _ _)). apply Z.sqrt_pos. exact P.
    + rewrite <- zq_mul, E2, <- X. apply Qcle_refl.
  - split.
    + unfold Qcdiv. replace 0%Qc with (0 * / (1 + 1))%Qc by ring. apply Qcmult_lt_compat_r; [reflexivity|]. clear -Hx. qc_lra.
    + pose proof (sq_nonneg ((x - 1) / (1 + 1))) as H. replace ((x + 1) / (1 + 1) * ((x + 1) / (1 + 1)))%Qc with (x + (x - 1) / (1 + 1) * ((x - 1) / (1 + 1)))%Qc by (field; discriminate). revert H. generalize ((x - 1) / (1 + 1) * ((x - 1) / (1 + 1)))%Qc. intros q H. clear -H. qc_lra.
Qed.
Lemma qc_lit : forall (x : Qc) (q : Q), this x = Qred q -> x = Q2Qc q.
Proof. intros x q H. apply Qc_is_canon. rewrite H. unfold Q2Qc. cbn [this]. reflexivity. Qed.
Definition half_up : Qc := Q2Qc (1 # 2).
Definition ks : list Qc := map Q2Qc [1 # 2; 3 # 2; 5 # 2]%Q.
Lemma ks_inc : increasing ks. Proof. unfold ks. cbn [map]. repeat constructor. Qed.
Lemma ks_pos : forall e, In e ks -> (0 <= e)%Qc. Proof. unfold ks. cbn [map]. intros e H. destruct H as [<-|[<-|[<-|[]]]]; vm_compute; discriminate. Qed.
Definition zlos : vec := {| v0 := 0; v1 := 0; v2 := 1 |}%Qc.
Lemma zlos_unit : (length2 zlos <= 1)%Qc. Proof. vm_compute; discriminate. Qed.
Definition ones (_ : cell3) : cplx := (1, 0)%Qc.
Lemma ones_h : forall n0 n1 n2, hermitian n0 n1 n2 ones. Proof. intros n0 n1 n2 m _. unfold ones, conj. cbn [fst snd]. f_equal; ring. Qed.
Definition whole (n0 n1 n : nat) : list block := [{| b0 := seq 0 n0; b1 := seq 0 n1; b2 := seq 0 n |}].
Lemma whole_ok : forall n0 n1 n, blocks_hold n0 n1 (whole n0 n1 n) n. Proof. intros. unfold blocks_hold, whole. cbn [map concat b0 b1 b2]. rewrite app_nil_r. apply Permutation_refl. Qed.
(* reading a computed table *)
Definition seen {A} (x : res (result * option poles_result)) (f : result * option poles_result -> A) (d : A) : A := match x with Ok r => f r | Err _ => d end.
Lemma seen_ok : forall A x (f : result * option poles_result -> A) d r, x = Ok r -> seen x f d = f r. Proof. intros A x f d r ->. reflexivity. Qed.
Definition num (o : option Qc) : option Q := option_map this o.
Definition cnum (o : option (option cplx)) : option (option (Q * Q)) := option_map (option_map (fun z : cplx => (this (fst z), this (snd z)))) o.
Definition pole_y (r : result * option poles_result) : list (list (option cplx)) := match snd r with Some p => p_y p | None => [] end.

(* ---- wedges ---- *)
Lemma wedge_own_mu : exists n0 n1 n2 u0 u1 u2 root los kedges nmu f g blocks r pol i im lo hi L,
  0 < n2 /\ (0 < u2)%Qc /\ sqrt_contract root /\ (length2 los <= 1)%Qc /\ hermitian n0 n1 n2 f /\ hermitian n0 n1 n2 g /\ increasing kedges /\ 0 < nmu /\ blocks_hold n0 n1 blocks (n2 / 2 + 1) /\
  fftpower root (axis_coord u0 n0) (axis_coord u1 n1) (axis_coord u2 n2) 1 f g los kedges nmu [] blocks = Ok (r, pol) /\
  nth_error kedges i = Some lo /\ nth_error kedges (S i) = Some hi /\ im < nmu /\
  listing (fun m => shell n0 n1 n2 u0 u1 u2 lo hi m /\ in_mubin (linspace (-(1)) 1 nmu) im (mu_of n0 n1 n2 u0 u1 u2 root los m)) L /\
  at2 (r_n r) i im <> Some (nq (length L)).
Proof.
  destruct (run_halved 1 1 4 1 1 1 exroot zlos ks 2 1 ones ones [] (whole 1 1 3)) as [r [pol [E _]]]; try (exact exroot_ok || exact zlos_unit || exact ks_inc || exact ks_pos || apply ones_h || lia || reflexivity || (intros e [])); [unfold ks; cbn; lia|apply whole_ok|].
  destruct (plain 1 1 4 1 1 1 exroot zlos ks (linspace (-(1)) 1 2)) with (y := ones) (blocks := whole 1 1 4) (poles := @nil Z) as [r' [pol' [E' [A _]]]]; try (exact ks_inc || exact ks_pos || lia || (intros e []) || (rewrite linspace_len; lia) || (apply linspace_inc; [reflexivity|lia]) || apply whole_ok); [reflexivity|unfold ks; cbn; lia|].
  destruct (A 0 1 (Q2Qc (1 # 2)) (Q2Qc (3 # 2)) eq_refl eq_refl ltac:(rewrite linspace_len; lia)) as [L [HL [N _]]].
  exists 1, 1, 4, 1%Qc, 1%Qc, 1%Qc, exroot, zlos, ks, 2, ones, ones, (whole 1 1 3), r, pol, 0, 1, (Q2Qc (1 # 2)), (Q2Qc (3 # 2)), L.
  split; [lia|]. split; [reflexivity|]. split; [exact exroot_ok|]. split; [exact zlos_unit|]. split; [apply ones_h|]. split; [apply ones_h|]. split; [exact ks_inc|]. split; [lia|]. split; [apply whole_ok|]. split; [exact E|]. split; [reflexivity|]. split; [reflexivity|]. split; [lia|]. split; [exact HL|].
  rewrite <- N. intros G. pose proof (seen_ok _ _ (fun r => num (at2 (r_n (fst r)) 0 1)) None _ E) as S1. pose proof (seen_ok _ _ (fun r => num (at2 (r_n (fst r)) 0 1)) None _ E') as S2. cbn [fst] in S1, S2. rewrite G, <- S2 in S1. vm_compute in S1. discriminate S1.
Qed.

(* ---- correlation functions ---- *)
Definition pair_y (m : cell3) : Qc := let '(_, j, l) := m in if ((j =? 1) || (j =? 3)) && (l =? 0) then 1%Qc else 0%Qc.
Lemma corr_all_separations : exists n0 n1 n2 u0 u1 u2 root los redges xi blocks r pol i lo hi L,
  0 < n2 /\ (0 < u2)%Qc /\ sqrt_contract root /\ (length2 los <= 1)%Qc /\ (forall m, is_mode n0 n1 n2 m -> xi (opposite n0 n1 n2 m) = xi m) /\ increasing redges /\ blocks_hold n0 n1 blocks n2 /\
  fftcorr root (axis_coord u0 n0) (axis_coord u1 n1) (axis_coord u2 n2) xi los redges 1 [] blocks = Ok (r, pol) /\
  nth_error redges i = Some lo /\ nth_error redges (S i) = Some hi /\ listing (shell n0 n1 n2 u0 u1 u2 lo hi) L /\
  at2 (r_n r) i 0 <> Some (nq (length L)) /\ at2 (r_y r) i 0 <> Some (cmean (map (fun m => (xi m, 0%Qc)) L)).
Proof.
  set (es := map Q2Qc [1 # 2; 5 # 4; 5 # 2]%Q). assert (es_inc : increasing es) by (unfold es; cbn [map]; repeat constructor). assert (es_pos : forall e, In e es -> (0 <= e)%Qc) by (unfold es; cbn [map]; intros e H; destruct H as [<-|[<-|[<-|[]]]]; vm_compute; discriminate).
  destruct (corr_run 1 4 4 1 1 1 exroot zlos es 1 pair_y [] (whole 1 4 4)) as [r [pol [E _]]]; try (exact es_inc || exact es_pos || lia || reflexivity || (intros e []) || apply whole_ok); [unfold es; cbn; lia|].
  destruct (plain 1 4 4 1 1 1 exroot zlos es (linspace (-(1)) 1 1)) with (y := fun m => (pair_y m, 0%Qc)) (blocks := whole 1 4 4) (poles := @nil Z) as [r' [pol' [E' [A _]]]]; try (exact es_inc || exact es_pos || lia || (intros e []) || (rewrite linspace_len; lia) || (apply linspace_inc; [reflexivity|lia]) || apply whole_ok); [reflexivity|unfold es; cbn; lia|].
  destruct (A 0 0 (Q2Qc (1 # 2)) (Q2Qc (5 # 4)) eq_refl eq_refl ltac:(rewrite linspace_len; lia)) as [L [[L1 L2] [N [_ [_ Y]]]]].
  exists 1, 4, 4, 1%Qc, 1%Qc, 1%Qc, exroot, zlos, es, pair_y, (whole 1 4 4), r, pol, 0, (Q2Qc (1 # 2)), (Q2Qc (5 # 4)), L.
  split; [lia|]. split; [reflexivity|]. split; [exact exroot_ok|]. split; [exact zlos_unit|]. split.
  { intros [[i j] l] [Hi [Hj Hl]]. destruct j as [|[|[|[|j]]]]; try lia; destruct l as [|[|[|[|l]]]]; try lia; reflexivity. }
  split; [exact es_inc|]. split; [apply whole_ok|]. split; [exact E|]. split; [reflexivity|]. split; [reflexivity|]. split.
  { split; [exact L1|]. intros m. rewrite L2, one_bin. pose proof (proj1 (mu_range 1 4 4 1 1 1 exroot zlos exroot_ok zlos_unit m)). tauto. }
  rewrite <- N, <- Y. split; intros G.
  - pose proof (seen_ok _ _ (fun r => num (at2 (r_n (fst r)) 0 0)) None _ E) as S1. pose proof (seen_ok _ _ (fun r => num (at2 (r_n (fst r)) 0 0)) None _ E') as S2. cbn [fst] in S1, S2. rewrite G, <- S2 in S1. vm_compute in S1. discriminate S1.
  - pose proof (seen_ok _ _ (fun r => cnum (at2 (r_y (fst r)) 0 0)) None _ E) as S1. pose proof (seen_ok _ _ (fun r => cnum (at2 (r_y (fst r)) 0 0)) None _ E') as S2. cbn [fst] in S1, S2. rewrite G, <- S2 in S1. vm_compute in S1. discriminate S1.
Qed.

(* ---- accepted lines of sight: |los.los - 1| <= 1e-8 + 1e-5 (fftpower.py 207-208) ---- *)
Definition los_accepted (los : vec) : Prop := (length2 los - 1 <= Q2Qc (1 # 100000000) + Q2Qc (1 # 100000))%Qc /\ (1 - length2 los <= Q2Qc (1 # 100000000) + Q2Qc (1 # 100000))%Qc.
Lemma accepted_los_loses_modes : exists n0 n1 n2 u0 u1 u2 root los kedges f g blocks r pol i lo hi L,
  0 < n2 /\ (0 < u2)%Qc /\ sqrt_contract root /\ los_accepted los /\ hermitian n0 n1 n2 f /\ hermitian n0 n1 n2 g /\ increasing kedges /\ blocks_hold n0 n1 blocks (n2 / 2 + 1) /\
  fftpower root (axis_coord u0 n0) (axis_coord u1 n1) (axis_coord u2 n2) 1 f g los kedges 1 [] blocks = Ok (r, pol) /\
  nth_error kedges i = Some lo /\ nth_error kedges (S i) = Some hi /\ listing (shell n0 n1 n2 u0 u1 u2 lo hi) L /\ L <> [] /\ at2 (r_n r) i 0 = Some 0%Qc.
Proof.
  set (los := {| v0 := 0; v1 := 0; v2 := Q2Qc (1000001 # 1000000) |}%Qc).
  destruct (fftpower exroot (axis_coord 1 1) (axis_coord 1 1) (axis_coord 1 2) 1 ones ones los ks 1 [] (whole 1 1 2)) as [[r pol]|e] eqn:E; [|exfalso; apply (f_equal (fun x => match x with Ok _ => true | Err _ => false end)) in E; vm_compute in E; discriminate E].
  exists 1, 1, 2, 1%Qc, 1%Qc, 1%Qc, exroot, los, ks, ones, ones, (whole 1 1 2), r, pol, 0, (Q2Qc (1 # 2)), (Q2Qc (3 # 2)), [(0, 0, 1)].
  split; [lia|]. split; [reflexivity|]. split; [exact exroot_ok|]. split; [split; vm_compute; discriminate|]. split; [apply ones_h|]. split; [apply ones_h|]. split; [exact ks_inc|]. split; [apply (whole_ok 1 1 2)|]. split; [exact E|]. split; [reflexivity|]. split; [reflexivity|]. split; [|split; [discriminate|]].
  - split; [repeat constructor; intros []|]. intros [[i j] l]. unfold shell, is_mode. split.
    + intros [G|[]]. injection G as <- <- <-. split; [lia|]. split; [vm_compute; discriminate|reflexivity].
    + intros [[Hi [Hj Hl]] [G _]]. destruct i; [|lia]. destruct j; [|lia]. destruct l as [|[|l]]; [|left; reflexivity|lia]. exfalso. apply G. reflexivity.
  - pose proof (seen_ok _ _ (fun r => num (at2 (r_n (fst r)) 0 0)) None _ E) as S1. cbn [fst] in S1. match type of S1 with ?a = _ => let v := eval vm_compute in a in change a with v in S1 end. destruct (at2 (r_n r) 0 0) as [q|]; [|discriminate S1]. cbn in S1. injection S1 as S1. f_equal. apply Qc_is_canon. rewrite <- S1. reflexivity.
Qed.

(* ---- odd multipoles with Nyquist modes ---- *)
Definition nyq_f (m : cell3) : cplx := let '(i, _, l) := m in if (i =? 1) && ((l =? 1) || (l =? 3)) then (1, 0)%Qc else (0, 0)%Qc.
Lemma odd_pole_nyquist : exists n0 n1 n2 u0 u1 u2 root los kedges f g ell blocks r p i lo hi L,
  0 < n2 /\ (0 < u2)%Qc /\ sqrt_contract root /\ (length2 los <= 1)%Qc /\ along_axis los /\ hermitian n0 n1 n2 f /\ hermitian n0 n1 n2 g /\ increasing kedges /\ blocks_hold n0 n1 blocks (n2 / 2 + 1) /\
  fftpower root (axis_coord u0 n0) (axis_coord u1 n1) (axis_coord u2 n2) 1 f g los kedges 1 [ell] blocks = Ok (r, Some p) /\
  nth_error kedges i = Some lo /\ nth_error kedges (S i) = Some hi /\ listing (shell n0 n1 n2 u0 u1 u2 lo hi) L /\
  at2 (p_y p) 0 i <> Some (cmean (map (fun m => times (nq (2 * Z.to_nat ell + 1) * legendre (Z.to_nat ell) (mu_of n0 n1 n2 u0 u1 u2 root los m)) (spectrum 1 f g m)) L)).
Proof.
  set (los := {| v0 := 1; v1 := 0; v2 := 0 |}%Qc). set (es := map Q2Qc [9 # 2; 11 # 2; 13 # 2]%Q). assert (es_inc : increasing es) by (unfold es; cbn [map]; repeat constructor). assert (es_pos : forall e, In e es -> (0 <= e)%Qc) by (unfold es; cbn [map]; intros e H; destruct H as [<-|[<-|[<-|[]]]]; vm_compute; discriminate).
  assert (Hf : hermitian 2 1 4 nyq_f). { intros [[i j] l] [Hi [Hj Hl]]. destruct i as [|[|i]]; try lia; destruct l as [|[|[|[|l]]]]; try lia; unfold conj, nyq_f; cbn [opposite neg Nat.eqb andb orb Nat.sub fst snd]; f_equal; ring. }
  assert (HL : (length2 los <= 1)%Qc) by (vm_compute; discriminate). assert (HP : forall e, In e [1%Z] -> (0 <= e)%Z) by (intros e [<-|[]]; lia).
  destruct (run_halved 2 1 4 (zq 3) 1 (zq 4) exroot los es 1 1 nyq_f ones [1%Z] (whole 2 1 3)) as [r [pol [E [_ [_ P]]]]]; try (exact exroot_ok || exact es_inc || exact es_pos || exact Hf || apply ones_h || lia || exact HL || exact HP); [reflexivity|unfold es; cbn; lia|apply (whole_ok 2 1 3)|].
  destruct (P ltac:(discriminate)) as [p [-> _]]. clear P.
  destruct (plain 2 1 4 (zq 3) 1 (zq 4) exroot los es (linspace (-(1)) 1 1)) with (y := spectrum 1 nyq_f ones) (blocks := whole 2 1 4) (poles := [1%Z]) as [r' [pol' [E' [_ [_ P]]]]]; try (exact es_inc || exact es_pos || lia || exact HP || (rewrite linspace_len; lia) || (apply linspace_inc; [reflexivity|lia]) || apply whole_ok); [reflexivity|unfold es; cbn; lia|].
  destruct (P ltac:(discriminate)) as [p' [-> P']]. destruct (P' 0 (Q2Qc (9 # 2)) (Q2Qc (11 # 2)) (-(1))%Qc eq_refl eq_refl (linspace_0 _ _ _)) as [L [[L1 L2] [_ [_ Y]]]]. specialize (Y 0 1%Z eq_refl).
  exists 2, 1, 4, (zq 3), 1%Qc, (zq 4), exroot, los, es, nyq_f, ones, 1%Z, (whole 2 1 3), r, p, 0, (Q2Qc (9 # 2)), (Q2Qc (11 # 2)), L.
  split; [lia|]. split; [reflexivity|]. split; [exact exroot_ok|]. split; [exact HL|]. split; [left; split; reflexivity|]. split; [exact Hf|]. split; [apply ones_h|]. split; [exact es_inc|]. split; [apply (whole_ok 2 1 3)|]. split; [exact E|]. split; [reflexivity|]. split; [reflexivity|]. split.
  { split; [exact L1|]. intros m. rewrite L2. pose proof (proj1 (mu_range 2 1 4 (zq 3) 1 (zq 4) exroot los exroot_ok HL m)). tauto. }
  rewrite <- Y. intros G. pose proof (seen_ok _ _ (fun r => cnum (at2 (pole_y r) 0 0)) None _ E) as S1. pose proof (seen_ok _ _ (fun r => cnum (at2 (pole_y r) 0 0)) None _ E') as S2. cbn [pole_y snd] in S1, S2. rewrite G, <- S2 in S1. vm_compute in S1. discriminate S1.
Qed.

(* ---- projected power ---- *)
Definition ones2 (_ : nat * nat) : cplx := (1, 0)%Qc.
Lemma projected_odd_axis : exists root n0 n1 u0 u1 pk kedges r i lo hi L,
  0 < n1 /\ hermitian2 n0 n1 pk /\ increasing kedges /\ projected root n0 n1 u0 u1 pk 1 kedges = Ok r /\ nth_error kedges i = Some lo /\ nth_error kedges (S i) = Some hi /\
  NoDup L /\ (forall m, In m L <-> is_mode2 n0 n1 m /\ (lo <= kmag2 root n0 n1 u0 u1 m)%Qc /\ (kmag2 root n0 n1 u0 u1 m < hi)%Qc) /\ nth_error (q_modes r) i <> Some (nq (length L)).
Proof.
  destruct (projected exroot 1 3 1 1 ones2 1 ks) as [r|e] eqn:E; [|exfalso; apply (f_equal (fun x => match x with Ok _ => true | Err _ => false end)) in E; vm_compute in E; discriminate E].
  exists exroot, 1, 3, 1%Qc, 1%Qc, ones2, ks, r, 0, (Q2Qc (1 # 2)), (Q2Qc (3 # 2)), [(0, 1); (0, 2)].
  split; [lia|]. split; [intros m _; unfold ones2, conj; cbn [fst snd]; f_equal; ring|]. split; [exact ks_inc|]. split; [exact E|]. split; [reflexivity|]. split; [reflexivity|]. split; [repeat constructor; cbn; intuition discriminate|]. split.
  - intros [i j]. unfold is_mode2. cbn [fst snd]. split.
    + intros [G|[G|[]]]; injection G as <- <-; (split; [lia|]; split; [vm_compute; discriminate|reflexivity]).
    + intros [[Hi Hj] [G _]]. destruct i; [|lia]. destruct j as [|[|[|j]]]; [|left; reflexivity|right; left; reflexivity|lia]. exfalso. apply G. reflexivity.
  - intros G. apply (f_equal (fun x => match x with Ok r => num (nth_error (q_modes r) 0) | Err _ => None end)) in E. rewrite G in E. vm_compute in E. discriminate E.
Qed.
Definition cross2 (m : nat * nat) : cplx := if snd m =? 1 then (0, 1)%Qc else if snd m =? 3 then (0, -(1))%Qc else (0, 0)%Qc.
Lemma projected_imaginary : exists root n0 n1 u0 u1 pk kedges r i lo hi L,
  0 < n1 /\ Nat.even n1 = true /\ hermitian2 n0 n1 pk /\ increasing kedges /\ projected root n0 n1 u0 u1 pk 1 kedges = Ok r /\ nth_error kedges i = Some lo /\ nth_error kedges (S i) = Some hi /\
  NoDup L /\ (forall m, In m L <-> is_mode2 n0 n1 m /\ (lo <= kmag2 root n0 n1 u0 u1 m)%Qc /\ (kmag2 root n0 n1 u0 u1 m < hi)%Qc) /\ nth_error (q_power r) i <> Some (cmean (map pk L)).
Proof.
  destruct (projected exroot 1 4 1 1 cross2 1 ks) as [r|e] eqn:E; [|exfalso; apply (f_equal (fun x => match x with Ok _ => true | Err _ => false end)) in E; vm_compute in E; discriminate E].
  exists exroot, 1, 4, 1%Qc, 1%Qc, cross2, ks, r, 0, (Q2Qc (1 # 2)), (Q2Qc (3 # 2)), [(0, 1); (0, 3)].
  split; [lia|]. split; [reflexivity|]. split. { intros [i j] [Hi Hj]. cbn [fst snd] in *. destruct j as [|[|[|[|j]]]]; try lia; unfold cross2, conj; cbn [fst snd neg Nat.eqb Nat.sub]; f_equal; ring. } split; [exact ks_inc|]. split; [exact E|]. split; [reflexivity|]. split; [reflexivity|]. split; [repeat constructor; cbn; intuition discriminate|]. split.
  - intros [i j]. unfold is_mode2. cbn [fst snd]. split.
    + intros [G|[G|[]]]; injection G as <- <-; (split; [lia|]; split; [vm_compute; discriminate|reflexivity]).
    + intros [[Hi Hj] [G1 G2]]. destruct i; [|lia]. destruct j as [|[|[|[|j]]]]; [|left; reflexivity| |right; left; reflexivity|lia]; exfalso; [apply G1; reflexivity|vm_compute in G2; discriminate G2].
  - intros G. apply (f_equal (fun x => match x with Ok r => cnum (nth_error (q_power r) 0) | Err _ => None end)) in E. rewrite G in E. vm_compute in E. discriminate E.
Qed.
