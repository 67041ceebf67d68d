From Verif Require Import Base.
From Coq Require Import Reals Lra Lia Permutation Sorted.
From Verif Require Import RandModel RandProofs ThreeModel ThreeSpec ThreeProofs YlmModel YlmSpec YlmMain ConvModel ConvSpec.
Local Open Scope R_scope.

(* ---- digitize ---- *)
Lemma sorted_nondec : forall l, StronglySorted Rle l -> rnondec l = true.
Proof.
  induction l as [|x l IH]; intros H; [reflexivity|]. inversion H as [|? ? H1 H2]; subst. cbn [rnondec]. destruct l as [|y l]; [reflexivity|].
  rewrite IH by exact H1. inversion H2; subst. rewrite (proj2 (rleb_iff x y)) by assumption. reflexivity.
Qed.
Lemma count_le : forall l x j, StronglySorted Rle l -> (j < length l)%nat -> (nth j l 0 <= x <-> (j < length (filter (fun e => rleb e x) l))%nat).
Proof.
  induction l as [|a l IH]; intros x j H L; [cbn in L; lia|]. inversion H as [|? ? H1 H2]; subst. cbn [filter]. destruct (rleb a x) eqn:E.
  - cbn [length]. destruct j as [|j]; cbn [nth]; [apply rleb_iff in E; split; [lia|intros _; exact E]|]. cbn in L. rewrite (IH x j H1) by lia. lia.
  - assert (N : filter (fun e => rleb e x) l = []).
    { apply rleb_iff in E || idtac. assert (Q : ~ a <= x) by (intros Q; apply rleb_iff in Q; congruence). clear - H2 Q. induction H2 as [|y l Hy Hl IH]; [reflexivity|]. cbn [filter]. destruct (rleb y x) eqn:F; [apply rleb_iff in F; lra|exact IH]. }
    rewrite N. cbn [length]. split; [|lia]. intros Q. exfalso. assert (Q' : ~ a <= x) by (intros V; apply rleb_iff in V; congruence). apply Q'.
    destruct j as [|j]; cbn [nth] in Q; [exact Q|]. rewrite Forall_forall in H2. assert (a <= nth j l 0) by (apply H2, nth_In; cbn in L; lia). lra.
Qed.
Lemma count_eq l x b : StronglySorted Rle l -> (S b < length l)%nat ->
  Nat.eqb (length (filter (fun e => rleb e x) l)) (S b) = rleb (nth b l 0) x && rltb x (nth (S b) l 0).
Proof.
  intros H L. pose proof (count_le l x b H ltac:(lia)) as A. pose proof (count_le l x (S b) H L) as B. set (n := length (filter _ l)) in *.
  apply Bool.eq_iff_eq_true. rewrite andb_true_iff, Nat.eqb_eq, rleb_iff, rltb_iff. split.
  - intros ->. split; [apply A; lia|]. apply Rnot_le_lt. intros Q. apply B in Q. lia.
  - intros [P Q]. apply A in P. destruct (Nat.lt_ge_cases (S b) n) as [G|G]; [|lia]. apply B in G. lra.
Qed.
Lemma sq_sorted : forall l, StronglySorted Rle l -> Forall (fun v => 0 <= v) l -> StronglySorted Rle (map (fun v => v * v) l).
Proof.
  induction l as [|a l IH]; intros H P; [constructor|]. inversion H as [|? ? H1 H2]; subst. inversion P as [|? ? P1 P2]; subst. cbn [map]. constructor; [apply IH; assumption|].
  rewrite Forall_map. rewrite Forall_forall in *. intros y I. specialize (H2 y I). nra.
Qed.
Lemma nth_sq l b : nth b (map (fun v => v * v) l) 0 = nth b l 0 * nth b l 0.
Proof. rewrite <- (map_nth (fun v => v * v) l 0 b). f_equal. ring. Qed.
Lemma sqrt_between a b n : 0 <= a -> 0 <= b -> 0 <= n -> rleb (a * a) n && rltb n (b * b) = rleb a (sqrt n) && rltb (sqrt n) b.
Proof.
  intros A B N. pose proof (sqrt_pos n) as P. pose proof (sqrt_sqrt n N) as E. apply Bool.eq_iff_eq_true. rewrite !andb_true_iff, !rleb_iff, !rltb_iff. split; intros [H1 H2].
  - split; [|]; nra.
  - split; nra.
Qed.
Lemma ceq0_iff x : ceq0 x = true <-> x = 0.
Proof. unfold ceq0. destruct (Req_EM_T x 0); split; intros; try reflexivity; try assumption; try discriminate; contradiction. Qed.
Lemma norm2_dot p : norm2 p = dot3 p p.
Proof. destruct p as [[x y] z]. reflexivity. Qed.
Lemma norm2_nonneg p : 0 <= norm2 p.
Proof. destruct p as [[x y] z]. unfold norm2. nra. Qed.
Lemma length3_opp p : length3 (opp3 p) = length3 p.
Proof. destruct p as [[x y] z]. unfold length3, opp3, dot3. f_equal. ring. Qed.
Lemma unit_over p : norm2 p <> 0 -> unit3 (over p (sqrt (norm2 p))).
Proof.
  intros N. pose proof (norm2_nonneg p) as P. pose proof (sqrt_sqrt (norm2 p) P) as S. assert (sqrt (norm2 p) <> 0) by (intros Z; rewrite Z in S; lra).
  destruct p as [[x y] z]. unfold unit3, over, dot3. set (s := sqrt _) in *. transitivity ((x * x + y * y + z * z) / (s * s)); [field; assumption|]. rewrite S. unfold norm2. field. exact N.
Qed.
Lemma dot_over p q : norm2 p <> 0 -> norm2 q <> 0 -> dot3 (over p (sqrt (norm2 p))) (over q (sqrt (norm2 q))) = cosine p q.
Proof.
  intros P Q. unfold cosine, length3. rewrite <- !norm2_dot. assert (A : sqrt (norm2 p) <> 0) by (intros Z; apply sqrt_eq_0 in Z; [contradiction|apply norm2_nonneg]). assert (B : sqrt (norm2 q) <> 0) by (intros Z; apply sqrt_eq_0 in Z; [contradiction|apply norm2_nonneg]).
  destruct p as [[x y] z], q as [[u v] w]. unfold over. unfold dot3. field. split; assumption.
Qed.

(* ---- complex sums ---- *)
Lemma csum_cscale {A} c (f : A -> comp) l : csum (map (fun x => cscale c (f x)) l) = cscale c (csum (map f l)).
Proof. unfold csum, cscale. rewrite !map_map. cbn [fst snd]. rewrite !rsum_scl. reflexivity. Qed.
Lemma csum_pair {A} (f : A -> comp) l : csum (map f l) = (rsum (map (fun x => fst (f x)) l), rsum (map (fun x => snd (f x)) l)).
Proof. unfold csum. rewrite !map_map. reflexivity. Qed.

(* ---- parity of the Legendre polynomials ---- *)
Lemma rleg_neg x : forall l, fst (rleg2 l (- x)) = (-1) ^ l * fst (rleg2 l x) /\ snd (rleg2 l (- x)) = (-1) ^ S l * snd (rleg2 l x).
Proof.
  induction l as [|l [A B]]; [cbn; split; ring|]. cbn [rleg2]. destruct (rleg2 l x) as [p q], (rleg2 l (- x)) as [p' q']. cbn [fst snd] in *. subst. split; [reflexivity|].
  cbn [pow]. unfold Rdiv. ring.
Qed.
Lemma even_legendre l x : Nat.even l = true -> rlegendre l (- x) = rlegendre l x.
Proof.
  intros H. unfold rlegendre. rewrite (proj1 (rleg_neg x l)). apply Nat.even_spec in H. destruct H as [m ->]. replace ((-1) ^ (2 * m)) with 1; [ring|]. rewrite pow_mult. replace ((-1) ^ 2) with 1 by ring. symmetry. apply pow1.
Qed.
Lemma cosine_opp p q : cosine (opp3 p) q = - cosine p q.
Proof. unfold cosine. rewrite length3_opp. destruct p as [[x y] z], q as [[u v] w]. unfold opp3, dot3, Rdiv. ring. Qed.

Lemma mu_range {K} (kc : K -> point) k : -1 <= kmu kc k <= 1.
Proof.
  unfold kmu. destruct (ceq0 (sqrt (norm2 (kc k)))) eqn:Z; [lra|]. assert (N : sqrt (norm2 (kc k)) <> 0) by (intros Q; apply ceq0_iff in Q; congruence).
  pose proof (sqrt_pos (norm2 (kc k))) as P. pose proof (sqrt_sqrt _ (norm2_nonneg (kc k))) as S. set (s := sqrt (norm2 (kc k))) in *. assert (SP : 0 < s) by lra. clearbody s.
  destruct (kc k) as [[x y] z]. cbn [snd]. unfold norm2 in S. assert (z <= s) by nra. assert (- z <= s) by nra.
  split; apply Rmult_le_reg_r with s; try exact SP; unfold Rdiv; rewrite Rmult_assoc, Rinv_l; lra.
Qed.

Section Main.
Context {X K : Type}.
Variable grid : list X.
Variable xc : X -> point.
Variable e : K -> X -> comp.
Variable modes : list K.
Variable kc : K -> point.
Variable compressed : bool.
Variables center cell : point.
Variable volume norm : R.
Variables comp1 comp2 : K -> R.
Variables F1 F2 : X -> comp.
Notation position' := (position xc center cell).
Notation estimate' := (estimate grid xc e kc center cell volume norm comp1 comp2 F1 F2).
Notation Aell' := (Aell grid xc e kc center cell volume comp2 F2).
Notation A0' := (A0 grid e volume comp2 F2).
Notation power' := (power3d grid e volume norm comp1 F1).
Notation transform' := (transform grid e).

Lemma xpos_position x : xpos xc center cell x = position' x.
Proof using. unfold xpos, offset, position. destruct (xc x) as [[a b] c], center as [[d f] h], cell as [[i j] k]. cbn [add3]. f_equal; [f_equal|]; field. Qed.
Lemma r2c_transform f F k : r2c grid e (fun x => cscale (f x) (F x)) k = transform' f F (false, k).
Proof using. unfold r2c. rewrite csum_pair. unfold transform, phase. cbn [fst snd cmul cscale]. f_equal; apply rsum_ext'; intros x _; ring. Qed.
Lemma r2c_plain F k : r2c grid e F k = transform' (fun _ => 1) F (false, k).
Proof using. unfold r2c. rewrite csum_pair. unfold transform, phase. cbn [fst snd cmul]. f_equal; apply rsum_ext'; intros x _; ring. Qed.
Lemma transform_sum {B} (c : B -> R) (f : B -> X -> R) F m l :
  csum (map (fun i => cscale (c i) (transform' (f i) F m)) l) = transform' (fun x => rsum (map (fun i => c i * f i x) l)) F m.
Proof using.
  rewrite csum_pair. unfold transform. cbn [fst snd cscale]. f_equal.
  - rewrite (rsum_ext' _ (fun i => rsum (map (fun x => c i * (f i x * (fst (phase e m x) * fst (F x) - snd (phase e m x) * snd (F x)))) grid))) by (intros i _; rewrite rsum_scl; reflexivity).
    rewrite rsum_swap. apply rsum_ext'. intros x _. rewrite <- rsum_scr. apply rsum_ext'. intros i _. ring.
  - rewrite (rsum_ext' _ (fun i => rsum (map (fun x => c i * (f i x * (fst (phase e m x) * snd (F x) + snd (phase e m x) * fst (F x)))) grid))) by (intros i _; rewrite rsum_scl; reflexivity).
    rewrite rsum_swap. apply rsum_ext'. intros x _. rewrite <- rsum_scr. apply rsum_ext'. intros i _. ring.
Qed.
Lemma transform_ext f g F m : (forall x, In x grid -> f x = g x) -> transform' f F m = transform' g F m.
Proof using. intros H. unfold transform. f_equal; apply rsum_ext'; intros x I; rewrite (H x I); reflexivity. Qed.
Lemma transform_scale c f F m : transform' (fun x => c * f x) F m = cscale c (transform' f F m).
Proof using. unfold transform, cscale. cbn [fst snd]. rewrite <- !rsum_scl. f_equal; apply rsum_ext'; intros x _; ring. Qed.
Lemma range_orders l : range_m (Z.of_nat l) = orders l.
Proof using. unfold range_m, orders. replace (Z.to_nat (2 * Z.of_nat l + 1)) with (2 * l + 1)%nat by lia. reflexivity. Qed.

Lemma aell_ok l k : (forall x, In x grid -> norm2 (position' x) <> 0) -> norm2 (kc k) <> 0 ->
  Aell' (Z.of_nat l) k = cscale (INR (2 * l + 1) * volume * comp2 k) (transform' (fun x => rlegendre l (cosine (kc k) (position' x))) F2 (false, k)).
Proof using.
  intros HX HK. unfold Aell. rewrite Nat2Z.id, range_orders.
  rewrite (map_ext _ (fun m => cscale (real_Ylm l m (khat kc k)) (transform' (fun x => real_Ylm l m (xhat xc center cell x)) F2 (false, k)))) by (intros m; rewrite <- r2c_transform; reflexivity).
  rewrite transform_sum.
  rewrite (transform_ext _ (fun x => INR (2 * l + 1) / (4 * PI) * rlegendre l (cosine (kc k) (position' x)))).
  - rewrite transform_scale. pose proof PI_RGT_0. unfold cscale. cbn [fst snd]. f_equal; field; lra.
  - intros x I. unfold khat. destruct (ceq0 (sqrt (norm2 (kc k)))) eqn:Z; [apply ceq0_iff, sqrt_eq_0 in Z; [contradiction|apply norm2_nonneg]|].
    unfold xhat. rewrite xpos_position. specialize (HX x I). pose proof (real_addition_all l _ _ (unit_over _ HK) (unit_over _ HX)) as E. rewrite dot_over in E by assumption.
    pose proof PI_RGT_0. apply (Rmult_eq_reg_l (4 * PI)); [|lra]. rewrite E. field. lra.
Qed.
Lemma a0_ok k : A0' k = cscale (INR (2 * 0 + 1) * volume * comp2 k) (transform' (fun x => rlegendre 0 (cosine (kc k) (position' x))) F2 (false, k)).
Proof using. unfold A0. rewrite r2c_plain. unfold rlegendre. cbn [rleg2 fst]. unfold cscale. cbn [fst snd Nat.mul Nat.add INR]. f_equal; ring. Qed.
Lemma power_estimate A l k : A k = cscale (INR (2 * l + 1) * volume * comp2 k) (transform' (fun x => rlegendre l (cosine (kc k) (position' x))) F2 (false, k)) ->
  power' A k = estimate' l (false, k).
Proof using.
  intros E. unfold power3d, estimate. rewrite E. unfold A0. rewrite r2c_plain. unfold wave. cbn [fst snd]. unfold cscale, cmul, conj. cbn [fst snd]. f_equal; ring.
Qed.
Lemma mirror_estimate l k : (forall x, snd (F1 x) = 0) -> (forall x, snd (F2 x) = 0) -> Nat.even l = true ->
  estimate' l (true, k) = conj (estimate' l (false, k)).
Proof using.
  intros R1 R2 EV. assert (T : forall f F, (forall x, snd (F x) = 0) -> transform' f F (true, k) = conj (transform' f F (false, k))).
  { intros f F H. unfold transform, conj, phase. cbn [fst snd]. f_equal; [apply rsum_ext'; intros x _; rewrite H; ring|].
    rewrite <- Ropp_mult_distr_l_reverse || idtac. replace (- rsum (map (fun x => f x * (fst (e k x) * snd (F x) + snd (e k x) * fst (F x))) grid)) with ((-1) * rsum (map (fun x => f x * (fst (e k x) * snd (F x) + snd (e k x) * fst (F x))) grid)) by ring.
    rewrite <- rsum_scl. apply rsum_ext'. intros x _. rewrite H. ring. }
  unfold estimate. rewrite (T _ F1 R1). cbn [wave fst snd].
  rewrite (transform_ext (fun x => rlegendre l (cosine (wave kc (true, k)) (position' x))) (fun x => rlegendre l (cosine (kc k) (position' x)))) by (intros x _; unfold wave; cbn [fst snd]; rewrite cosine_opp; apply even_legendre, EV).
  rewrite (T _ F2 R2). unfold wave, conj. cbn [fst snd]. f_equal; ring.
Qed.
(* the mode and its mirror *)
Lemma weighted_estimate A l k : A k = cscale (INR (2 * l + 1) * volume * comp2 k) (transform' (fun x => rlegendre l (cosine (kc k) (position' x))) F2 (false, k)) ->
  (compressed = true -> Nat.even l = true /\ (forall x, snd (F1 x) = 0) /\ (forall x, snd (F2 x) = 0)) ->
  let more := if compressed && rltb 0 (snd (kc k)) then estimate' l (true, k) else (0, 0) in
  weighted kc compressed (power' A) k = (fst (estimate' l (false, k)) + fst more, snd (estimate' l (false, k)) + snd more).
Proof using.
  intros E H. cbn zeta. unfold weighted, nonsingular. rewrite (power_estimate A l k E). destruct (compressed && rltb 0 (snd (kc k))) eqn:C.
  - apply andb_true_iff in C. destruct C as [C _]. destruct (H C) as (EV & R1 & R2). rewrite (mirror_estimate l k R1 R2 EV). unfold conj. cbn [fst snd]. f_equal; ring.
  - cbn [fst snd]. rewrite !Rplus_0_r. apply surjective_pairing.
Qed.

End Main.

(* ---- bins ---- *)
Section Bins.
Context {K : Type}.
Variable modes : list K.
Variable kc : K -> point.
Variable compressed : bool.
Variable kedges : list R.
Hypothesis KS : StronglySorted Rle kedges.
Hypothesis KP : Forall (fun v => 0 <= v) kedges.
Definition inshell (b : nat) (k : K) : bool := rleb (nth b kedges 0) (length3 (kc k)) && rltb (length3 (kc k)) (nth (S b) kedges 0).
Lemma mu_bin k : exists d, rdigitize [-1; 1] (kmu kc k) = Ok d /\ (d = 1 \/ d = 2)%nat.
Proof using.
  pose proof (mu_range kc k) as [A B]. unfold rdigitize. cbn [rnondec]. rewrite (proj2 (rleb_iff (-1) 1)) by lra. cbn [andb]. eexists. split; [reflexivity|]. cbn [filter].
  rewrite (proj2 (rleb_iff (-1) _)) by exact A. destruct (rleb 1 (kmu kc k)); [right|left]; reflexivity.
Qed.
Lemma rall_map_ok {A B} (f : A -> res B) (g : A -> B) : forall l, (forall x, f x = Ok (g x)) -> rall (map f l) = Ok (map g l).
Proof using. intros l H. induction l as [|x l IH]; [reflexivity|]. cbn [map rall]. rewrite H. cbn [rbind]. rewrite IH. reflexivity. Qed.
Lemma combine_maps {A B C} (f : A -> B) (g : A -> C) : forall l, combine (combine (map f l) (map g l)) l = map (fun k => ((f k, g k), k)) l.
Proof using. induction l as [|x l IH]; [reflexivity|]. cbn [map combine]. rewrite IH. reflexivity. Qed.
Lemma filter_mapped {A B} (f : A -> B) P : forall l, filter P (map f l) = map f (filter (fun x => P (f x)) l).
Proof using. induction l as [|x l IH]; [reflexivity|]. cbn [map filter]. destruct (P (f x)); cbn [map]; rewrite IH; reflexivity. Qed.
Definition mudig (k : K) : nat := match rdigitize [-1; 1] (kmu kc k) with Ok d => d | _ => 1%nat end.
Definition kdig (k : K) : nat := length (filter (fun v => rleb v (norm2 (kc k))) (map (fun v => v * v) kedges)).
Definition bsum (b : nat) (f : K -> R) : R := rsum (map f (filter (inshell b) modes)).
Lemma project_ok y : exists out, project modes kc compressed kedges y = Ok out /\
  b_k out = map (fun b => if ceq0 (bsum b (weight kc compressed)) then None else Some (bsum b (fun k => length3 (kc k) * weight kc compressed k) / bsum b (weight kc compressed))) (seq 0 (length kedges - 1)) /\
  b_power out = map (fun b => if ceq0 (bsum b (weight kc compressed)) then None else Some (bsum b (fun k => fst (weighted kc compressed y k)) / bsum b (weight kc compressed), bsum b (fun k => snd (weighted kc compressed y k)) / bsum b (weight kc compressed))) (seq 0 (length kedges - 1)) /\
  b_modes out = map (fun b => bsum b (weight kc compressed)) (seq 0 (length kedges - 1)).
Proof using KS KP.
  unfold project. rewrite (rall_map_ok _ kdig) by (intros k; unfold rdigitize; rewrite sorted_nondec by (apply sq_sorted; assumption); reflexivity). cbn [rbind].
  rewrite (rall_map_ok _ mudig) by (intros k; unfold mudig; destruct (mu_bin k) as (d & E & _); rewrite E; reflexivity). cbn [rbind]. rewrite combine_maps.
  assert (E : forall b f, (S b < length kedges)%nat -> rsum (map (fun c : (nat * nat) * K => f (snd c)) (filter (fun c => Nat.eqb (fst (fst c)) (S b) && (Nat.eqb (snd (fst c)) 1 || Nat.eqb (snd (fst c)) 2)) (map (fun k => (kdig k, mudig k, k)) modes))) = bsum b f).
  { intros b f L. rewrite filter_mapped, map_map. cbn [fst snd]. unfold bsum. f_equal. f_equal. apply filter_ext. intros k. unfold kdig. rewrite count_eq by (try (apply sq_sorted; assumption); rewrite map_length; exact L).
    rewrite !nth_sq. rewrite Forall_forall in KP. rewrite sqrt_between; [|apply KP, nth_In; lia|apply KP, nth_In; lia|apply norm2_nonneg].
    unfold inshell, length3. rewrite <- norm2_dot. replace (Nat.eqb (mudig k) 1 || Nat.eqb (mudig k) 2) with true; [apply andb_true_r|]. unfold mudig. destruct (mu_bin k) as (d & -> & [-> | ->]); reflexivity. }
  assert (L : forall b, bsum b (fun k => length3 (kc k) * weight kc compressed k) = bsum b (fun k => sqrt (norm2 (kc k)) * weight kc compressed k)) by (intros b; apply rsum_ext'; intros k _; rewrite norm2_dot; reflexivity).
  eexists. split; [reflexivity|]. cbn [b_k b_power b_modes]. split; [|split]; apply map_ext_in; intros b I; apply in_seq in I; rewrite ?L; rewrite (E b (weight kc compressed)) by lia.
  - rewrite (E b (fun k => sqrt (norm2 (kc k)) * weight kc compressed k)) by lia. reflexivity.
  - rewrite (E b (fun k => fst (weighted kc compressed y k))), (E b (fun k => snd (weighted kc compressed y k))) by lia. reflexivity.
  - reflexivity.
Qed.
(* sums over the modes with their mirrors *)
Notation shell' := (shell modes kc compressed kedges).
Lemma shell_sum b (phi : bool * K -> R) : rsum (map phi (shell' b)) =
  bsum b (fun k => phi (false, k) + (if compressed && rltb 0 (snd (kc k)) then phi (true, k) else 0)).
Proof using.
  unfold shell, bsum, all_modes. rewrite rsum_filter, rsum_flat, rsum_filter. apply rsum_ext'. intros k _. cbn [map rsum]. unfold wave at 1 2. cbn [fst snd]. fold (inshell b k).
  assert (W : rleb (nth b kedges 0) (length3 (wave kc (true, k))) && rltb (length3 (wave kc (true, k))) (nth (S b) kedges 0) = inshell b k) by (unfold wave, inshell; cbn [fst snd]; rewrite length3_opp; reflexivity).
  destruct (compressed && rltb 0 (snd (kc k))); cbn [map rsum]; rewrite ?W; destruct (inshell b k); ring.
Qed.
Lemma length_sum {A} (l : list A) : INR (length l) = rsum (map (fun _ => 1) l).
Proof using. induction l as [|x l IH]; [reflexivity|]. cbn [length map rsum]. rewrite S_INR, IH. ring. Qed.
Lemma weight_sum b : bsum b (weight kc compressed) = INR (length (shell' b)).
Proof using.
  rewrite length_sum, shell_sum. unfold bsum. apply rsum_ext'. intros k _. unfold weight, nonsingular. destruct (compressed && rltb 0 (snd (kc k))); ring.
Qed.
Lemma nil_len {A B} (l : list A) (x y : B) : (if ceq0 (INR (length l)) then x else y) = match l with [] => x | _ => y end.
Proof using. destruct l as [|a l]; [cbn; unfold ceq0; destruct (Req_EM_T 0 0); [reflexivity|lra]|]. replace (ceq0 _) with false; [reflexivity|]. symmetry. apply Bool.not_true_iff_false. intros H. apply ceq0_iff in H. cbn [length] in H. pose proof (pos_INR (length l)). rewrite S_INR in H. lra. Qed.
Lemma match_map {A B C} (f : A -> B) (l : list A) (x y : C) : match map f l with [] => x | _ => y end = match l with [] => x | _ => y end.
Proof using. destruct l; reflexivity. Qed.
Lemma k_mean b : (if ceq0 (bsum b (weight kc compressed)) then None else Some (bsum b (fun k => length3 (kc k) * weight kc compressed k) / bsum b (weight kc compressed))) = rmean (map (fun m => length3 (wave kc m)) (shell' b)).
Proof using.
  rewrite weight_sum, nil_len. unfold rmean. rewrite match_map, map_length. replace (bsum b (fun k => length3 (kc k) * weight kc compressed k)) with (rsum (map (fun m => length3 (wave kc m)) (shell' b))); [reflexivity|].
  rewrite shell_sum. unfold bsum. apply rsum_ext'. intros k _. unfold weight, nonsingular, wave. cbn [fst snd]. rewrite length3_opp. destruct (compressed && rltb 0 (snd (kc k))); ring.
Qed.
End Bins.

Section Mean.
Context {X K : Type}.
Variable grid : list X.
Variable xc : X -> point.
Variable e : K -> X -> comp.
Variable modes : list K.
Variable kc : K -> point.
Variable compressed : bool.
Variables center cell : point.
Variable volume norm : R.
Variables comp1 comp2 : K -> R.
Variables F1 F2 : X -> comp.
Notation position' := (position xc center cell).
Notation estimate' := (estimate grid xc e kc center cell volume norm comp1 comp2 F1 F2).
Notation Aell' := (Aell grid xc e kc center cell volume comp2 F2).
Variable kedges : list R.
Notation inshell' := (inshell kc kedges).
Notation bsum' := (bsum modes kc kedges).
Notation shell' := (shell modes kc compressed kedges).
Notation A0' := (A0 grid e volume comp2 F2).
Notation power' := (power3d grid e volume norm comp1 F1).
Notation transform' := (transform grid e).

Lemma power_mean A l b :
  (forall k, In k modes -> inshell' b k = true -> A k = cscale (INR (2 * l + 1) * volume * comp2 k) (transform' (fun x => rlegendre l (cosine (kc k) (position' x))) F2 (false, k))) ->
  (compressed = true -> Nat.even l = true /\ (forall x, snd (F1 x) = 0) /\ (forall x, snd (F2 x) = 0)) ->
  (if ceq0 (bsum' b (weight kc compressed)) then None else Some (bsum' b (fun k => fst (weighted kc compressed (power' A) k)) / bsum' b (weight kc compressed), bsum' b (fun k => snd (weighted kc compressed (power' A) k)) / bsum' b (weight kc compressed))) = cmean (map (estimate' l) (shell' b)).
Proof using.
  intros HA HC. rewrite (weight_sum modes kc compressed kedges), nil_len. unfold cmean. rewrite match_map, map_length, !map_map.
  replace (bsum' b (fun k => fst (weighted kc compressed (power' A) k))) with (rsum (map (fun m => fst (estimate' l m)) (shell' b))).
  - replace (bsum' b (fun k => snd (weighted kc compressed (power' A) k))) with (rsum (map (fun m => snd (estimate' l m)) (shell' b))); [reflexivity|].
    rewrite (shell_sum modes kc compressed kedges). unfold bsum. apply rsum_ext'. intros k I. apply filter_In in I. rewrite (weighted_estimate grid xc e kc compressed center cell volume norm comp1 comp2 F1 F2 A l k (HA k (proj1 I) (proj2 I)) HC). cbn [fst snd]. destruct (compressed && rltb 0 (snd (kc k))); reflexivity.
  - rewrite (shell_sum modes kc compressed kedges). unfold bsum. apply rsum_ext'. intros k I. apply filter_In in I. rewrite (weighted_estimate grid xc e kc compressed center cell volume norm comp1 comp2 F1 F2 A l k (HA k (proj1 I) (proj2 I)) HC). cbn [fst snd]. destruct (compressed && rltb 0 (snd (kc k))); reflexivity.
Qed.
End Mean.
