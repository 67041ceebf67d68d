From Verif Require Import Base.
From Coq Require Import Reals Lra Lia Permutation Sorted.
From Verif Require Import RandModel RandProofs ThreeModel ThreeSpec ThreeProofs ThreeMain YlmModel YlmSpec YlmProofs YlmMain ConvModel ConvSpec ConvProofs.
Local Open Scope R_scope.

(* ---- sorted poles ---- *)
Lemma zinsert_perm x : forall l, Permutation (x :: l) (zinsert x l).
Proof. induction l as [|y l IH]; [apply Permutation_refl|]. cbn [zinsert]. destruct (x <=? y)%Z; [apply Permutation_refl|]. eapply perm_trans; [apply perm_swap|]. apply perm_skip, IH. Qed.
Lemma zsort_perm : forall l, Permutation l (zsort l).
Proof. induction l as [|x l IH]; [apply perm_nil|]. cbn [zsort fold_right]. eapply perm_trans; [apply perm_skip, IH|apply zinsert_perm]. Qed.
Lemma zinsert_sorted x : forall l, StronglySorted Z.le l -> StronglySorted Z.le (zinsert x l).
Proof.
  induction l as [|y l IH]; intros H; [repeat constructor|]. inversion H as [|? ? H1 H2]; subst. cbn [zinsert]. destruct (x <=? y)%Z eqn:E.
  - constructor; [exact H|]. constructor; [lia|]. rewrite Forall_forall in *. intros z I. specialize (H2 z I). lia.
  - constructor; [apply IH, H1|]. rewrite Forall_forall in *. intros z I. apply (Permutation_in _ (Permutation_sym (zinsert_perm x l))) in I. destruct I as [<-|I]; [lia|apply H2, I].
Qed.
Lemma zsort_sorted : forall l, StronglySorted Z.le (zsort l).
Proof. induction l as [|x l IH]; [constructor|apply zinsert_sorted, IH]. Qed.
Lemma distinct_iff : forall l, distinct l = true <-> NoDup l.
Proof.
  induction l as [|x l IH]; [split; [constructor|reflexivity]|]. cbn [distinct]. rewrite andb_true_iff, IH, negb_true_iff. split.
  - intros [A B]. constructor; [|exact B]. intros I. apply Bool.not_true_iff_false in A. apply A. apply existsb_exists. exists x. split; [exact I|apply Z.eqb_refl].
  - intros H. inversion H as [|? ? A B]; subst. split; [|exact B]. apply Bool.not_true_iff_false. intros Q. apply existsb_exists in Q. destruct Q as (y & I & E). apply Z.eqb_eq in E. subst. contradiction.
Qed.
Lemma has0_iff l : existsb (Z.eqb 0) l = true <-> In 0%Z l.
Proof. rewrite existsb_exists. split; [intros (y & I & E); apply Z.eqb_eq in E; subst; exact I|intros I; exists 0%Z; split; [exact I|reflexivity]]. Qed.
(* the list of multipoles starts with 0 and holds the others in order *)
Lemma ells_form (poles : list nat) : NoDup poles -> exists higher,
  (if existsb (Z.eqb 0) (zsort (map Z.of_nat poles)) then zsort (map Z.of_nat poles) else 0%Z :: zsort (map Z.of_nat poles)) = 0%Z :: map Z.of_nat higher /\
  (if existsb (Z.eqb 0) (zsort (map Z.of_nat poles)) then Permutation poles (O :: higher) else Permutation poles higher) /\
  (existsb (Z.eqb 0) (zsort (map Z.of_nat poles)) = true <-> In O poles) /\ ~ In O higher.
Proof.
  intros ND. set (zs := zsort (map Z.of_nat poles)). pose proof (zsort_perm (map Z.of_nat poles)) as P. fold zs in P. pose proof (zsort_sorted (map Z.of_nat poles)) as SS. fold zs in SS.
  assert (POS : forall z, In z zs -> (0 <= z)%Z) by (intros z I; apply (Permutation_in _ (Permutation_sym P)) in I; apply in_map_iff in I; destruct I as (n & <- & _); lia).
  assert (MAP : forall l, (forall z, In z l -> (0 <= z)%Z) -> map Z.of_nat (map Z.to_nat l) = l) by (intros l H; rewrite map_map, <- (map_id l) at 1; rewrite map_id; induction l as [|z l IH]; [reflexivity|]; cbn [map]; rewrite Z2Nat.id by (apply H; left; reflexivity); f_equal; apply IH; intros; apply H; right; assumption).
  assert (BACK : map Z.to_nat (map Z.of_nat poles) = poles) by (rewrite map_map, <- (map_id poles) at 1; rewrite map_id; clear; induction poles as [|n l IH]; [reflexivity|]; cbn [map]; rewrite Nat2Z.id, IH; reflexivity).
  assert (IN0 : existsb (Z.eqb 0) zs = true <-> In O poles).
  { rewrite has0_iff. split; intros I.
    - apply (Permutation_in _ (Permutation_sym P)) in I. apply in_map_iff in I. destruct I as (n & E & I). replace O with n by lia. exact I.
    - apply (Permutation_in _ P). change 0%Z with (Z.of_nat 0). apply in_map, I. }
  destruct (existsb (Z.eqb 0) zs) eqn:E.
  - assert (I0 : In 0%Z zs) by (apply has0_iff, E). destruct zs as [|z zs'] eqn:Z0; [destruct I0|]. inversion SS as [|? ? S1 S2]; subst.
    assert (z = 0%Z) by (destruct I0 as [?|I0]; [assumption|]; rewrite Forall_forall in S2; specialize (S2 0%Z I0); specialize (POS z (or_introl eq_refl)); lia). subst z.
    assert (PP : Permutation poles (O :: map Z.to_nat zs')) by (rewrite <- BACK; change O with (Z.to_nat 0); apply (Permutation_map Z.to_nat) in P; exact P).
    exists (map Z.to_nat zs'). split; [rewrite MAP by (intros; apply POS; right; assumption); reflexivity|]. split; [exact PP|]. split; [exact IN0|].
    intros I. apply (Permutation_NoDup PP) in ND. inversion ND; contradiction.
  - assert (PP : Permutation poles (map Z.to_nat zs)) by (rewrite <- BACK; apply Permutation_map, P).
    exists (map Z.to_nat zs). split; [rewrite MAP by exact POS; reflexivity|]. split; [exact PP|]. split; [exact IN0|].
    intros I. apply (Permutation_in _ (Permutation_sym PP)) in I. apply IN0 in I. discriminate.
Qed.

Section Compute.
Context {X K : Type}.
Variable grid : list X.
Variable xc : X -> point.
Variable e : K -> X -> comp.
Variable modes : list K.
Variable kc : K -> point.
Variable compressed : bool.
Variables center cell : point.
Variable volume norm : R.
Variables comp1 comp2 : K -> R.
Variables F1 F2 : X -> comp.
Variable poles : list nat.
Variable kedges : list R.
Hypothesis PN : poles <> [].
Hypothesis PD : NoDup poles.
Hypothesis KN : kedges <> [].
Hypothesis KS : StronglySorted Rle kedges.
Hypothesis KP : Forall (fun v => 0 <= v) kedges.
Hypothesis XN : forall x, In x grid -> length3 (position xc center cell x) <> 0.
Hypothesis RF : compressed = true -> (forall x, snd (F1 x) = 0) /\ (forall x, snd (F2 x) = 0).
Notation shell' := (shell modes kc compressed kedges).
Notation estimate' := (estimate grid xc e kc center cell volume norm comp1 comp2 F1 F2).
Notation nb := (length kedges - 1)%nat.
(* a projection of the multipole l *)
Definition good (l : Z) (p : Z * bins) : Prop :=
  fst p = l /\ b_modes (snd p) = map (fun b => INR (length (shell' b))) (seq 0 nb) /\
  b_k (snd p) = map (fun b => rmean (map (fun m => length3 (wave kc m)) (shell' b))) (seq 0 nb) /\
  length (b_power (snd p)) = nb /\
  forall b, (b < nb)%nat -> (compressed = true -> Nat.even (Z.to_nat l) = true) -> (l = 0%Z \/ forall m, In m (shell' b) -> length3 (wave kc m) <> 0) ->
    nth_error (b_power (snd p)) b = Some (cmean (map (estimate' (Z.to_nat l)) (shell' b))).
Lemma length3_norm p : length3 p <> 0 -> norm2 p <> 0.
Proof using. intros H E. apply H. unfold length3. rewrite <- norm2_dot, E. apply sqrt_0. Qed.
Lemma project_good l A : (forall b, (b < nb)%nat -> (Z.of_nat l = 0%Z \/ forall m, In m (shell' b) -> length3 (wave kc m) <> 0) -> forall k, In k modes -> inshell kc kedges b k = true ->
    A k = cscale (INR (2 * l + 1) * volume * comp2 k) (transform grid e (fun x => rlegendre l (cosine (kc k) (position xc center cell x))) F2 (false, k))) ->
  exists b, project modes kc compressed kedges (power3d grid e volume norm comp1 F1 A) = Ok b /\ good (Z.of_nat l) (Z.of_nat l, b).
Proof using KS KP RF.
  intros HA. destruct (project_ok modes kc compressed kedges KS KP (power3d grid e volume norm comp1 F1 A)) as (out & E & B1 & B2 & B3).
  exists out. split; [exact E|]. unfold good. cbn [fst snd]. split; [reflexivity|]. split; [rewrite B3; apply map_ext; intros b; apply weight_sum|].
  split; [rewrite B1; apply map_ext; intros b; apply k_mean|]. split; [rewrite B2, map_length, seq_length; reflexivity|].
  intros b Lb EV NZ. rewrite B2. rewrite (map_nth_error _ b (seq 0 nb) (d := b)); [|rewrite (nth_error_nth' _ O) by (rewrite seq_length; exact Lb); rewrite seq_nth by exact Lb; reflexivity].
  f_equal. rewrite Nat2Z.id in *. apply power_mean; [intros k I J; apply (HA b Lb NZ k I J)|]. intros C. split; [apply EV, C|apply RF, C].
Qed.
Lemma nonzero_shell b : (forall m, In m (shell' b) -> length3 (wave kc m) <> 0) -> forall k, In k modes -> inshell kc kedges b k = true -> norm2 (kc k) <> 0.
Proof using.
  intros H k I J. apply length3_norm. apply (H (false, k)). apply filter_In. split; [|exact J]. unfold all_modes. apply in_flat_map. exists k. split; [exact I|left; reflexivity].
Qed.
Lemma compute_ok : exists out,
  compute grid xc e modes kc compressed center cell volume norm comp1 comp2 F1 F2 (map Z.of_nat poles) kedges = Ok out /\
  Permutation (map fst (m_power out)) (map Z.of_nat poles) /\
  m_modes out = map (fun b => INR (length (shell' b))) (seq 0 nb) /\
  m_k out = map (fun b => rmean (map (fun m => length3 (wave kc m)) (shell' b))) (seq 0 nb) /\
  forall l col, In (Z.of_nat l, col) (m_power out) -> length col = nb /\
    forall b, (b < nb)%nat -> (compressed = true -> Nat.even l = true) -> (l = O \/ forall m, In m (shell' b) -> length3 (wave kc m) <> 0) ->
      nth_error col b = Some (cmean (map (estimate' l) (shell' b))).
Proof using All.
  unfold compute. rewrite (proj2 (distinct_iff (map Z.of_nat poles))) by (apply FinFun.Injective_map_NoDup; [intros a b; lia|exact PD]). cbn [negb].
  destruct kedges as [|k0 kr] eqn:KE; [contradiction|]. rewrite <- KE in *. clear k0 kr KE.
  destruct (ells_form poles PD) as (higher & E1 & E2 & E3 & E4). set (has0 := existsb (Z.eqb 0) (zsort (map Z.of_nat poles))) in *. cbn zeta. rewrite E1.
  replace (at_origin grid xc center cell) with false by (symmetry; apply Bool.not_true_iff_false; intros Q; apply existsb_exists in Q; destruct Q as (x & I & Z); apply ceq0_iff in Z; rewrite xpos_position in Z; apply (length3_norm _ (XN x I)), Z).
  cbn [andb].
  destruct (rall_ex (fun l => let! b := project modes kc compressed kedges (power3d grid e volume norm comp1 F1 (Aell grid xc e kc center cell volume comp2 F2 l)) in Ok (l, b)) good (map Z.of_nat higher)) as (hi & HE & HF).
  { intros z I. apply in_map_iff in I. destruct I as (l & <- & I). destruct (project_good l (Aell grid xc e kc center cell volume comp2 F2 (Z.of_nat l))) as (b & Eb & G).
    - intros b Lb [Z0|NZ] k Ik J; [exfalso; apply E4; replace O with l by lia; exact I|]. apply aell_ok; [intros x Ix; apply length3_norm, XN, Ix|apply (nonzero_shell b NZ k Ik J)].
    - exists (Z.of_nat l, b). rewrite Eb. split; [reflexivity|exact G]. }
  rewrite HE. cbn [rbind].
  destruct (project_good 0 (A0 grid e volume comp2 F2)) as (b0 & Eb & G0); [intros b _ _ k _ _; apply a0_ok|].
  assert (HG : forall p, In p hi -> exists l, In l higher /\ good (Z.of_nat l) p).
  { intros p I. clear - I HF. remember (map Z.of_nat higher) as zs. revert higher Heqzs. induction HF as [|z q zs hi G HF IH]; intros higher E; [destruct I|]. destruct higher as [|l higher]; [discriminate|]. cbn [map] in E. injection E as -> ->.
    destruct I as [<-|I]; [exists l; split; [left; reflexivity|exact G]|]. destruct (IH I higher eq_refl) as (l' & I' & G'). exists l'. split; [right; exact I'|exact G']. }
  assert (KEYS : map fst hi = map Z.of_nat higher) by (clear - HF; induction HF as [|z q zs hi G HF IH]; [reflexivity|]; cbn [map]; rewrite IH; f_equal; apply G).
  set (lo := if has0 then [(0%Z, b0)] else []).
  assert (LO : (if has0 then let! b := project modes kc compressed kedges (power3d grid e volume norm comp1 F1 (A0 grid e volume comp2 F2)) in Ok [(0%Z, b)] else Ok []) = Ok lo) by (unfold lo; destruct has0; [rewrite Eb; reflexivity|reflexivity]).
  rewrite LO. cbn [rbind].
  assert (ALL : forall p, In p (hi ++ lo) -> exists l, good (Z.of_nat l) p).
  { intros p I. apply in_app_or in I. destruct I as [I|I]; [destruct (HG p I) as (l & _ & G); exists l; exact G|]. unfold lo in I. destruct has0; [destruct I as [<-|[]]; exists O; exact G0|destruct I]. }
  assert (KEYS2 : Permutation (map fst (lo ++ hi)) (map Z.of_nat poles)).
  { rewrite map_app, KEYS. unfold lo. destruct has0; cbn [map app fst]; [change (0%Z :: map Z.of_nat higher) with (map Z.of_nat (O :: higher))|]; apply Permutation_map, Permutation_sym; exact E2. }
  destruct (rev (hi ++ lo)) as [|[z b] r] eqn:RV.
  { exfalso. assert (N : hi ++ lo = []) by (rewrite <- (rev_involutive (hi ++ lo)), RV; reflexivity). apply app_eq_nil in N. destruct N as [N1 N2]. rewrite N1, N2 in KEYS2. cbn in KEYS2. apply Permutation_nil in KEYS2. apply PN. destruct poles; [reflexivity|discriminate]. }
  assert (IB : In (z, b) (hi ++ lo)) by (apply in_rev; rewrite RV; left; reflexivity). destruct (ALL _ IB) as (lb & Gb). destruct Gb as (_ & M1 & M2 & _). cbn [snd] in M1, M2.
  eexists. split; [reflexivity|]. cbn [m_power m_modes m_k]. split; [rewrite map_map; cbn [fst]; exact KEYS2|]. split; [exact M1|]. split; [exact M2|].
  intros l col I. apply in_map_iff in I. destruct I as ([z' b'] & E & I). injection E as E E'. subst z' col. cbn [snd].
  assert (I2 : In (Z.of_nat l, b') (hi ++ lo)) by (apply in_app_iff; apply in_app_iff in I; tauto). destruct (ALL _ I2) as (l' & G1 & _ & _ & G4 & G5). cbn [fst snd] in *. assert (l = l') by lia. subst l'.
  rewrite Nat2Z.id in G5. split; [exact G4|]. intros b1 Lb EV NZ. apply G5; [exact Lb|exact EV|]. destruct NZ as [->|NZ]; [left; reflexivity|right; exact NZ].
Qed.
End Compute.
