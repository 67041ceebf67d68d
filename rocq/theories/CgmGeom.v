From Verif Require Import Base BaseProofs Num RanksSpec DaSpec FiberModel FiberProofs FiberMore CgmModel CgmSpec CgmProofs CgmLocal CgmGlobal CgmFinal.
From Coq Require Import Sorted Permutation Lqa.
Local Open Scope nat_scope.

Lemma half_two : (half + half = 1)%Qc. Proof. apply Qc_is_canon. reflexivity. Qed.
Lemma half_dbl : forall b : Qc, (b * half + b * half = b)%Qc. Proof. intros b. rewrite <- Qcmult_plus_distr_r, half_two. ring. Qed.
Lemma qleb_no : forall a b, qleb a b = false -> (b < a)%Qc.
Proof. intros a b H. destruct (Qclt_le_dec b a) as [L|L]; [exact L|]. apply qleb_iff in L. congruence. Qed.
Lemma qltb_no : forall a b, qltb a b = false -> (b <= a)%Qc.
Proof. intros a b H. destruct (Qclt_le_dec a b) as [L|L]; [|exact L]. apply qltb_iff in L. congruence. Qed.
Lemma sq_nonneg : forall a : Qc, (0 <= a * a)%Qc.
Proof. intros a. unfold Qcle, Qcmult, Q2Qc. cbn [this]. rewrite !Qred_correct. destruct (Qlt_le_dec (this a) 0) as [L|L]; [|apply Qmult_le_0_compat; exact L].
  setoid_replace (this a * this a)%Q with ((- this a) * (- this a))%Q by ring. apply Qmult_le_0_compat; lra. Qed.
Lemma qabs_le : forall x r, qleb (qabs x) r = true <-> (- r <= x)%Qc /\ (x <= r)%Qc.
Proof.
  intros x r. rewrite qleb_iff. unfold qabs. destruct (qltb x 0) eqn:E; [apply qltb_iff in E|apply qltb_no in E]; split; [intros H|intros [H1 H2]|intros H|intros [H1 H2]]; try split; qc_lra.
Qed.
Lemma wrap_image : forall box d, (- box < d)%Qc -> (d < box)%Qc -> image box d (wrap box d).
Proof.
  intros box d H1 H2. unfold wrap, image. pose proof (half_dbl box) as Hh. set (h := (box * half)%Qc) in *. destruct (qltb h d) eqn:E1; [apply qltb_iff in E1|apply qltb_no in E1].
  - destruct (qleb (d - box) (- h)) eqn:E2; [apply qleb_iff in E2; exfalso; qc_lra|apply qleb_no in E2]. split; [exists (-1)%Z; change (zq (-1)) with (- (1))%Qc; ring|]. split; qc_lra.
  - destruct (qleb d (- h)) eqn:E2; [apply qleb_iff in E2|apply qleb_no in E2].
    + split; [exists 1%Z; rewrite zq_1; ring|]. split; qc_lra.
    + split; [exists 0%Z; rewrite zq_0; ring|]. split; qc_lra.
Qed.
Lemma image_unique : forall box d e e', image box d e -> image box d e' -> e = e'.
Proof.
  intros box d e e' [[k Hk] [A B]] [[k' Hk'] [A' B']]. assert (Hb : (0 < box)%Qc) by qc_lra.
  assert (Hd : (e - e' = zq (k - k') * box)%Qc). { replace (k - k')%Z with (k + - k')%Z by lia. rewrite zq_add, zq_opp, Hk, Hk'. ring. }
  destruct (Z.lt_trichotomy (k - k') 0) as [H|[H|H]].
  - exfalso. assert (L : (zq (k - k') <= zq (-1))%Qc) by (apply (proj1 (zq_le _ _)); lia). apply (Qcmult_le_compat_r _ _ box) in L; [|apply Qclt_le_weak; exact Hb]. rewrite <- Hd in L. replace (zq (-1) * box)%Qc with (- box)%Qc in L by (change (zq (-1)) with (- (1))%Qc; ring). clear Hd Hk Hk'. qc_lra.
  - rewrite H, zq_0 in Hd. replace e with (e - e' + e')%Qc by ring. rewrite Hd. ring.
  - exfalso. assert (L : (zq 1 <= zq (k - k'))%Qc) by (apply (proj1 (zq_le _ _)); lia). apply (Qcmult_le_compat_r _ _ box) in L; [|apply Qclt_le_weak; exact Hb]. rewrite <- Hd in L. rewrite zq_1, Qcmult_1_l in L. clear Hd Hk Hk'. qc_lra.
Qed.
Lemma apart_difference : forall boxsize p q, in_box boxsize p -> in_box boxsize q -> apart boxsize p q (difference boxsize p q).
Proof.
  intros [[[bx by_] bz]|] [[x y] z] [[x' y'] z'] Hp Hq; unfold apart, difference, px, py, pz; cbn [fst snd]; [|auto].
  unfold in_box, px, py, pz in Hp, Hq. cbn [fst snd] in Hp, Hq. destruct Hp as [[P1 P2] [[P3 P4] [P5 P6]]]. destruct Hq as [[Q1 Q2] [[Q3 Q4] [Q5 Q6]]].
  split; [apply wrap_image; qc_lra|]. split; apply wrap_image; qc_lra.
Qed.
Lemma apart_unique : forall boxsize p q d d', apart boxsize p q d -> apart boxsize p q d' -> d = d'.
Proof.
  intros [b|] p q [[x y] z] [[x' y'] z'] H H'; unfold apart, px, py, pz in H, H'; cbn [fst snd] in H, H'; destruct H as [H1 [H2 H3]]; destruct H' as [H1' [H2' H3']]; [|congruence].
  rewrite (image_unique _ _ _ _ H1 H1'), (image_unique _ _ _ _ H2 H2'), (image_unique _ _ _ _ H3 H3'). reflexivity.
Qed.
Lemma dot_scalar : forall p q, dot p q = scalar p q. Proof. intros [[x y] z] [[x' y'] z']. reflexivity. Qed.
Lemma scalar_half : forall d c, scalar d (half * px c, half * py c, half * pz c)%Qc = (half * scalar d c)%Qc.
Proof. intros d c. unfold scalar, px, py, pz. cbn [fst snd]. ring. Qed.
Lemma scalar_comm : forall p q, scalar p q = scalar q p. Proof. intros. unfold scalar. ring. Qed.
Lemma half_ne : half <> 0%Qc. Proof. discriminate. Qed.
Lemma qmul_zero : forall a b : Qc, (a * b = 0)%Qc -> a = 0%Qc \/ b = 0%Qc.
Proof. intros a b H. destruct (Qc_eq_dec a 0) as [E|E]; [left; exact E|right]. apply Qcmult_integral_l in H; [exact H|exact E]. Qed.
Lemma qmul_cancel : forall c a b : Qc, c <> 0%Qc -> (c * a = c * b)%Qc -> a = b.
Proof. intros c a b Hc E. assert (G : (c * (a - b) = 0)%Qc) by (rewrite Qcmult_comm; unfold Qcminus; rewrite Qcmult_plus_distr_l, (Qcmult_comm a c), E; ring). apply qmul_zero in G. destruct G as [G|G]; [contradiction|]. replace a with (a - b + b)%Qc by ring. rewrite G. ring. Qed.
Definition los2 (los : option point) (p q d : point) : option Qc :=
  match los with
  | Some n => Some (dot d n * dot d n)%Qc
  | None => let '(x, y, z) := p in let '(x', y', z') := q in
            let c := (half * (x + x'), half * (y + y'), half * (z + z'))%Qc in
            if Qc_eq_dec (dot c c) 0 then None else Some (dot d c * dot d c / dot c c)%Qc
  end.
Lemma los2_along : forall los p q d l2, los2 los p q d = Some l2 <-> along los p q d l2.
Proof.
  intros [n|] p q d l2; unfold los2, along.
  - rewrite !dot_scalar. split; [intros E; injection E as <-; reflexivity|intros ->; reflexivity].
  - destruct p as [[x y] z]. destruct q as [[x' y'] z']. cbv zeta. unfold px at 1, py at 1, pz at 1. cbn [fst snd].
    set (c := (half * (x + x'), half * (y + y'), half * (z + z'))%Qc). set (C := (x + px (x', y', z'), y + py (x', y', z'), z + pz (x', y', z'))%Qc).
    change (px (x, y, z)) with x. change (py (x, y, z)) with y. change (pz (x, y, z)) with z. fold C.
    assert (E1 : forall e, dot e c = (half * scalar e C)%Qc) by (intros e; rewrite dot_scalar; exact (scalar_half e C)).
    assert (E2 : dot c c = (half * half * scalar C C)%Qc). { rewrite E1, (scalar_comm c C). rewrite <- dot_scalar, E1. ring. }
    rewrite E2, E1. pose proof half_ne as Hh. destruct (Qc_eq_dec (half * half * scalar C C) 0) as [E|E].
    + split; [discriminate|]. intros [H _]. apply qmul_zero in E. destruct E as [E|E]; [apply qmul_zero in E; destruct E; contradiction|contradiction].
    + assert (HC : scalar C C <> 0%Qc). { intros G. apply E. rewrite G. ring. }
      split.
      * intros G. injection G as <-. split; [exact HC|]. field. split; assumption.
      * intros [_ G]. f_equal. apply (qmul_cancel (scalar C C)); [exact HC|]. rewrite (Qcmult_comm _ l2), G. field. split; assumption.
Qed.
Lemma valid_eq : forall los boxsize a b p q, valid los boxsize a b p q =
  match los2 los p q (difference boxsize p q) with None => false | Some l2 => qleb (qabs (dot (difference boxsize p q) (difference boxsize p q) - l2)) a && qleb l2 b end.
Proof. intros [n|] boxsize a b [[x y] z] [[x' y'] z']; reflexivity. Qed.
Lemma valid_iff : forall los boxsize rperp rpar p q, in_box boxsize p -> in_box boxsize q ->
  valid los boxsize (rperp * rperp) (rpar * rpar) p q = true <-> in_cylinder los boxsize rperp rpar p q.
Proof.
  intros los boxsize rperp rpar p q Hp Hq. rewrite valid_eq. pose proof (apart_difference boxsize p q Hp Hq) as Ha. set (d := difference boxsize p q) in *. unfold in_cylinder. split.
  - destruct (los2 los p q d) as [l2|] eqn:E; [|discriminate]. apply los2_along in E. intros H. apply andb_true_iff in H. destruct H as [H1 H2]. apply qabs_le in H1. apply qleb_iff in H2. rewrite dot_scalar in H1. exists d, l2. tauto.
  - intros [d' [l2 [A [B [C D]]]]]. rewrite (apart_unique _ _ _ _ _ A Ha) in *. apply los2_along in B. rewrite B. apply andb_true_iff. rewrite qabs_le, qleb_iff, dot_scalar. tauto.
Qed.
Lemma cylinder_within : forall los boxsize rperp rpar p q, in_cylinder los boxsize rperp rpar p q -> within boxsize (rperp * rperp + rpar * rpar) p q.
Proof. intros los boxsize rperp rpar p q [d [l2 [A [B [C [D E]]]]]]. exists d. split; [exact A|]. qc_lra. Qed.
Lemma sq_zero : forall a b c : Qc, (a * a + b * b + c * c = 0)%Qc -> a = 0%Qc /\ b = 0%Qc /\ c = 0%Qc.
Proof.
  intros a b c H. pose proof (sq_nonneg a). pose proof (sq_nonneg b). pose proof (sq_nonneg c). assert (a * a = 0)%Qc by qc_lra. assert (b * b = 0)%Qc by qc_lra. assert (c * c = 0)%Qc by qc_lra.
  split; [|split]; match goal with |- ?x = _ => destruct (qmul_zero x x ltac:(assumption)); assumption end.
Qed.
Lemma cylinder_self : forall los boxsize rperp rpar p, in_box boxsize p -> (los = None -> p <> (0, 0, 0)%Qc) -> in_cylinder los boxsize rperp rpar p p.
Proof.
  intros los boxsize rperp rpar p Hb Hl. exists (0, 0, 0)%Qc, 0%Qc. pose proof (sq_nonneg rperp). pose proof (sq_nonneg rpar). split; [|split; [|split; [assumption|]]].
  - destruct p as [[x y] z]. unfold apart, in_box, px, py, pz in *. cbn [fst snd] in *. destruct boxsize as [[[bx by_] bz]|]; cbn [fst snd] in *.
    + assert (G : forall u b : Qc, (0 <= u)%Qc -> (u < b)%Qc -> image b (u - u) 0). { intros u b H1 H2. split; [exists 0%Z; rewrite zq_0; ring|]. split; qc_lra. }
      destruct Hb as [[P1 P2] [[P3 P4] [P5 P6]]]. split; [apply G; assumption|]. split; apply G; assumption.
    + split; [ring|]. split; ring.
  - destruct los as [n|]; unfold along; [unfold scalar, px, py, pz; cbn [fst snd]; ring|]. split; [|unfold scalar, px, py, pz; cbn [fst snd]; ring]. intros G. unfold scalar in G. unfold px, py, pz in G. cbn [fst snd] in G. apply sq_zero in G. destruct G as [G1 [G2 G3]].
    apply (Hl eq_refl). destruct p as [[x y] z]. cbn [fst snd] in *. assert (D : forall u : Qc, (u + u = 0)%Qc -> u = 0%Qc) by (intros u Hu; qc_lra). rewrite (D _ G1), (D _ G2), (D _ G3). reflexivity.
  - unfold scalar, px, py, pz. cbn [fst snd]. split; [replace (0 * 0 + 0 * 0 + 0 * 0 - 0)%Qc with 0%Qc by ring; qc_lra|replace (0 * 0 + 0 * 0 + 0 * 0 - 0)%Qc with 0%Qc by ring; assumption].
Qed.
