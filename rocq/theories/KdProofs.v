From Verif Require Import Base.
From Coq Require Import Reals Lra Permutation.
From Verif Require Import RandModel ThreeModel ThreeProofs SkyModel SkyProofs KdModel KdSpec.
Local Open Scope R_scope.
Local Notation length := List.length.

(* the periodic distance *)
Lemma axis_dist_unique L x y a b : axis_dist L x y a -> axis_dist L x y b -> a = b.
Proof. intros [(k & ->) Ha] [(j & ->) Hb]. apply Rle_antisym; auto. Qed.
Lemma torus_unique L p q a b : torus L p q a -> torus L p q b -> a = b.
Proof.
  destruct p as [[x y] z], q as [[u v] w]. cbn [torus].
  intros (a1 & a2 & a3 & A1 & A2 & A3 & ->) (b1 & b2 & b3 & B1 & B2 & B3 & ->).
  rewrite (axis_dist_unique _ _ _ _ _ A1 B1), (axis_dist_unique _ _ _ _ _ A2 B2), (axis_dist_unique _ _ _ _ _ A3 B3). reflexivity.
Qed.
Lemma frac_bounds u : 0 <= fmod u 1 < 1 /\ u = fmod u 1 + IZR (Int_part u).
Proof.
  unfold fmod. replace (u / 1) with u by field. destruct (base_Int_part u) as [A B]. split; [|ring]. split; lra.
Qed.
Lemma wrap_axis_dist L x y : 0 < L -> axis_dist L x y (L * wrap1 (fmod (x / L) 1) (fmod (y / L) 1)).
Proof.
  intros HL. destruct (frac_bounds (x / L)) as [[A1 A2] A3], (frac_bounds (y / L)) as [[B1 B2] B3].
  set (a := fmod (x / L) 1) in *. set (b := fmod (y / L) 1) in *.
  set (i := Int_part (x / L)) in *. set (j := Int_part (y / L)) in *.
  assert (Ex : x = L * (a + IZR i)) by (rewrite <- A3; field; lra).
  assert (Ey : y = L * (b + IZR j)) by (rewrite <- B3; field; lra).
  assert (D : Rabs (a - b) < 1) by (apply Rabs_def1; lra).
  assert (D0 := Rabs_pos (a - b)).
  assert (G : forall k, Rabs (x - y + IZR k * L) = L * Rabs (a - b + IZR (i - j + k))).
  { intros k. replace (x - y + IZR k * L) with (L * (a - b + IZR (i - j + k))).
    - rewrite Rabs_mult. rewrite (Rabs_pos_eq L) by lra. reflexivity.
    - rewrite plus_IZR, minus_IZR, Ex, Ey. ring. }
  unfold wrap1. split.
  - destruct (Rle_or_lt (Rabs (a - b)) (1 - Rabs (a - b))) as [Q|Q].
    + exists (j - i)%Z. rewrite G. rewrite Rmin_left by lra. replace (i - j + (j - i))%Z with 0%Z by lia. rewrite Rplus_0_r. reflexivity.
    + rewrite Rmin_right by lra. destruct (Rle_or_lt 0 (a - b)) as [P|P].
      * exists (j - i - 1)%Z. rewrite G. replace (i - j + (j - i - 1))%Z with (-1)%Z by lia.
        rewrite (Rabs_pos_eq (a - b)) by lra. rewrite (Rabs_left (a - b + -1)) by lra. ring.
      * exists (j - i + 1)%Z. rewrite G. replace (i - j + (j - i + 1))%Z with 1%Z by lia.
        rewrite (Rabs_left (a - b)) by lra. rewrite (Rabs_pos_eq (a - b + 1)) by lra. ring.
  - intros k. rewrite G. apply Rmult_le_compat_l; [lra|].
    destruct (Z.eq_dec (i - j + k) 0) as [Z|Z].
    + rewrite Z, Rplus_0_r. apply Rmin_l.
    + apply Rle_trans with (1 - Rabs (a - b)); [apply Rmin_r|].
      assert (1 <= Rabs (IZR (i - j + k))).
      { rewrite <- abs_IZR. apply (IZR_le 1). lia. }
      pose proof (Rabs_triang (a - b + IZR (i - j + k)) (- (a - b))) as T.
      replace (a - b + IZR (i - j + k) + - (a - b)) with (IZR (i - j + k)) in T by ring.
      rewrite Rabs_Ropp in T. lra.
Qed.
Lemma wrap1_pos u v : 0 <= u < 1 -> 0 <= v < 1 -> 0 <= wrap1 u v.
Proof. intros A B. unfold wrap1. apply Rmin_glb; [apply Rabs_pos|]. assert (Rabs (u - v) < 1) by (apply Rabs_def1; lra). lra. Qed.
Lemma kd_torus L p q : 0 < L -> torus L p q (L * kd_dist (to_unit L p) (to_unit L q)).
Proof.
  intros HL. destruct p as [[x y] z], q as [[u v] w]. cbn [torus to_unit kd_dist].
  exists (L * wrap1 (fmod (x / L) 1) (fmod (u / L) 1)), (L * wrap1 (fmod (y / L) 1) (fmod (v / L) 1)), (L * wrap1 (fmod (z / L) 1) (fmod (w / L) 1)).
  split; [apply wrap_axis_dist; exact HL|]. split; [apply wrap_axis_dist; exact HL|]. split; [apply wrap_axis_dist; exact HL|].
  set (a := wrap1 _ _). set (b := wrap1 _ _). set (c := wrap1 _ _).
  replace (L * a * (L * a) + L * b * (L * b) + L * c * (L * c)) with (L * L * (a * a + b * b + c * c)) by ring.
  rewrite sqrt_mult; [|nra|nra]. rewrite sqrt_square by lra. reflexivity.
Qed.

(* order statistics *)
Lemma insertR_perm x l : Permutation (insertR x l) (x :: l).
Proof.
  induction l as [|y l IH]; [apply Permutation_refl|]. cbn [insertR]. destruct (rleb x y); [apply Permutation_refl|].
  rewrite IH. apply perm_swap.
Qed.
Lemma sortR_perm l : Permutation (sortR l) l.
Proof. induction l as [|x l IH]; [apply Permutation_refl|]. unfold sortR in *. cbn [fold_right]. rewrite insertR_perm. apply perm_skip. exact IH. Qed.
Fixpoint sortedR (l : list R) : Prop := match l with [] => True | x :: l => (forall y, In y l -> x <= y) /\ sortedR l end.
Lemma insertR_sorted x l : sortedR l -> sortedR (insertR x l).
Proof.
  induction l as [|y l IH]; intros Hs; [cbn; auto; split; [intros y []|exact I]|]. cbn [insertR sortedR] in *. destruct Hs as [Hy Hs].
  destruct (rleb x y) eqn:E.
  - cbn [sortedR]. apply rleb_iff in E. split; [|split; assumption]. intros z [<-|Hz]; [exact E|]. specialize (Hy z Hz). lra.
  - cbn [sortedR]. split; [|apply IH; exact Hs]. intros z Hz. apply (Permutation_in _ (insertR_perm x l)) in Hz. destruct Hz as [<-|Hz]; [|apply Hy; exact Hz].
    destruct (Rle_or_lt x y) as [Q|Q]; [|lra]. apply rleb_iff in Q. congruence.
Qed.
Lemma sortR_sorted l : sortedR (sortR l).
Proof. induction l as [|x l IH]; [exact I|]. unfold sortR in *. cbn [fold_right]. apply insertR_sorted, IH. Qed.

Lemma filter_none {A} (f : A -> bool) l : (forall x, In x l -> f x = false) -> filter f l = [].
Proof. induction l as [|a l IH]; intros H; [reflexivity|]. cbn. rewrite (H a (or_introl eq_refl)). apply IH. intros x Hx. apply H. right; exact Hx. Qed.
Lemma filter_perm {A} (f : A -> bool) l l' : Permutation l l' -> Permutation (filter f l) (filter f l').
Proof.
  induction 1 as [|x l l' P IH|x y l|l l1 l2 P1 IH1 P2 IH2]; [apply Permutation_refl| | |].
  - cbn. destruct (f x); [apply perm_skip|]; exact IH.
  - cbn. destruct (f x), (f y); try apply Permutation_refl. apply perm_swap.
  - rewrite IH1. exact IH2.
Qed.
Lemma sorted_kth l k d : sortedR l -> nth_error l k = Some d -> kth l k d.
Proof.
  revert k d. induction l as [|x l IH]; intros k d Hs Hk; [destruct k; discriminate|]. destruct Hs as [Hx Hs]. destruct k as [|k]; cbn [nth_error] in Hk.
  - injection Hk as ->. split; [left; reflexivity|]. split.
    + rewrite filter_none; [cbn; lia|]. intros y Hy. destruct (rltb y d) eqn:E; [|reflexivity]. apply rltb_iff in E.
      destruct Hy as [<-|Hy]; [lra|]. specialize (Hx y Hy). lra.
    + cbn [filter]. assert (rleb d d = true) as -> by (apply rleb_iff; lra). cbn [length]. lia.
  - destruct (IH k d Hs Hk) as (I1 & I2 & I3). split; [right; exact I1|]. split.
    + cbn [filter]. destruct (rltb x d); cbn [length]; lia.
    + cbn [filter]. assert (rleb x d = true) as -> by (apply rleb_iff; apply Hx; exact I1). cbn [length]. lia.
Qed.
Lemma kth_perm l l' k d : Permutation l l' -> kth l k d -> kth l' k d.
Proof.
  intros P (A & B & C). split; [apply (Permutation_in _ P A)|].
  rewrite <- (Permutation_length (filter_perm (fun x => rltb x d) _ _ P)), <- (Permutation_length (filter_perm (fun x => rleb x d) _ _ P)). split; assumption.
Qed.
Lemma filter_sub_le {A} (f g : A -> bool) l : (forall x, f x = true -> g x = true) -> (length (filter f l) <= length (filter g l))%nat.
Proof. intros H. induction l as [|a l IH]; [cbn; lia|]. cbn. destruct (f a) eqn:E; [rewrite (H a E); cbn; lia|]. destruct (g a); cbn; lia. Qed.
Lemma kth_unique l k d e : kth l k d -> kth l k e -> d = e.
Proof.
  assert (H : forall d e, kth l k d -> kth l k e -> ~ d < e).
  { intros a b (_ & _ & C) (_ & B & _) Q.
    assert (length (filter (fun x => rleb x a) l) <= length (filter (fun x => rltb x b) l))%nat; [|lia].
    apply filter_sub_le. intros x Hx. apply rleb_iff in Hx. apply rltb_iff. lra. }
  intros A B. destruct (Rtotal_order d e) as [Q|[Q|Q]]; [exfalso; apply (H _ _ A B Q)|exact Q|exfalso; apply (H _ _ B A Q)].
Qed.
Lemma filter_le_length {A} (f : A -> bool) l : (length (filter f l) <= length l)%nat.
Proof. induction l as [|a l IH]; [cbn; lia|]. cbn. destruct (f a); cbn; lia. Qed.
Lemma sortR_nth l k d : nth_error (sortR l) k = Some d <-> kth l k d.
Proof.
  split.
  - intros H. apply (kth_perm _ _ _ _ (sortR_perm l)). apply sorted_kth; [apply sortR_sorted|exact H].
  - intros H. destruct (nth_error (sortR l) k) as [e|] eqn:E.
    + f_equal. apply (kth_unique l k); [|exact H]. apply (kth_perm _ _ _ _ (sortR_perm l)). apply sorted_kth; [apply sortR_sorted|exact E].
    + exfalso. apply nth_error_None in E. rewrite (Permutation_length (sortR_perm l)) in E. destruct H as (_ & _ & C).
      pose proof (filter_le_length (fun x => rleb x d) l). lia.
Qed.

(* part of the particles *)
Lemma filter_map {A B} (f : A -> B) (g : B -> bool) l : filter g (map f l) = map f (filter (fun x => g (f x)) l).
Proof. induction l as [|a l IH]; [reflexivity|]. cbn. rewrite IH. destruct (g (f a)); reflexivity. Qed.
Section Part.
Variables (n : nat) (f : nat -> R) (held : list nat).
Hypothesis Hnd : NoDup held.
Hypothesis Hn : forall q, In q held -> (q < n)%nat.
Lemma part_count (g : R -> bool) : (length (filter g (map f held)) <= length (filter g (map f (seq 0 n))))%nat.
Proof using Hnd Hn.
  rewrite !filter_map, !map_length. apply NoDup_incl_length; [apply NoDup_filter; exact Hnd|].
  intros q Hq. apply filter_In in Hq. apply filter_In. split; [|apply Hq]. apply in_seq. specialize (Hn q (proj1 Hq)). lia.
Qed.
Lemma part_count_eq (g : R -> bool) : (forall q, (q < n)%nat -> g (f q) = true -> In q held) -> length (filter g (map f held)) = length (filter g (map f (seq 0 n))).
Proof using Hnd Hn.
  intros H. apply Nat.le_antisymm; [apply part_count|]. rewrite !filter_map, !map_length. apply NoDup_incl_length; [apply NoDup_filter, seq_NoDup|].
  intros q Hq. apply filter_In in Hq. destruct Hq as [Hq G]. apply in_seq in Hq. apply filter_In. split; [apply H; [lia|exact G]|exact G].
Qed.
Lemma part_kth k d : kth (map f (seq 0 n)) k d -> (forall q, (q < n)%nat -> f q <= d -> In q held) -> kth (map f held) k d.
Proof using Hnd Hn.
  intros (A & B & C) H. split.
  - apply in_map_iff in A. destruct A as (q & Eq & Hq). apply in_seq in Hq. apply in_map_iff. exists q. split; [exact Eq|]. apply H; [lia|lra].
  - rewrite part_count_eq, part_count_eq; [split; assumption| |].
    + intros q Hq G. apply rleb_iff in G. apply H; assumption.
    + intros q Hq G. apply rltb_iff in G. apply H; [exact Hq|lra].
Qed.
Lemma part_kth_le k d e : kth (map f (seq 0 n)) k d -> kth (map f held) k e -> d <= e.
Proof using Hnd Hn.
  intros (_ & B & _) (_ & _ & C). destruct (Rle_or_lt d e) as [Q|Q]; [exact Q|exfalso].
  pose proof (part_count (fun x => rleb x e)).
  assert (length (filter (fun x => rleb x e) (map f (seq 0 n))) <= length (filter (fun x => rltb x d) (map f (seq 0 n))))%nat; [|lia].
  apply filter_sub_le. intros x Hx. apply rleb_iff in Hx. apply rltb_iff. lra.
Qed.
End Part.

(* the least over the ranks *)
Lemma fold_fmin_le l d : (forall o e, In o l -> o = Some e -> d <= e) -> forall e, fold_right fmin None l = Some e -> d <= e.
Proof.
  induction l as [|o l IH]; intros H e He; [discriminate|]. cbn [fold_right] in He.
  destruct o as [x|]; cbn [fmin] in He.
  - assert (d <= x) by (apply (H (Some x) x); [left|]; reflexivity).
    destruct (fold_right fmin None l) as [y|] eqn:E; injection He as <-; [|assumption].
    apply Rmin_glb; [assumption|]. apply (IH (fun o e Ho => H o e (or_intror Ho)) y eq_refl).
  - apply (IH (fun o e Ho => H o e (or_intror Ho)) e He).
Qed.
Lemma fold_fmin_some l d : In (Some d) l -> exists e, fold_right fmin None l = Some e /\ e <= d.
Proof.
  induction l as [|o l IH]; intros []; cbn [fold_right].
  - subst o. destruct (fold_right fmin None l) as [y|]; cbn [fmin]; [exists (Rmin d y); split; [reflexivity|apply Rmin_l]|exists d; split; [reflexivity|lra]].
  - destruct (IH H) as (e & -> & He). destruct o as [x|]; cbn [fmin]; [|exists e; split; [reflexivity|exact He]].
    exists (Rmin x e). split; [reflexivity|]. apply Rle_trans with e; [apply Rmin_r|exact He].
Qed.

Lemma distances_map L pos n p ds : 0 < L -> distances L pos n p ds -> ds = map (fun q => L * kd_dist (to_unit L (pos p)) (to_unit L (pos q))) (seq 0 n).
Proof.
  intros HL. unfold distances. generalize (seq 0 n). intros l H. induction H as [|q d l ds Hd H IH]; [reflexivity|]. cbn [map]. rewrite IH. f_equal.
  apply (torus_unique L (pos p) (pos q)); [exact Hd|]. apply kd_torus, HL.
Qed.
Lemma rltb_scale L a b : 0 < L -> rltb (L * a) (L * b) = rltb a b.
Proof. intros HL. destruct (rltb a b) eqn:E; [apply rltb_iff in E; apply rltb_iff; nra|]. destruct (rltb (L * a) (L * b)) eqn:E2; [|reflexivity]. apply rltb_iff in E2. assert (a < b) by nra. apply rltb_iff in H. congruence. Qed.
Lemma rleb_scale L a b : 0 < L -> rleb (L * a) (L * b) = rleb a b.
Proof. intros HL. destruct (rleb a b) eqn:E; [apply rleb_iff in E; apply rleb_iff; nra|]. destruct (rleb (L * a) (L * b)) eqn:E2; [|reflexivity]. apply rleb_iff in E2. assert (a <= b) by nra. apply rleb_iff in H. congruence. Qed.
Lemma kth_scale L l k d : 0 < L -> kth (map (Rmult L) l) k (L * d) <-> kth l k d.
Proof.
  intros HL. unfold kth. rewrite !filter_map, !map_length.
  rewrite (filter_ext (fun x => rltb (L * x) (L * d)) (fun x => rltb x d)) by (intros a; apply rltb_scale, HL).
  rewrite (filter_ext (fun x => rleb (L * x) (L * d)) (fun x => rleb x d)) by (intros a; apply rleb_scale, HL).
  rewrite in_map_iff. split; intros (A & B).
  - split; [|exact B]. destruct A as (x & E & Hx). apply Rmult_eq_reg_l in E; [subst; exact Hx|lra].
  - split; [|exact B]. exists d. split; [reflexivity|exact A].
Qed.

Section Main.
Variables (n : nat) (L : R) (pos : nat -> point) (ranks : list (list nat)) (p : nat) (ds : list R) (d : R).
Hypothesis HL : 0 < L.
Hypothesis Hds : distances L pos n p ds.
Hypothesis Hk : kth ds 7 d.
Hypothesis Hheld : forall held, In held ranks -> NoDup held /\ forall q, In q held -> (q < n)%nat.
Let u := fun q => to_unit L (pos q).
Let f := fun q => kd_dist (u p) (u q).
Lemma kth_unit : kth (map f (seq 0 n)) 7 (d / L).
Proof using HL Hds Hk.
  apply (kth_scale L _ _ _ HL). replace (L * (d / L)) with d by (field; lra). rewrite map_map. unfold f, u. rewrite <- (distances_map L pos n p ds HL Hds). exact Hk.
Qed.
Lemma query_le held e : In held ranks -> query8 u held p = Some e -> d / L <= e.
Proof using HL Hds Hk Hheld.
  intros Hr Q. destruct (Hheld held Hr) as [A B]. apply (part_kth_le n f held A B 7 _ _ kth_unit). apply sortR_nth. exact Q.
Qed.
Lemma gather_ge e : gather_min u ranks p = Some e -> d / L <= e.
Proof using HL Hds Hk Hheld.
  apply fold_fmin_le. intros o e' Ho ->. apply in_map_iff in Ho. destruct Ho as (held & Q & Hr). apply filter_In in Hr. apply (query_le held e' (proj1 Hr) Q).
Qed.
Lemma gather_exact held : In held ranks -> In p held -> (forall q e, (q < n)%nat -> torus L (pos p) (pos q) e -> e <= d -> In q held) -> gather_min u ranks p = Some (d / L).
Proof using HL Hds Hk Hheld.
  intros Hr Hp Hc. destruct (Hheld held Hr) as [A B].
  assert (Q : query8 u held p = Some (d / L)).
  { apply sortR_nth. apply (part_kth n f held A B 7 _ kth_unit). intros q Hq Hf. apply (Hc q (L * f q) Hq); [apply kd_torus, HL|].
    apply (Rmult_le_compat_l L) in Hf; [|lra]. replace (L * (d / L)) with d in Hf by (field; lra). exact Hf. }
  assert (I : In (Some (d / L)) (map (fun held => query8 u held p) (filter (fun held => existsb (Nat.eqb p) held) ranks))).
  { rewrite <- Q. apply in_map with (f := fun held => query8 u held p). apply filter_In. split; [exact Hr|]. apply existsb_exists. exists p. split; [exact Hp|apply Nat.eqb_refl]. }
  destruct (fold_fmin_some _ _ I) as (e & E & He). unfold gather_min. rewrite E. f_equal. apply Rle_antisym; [exact He|]. apply gather_ge. exact E.
Qed.
End Main.

Lemma inverse_cube_some L d : 0 < L -> 0 < d -> inverse_cube L (Some (d / L)) = Some (1 / (d * d * d)).
Proof.
  intros HL Hd. cbn [inverse_cube]. assert (0 < d / L) by (apply Rdiv_lt_0_compat; assumption).
  assert (rltb 0 (d / L) = true) as -> by (apply rltb_iff; assumption). f_equal. field. split; lra.
Qed.
Lemma density_ok n L pos margin decompose p ds d : 0 < L -> covers L pos n (margin * meansep n L) (decompose (margin * meansep n L)) -> (p < n)%nat ->
  distances L pos n p ds -> kth ds 7 d -> 0 < d -> d <= margin * Rpower (INR n / (L * L * L)) (1 / 3) ->
  KDDensity n L pos margin decompose p = Some (1 / (d * d * d)).
Proof.
  intros HL [C1 C2] Hp Hds Hk Hd Hm. unfold KDDensity. destruct (C2 p Hp) as (held & Hr & Hph & Hc).
  rewrite (gather_exact n L pos _ p ds d HL Hds Hk C1 held Hr Hph); [apply inverse_cube_some; assumption|].
  intros q e Hq Ht He. apply (Hc q e Hq Ht). unfold meansep. lra.
Qed.
Lemma density_one_rank n L pos margin p ds d : 0 < L -> (p < n)%nat -> distances L pos n p ds -> kth ds 7 d -> 0 < d ->
  KDDensity n L pos margin (fun _ => [seq 0 n]) p = Some (1 / (d * d * d)).
Proof.
  intros HL Hp Hds Hk Hd. unfold KDDensity.
  rewrite (gather_exact n L pos [seq 0 n] p ds d HL Hds Hk) with (held := seq 0 n); [apply inverse_cube_some; assumption| |left; reflexivity| |].
  - intros held [<-|[]]. split; [apply seq_NoDup|]. intros q Hq. apply in_seq in Hq. lia.
  - apply in_seq. lia.
  - intros q e Hq _ _. apply in_seq. lia.
Qed.
Lemma density_bound n L pos margin decompose p ds d : 0 < L -> (forall held, In held (decompose (margin * meansep n L)) -> NoDup held /\ forall q, In q held -> (q < n)%nat) ->
  distances L pos n p ds -> kth ds 7 d -> 0 < d ->
  exists v, KDDensity n L pos margin decompose p = Some v /\ 0 <= v <= 1 / (d * d * d).
Proof.
  intros HL Hh Hds Hk Hd. unfold KDDensity.
  assert (P : 0 < 1 / (d * d * d)) by (apply Rdiv_lt_0_compat; [lra|]; apply Rmult_lt_0_compat; [apply Rmult_lt_0_compat|]; assumption).
  destruct (gather_min (fun q => to_unit L (pos q)) (decompose (margin * meansep n L)) p) as [e|] eqn:E.
  - pose proof (gather_ge n L pos _ p ds d HL Hds Hk Hh e E) as G. assert (0 < d / L) by (apply Rdiv_lt_0_compat; assumption).
    cbn [inverse_cube]. assert (rltb 0 e = true) as -> by (apply rltb_iff; lra). eexists. split; [reflexivity|].
    assert (d <= e * L) by (apply (Rmult_le_compat_r L) in G; [|lra]; replace (d / L * L) with d in G by (field; lra); exact G).
    replace (e * e * e * (L * L * L)) with ((e * L) * (e * L) * (e * L)) by ring.
    assert (d * d * d <= e * L * (e * L) * (e * L)).
    { apply Rmult_le_compat; [nra|lra| |assumption]. apply Rmult_le_compat; lra. }
    assert (0 < d * d * d) by (apply Rmult_lt_0_compat; [apply Rmult_lt_0_compat|]; assumption).
    split; [left; apply Rdiv_lt_0_compat; lra|]. unfold Rdiv. apply Rmult_le_compat_l; [lra|]. apply Rinv_le_contravar; assumption.
  - exists 0. split; [reflexivity|lra].
Qed.
