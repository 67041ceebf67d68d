From Verif Require Import Base.
From Coq Require Import Reals Lra Lia Permutation.
From Verif Require Import RandModel ThreeModel RandProofs ThreeProofs SkyModel SkySpec SkyProofs SkyMain SpcModel SpcSpec.
Local Open Scope R_scope.
Local Notation length := List.length.

(* ---- sums over indices ---- *)
Definition take {A} (a : list A) (ids : list nat) : list A := flat_map (fun i => match nth_error a i with Some v => [v] | None => [] end) ids.
Definition val {A} (f : A -> R) (o : option A) : R := match o with Some v => f v | None => 0 end.
Lemma rsum_take {A} (f : A -> R) a ids : rsum (map f (take a ids)) = rsum (map (fun i => val f (nth_error a i)) ids).
Proof. unfold take. rewrite rsum_flat. apply rsum_ext'. intros i _. destruct (nth_error a i); cbn [map rsum val]; lra. Qed.
Lemma take_seq {A} : forall (a : list A) k pre, length pre = k -> take (pre ++ a) (seq k (length a)) = a.
Proof.
  induction a as [|x a IH]; intros k pre E; [reflexivity|]. unfold take in *. cbn [length seq flat_map]. subst k. rewrite nth_error_app2 by lia. rewrite Nat.sub_diag. cbn [nth_error app]. f_equal.
  replace (pre ++ x :: a) with ((pre ++ [x]) ++ a) by (rewrite <- app_assoc; reflexivity). apply IH. rewrite app_length. cbn [length]. lia.
Qed.
Lemma take_all {A} (a : list A) : take a (seq 0 (length a)) = a.
Proof. apply (take_seq a 0%nat []). reflexivity. Qed.
Lemma rsum_index {A} (f : A -> R) a : rsum (map f a) = rsum (map (fun i => val f (nth_error a i)) (seq 0 (length a))).
Proof. rewrite <- rsum_take, take_all. reflexivity. Qed.
Lemma take_combine {A B} (a : list A) (b : list B) ids : length a = length b -> combine (take a ids) (take b ids) = take (combine a b) ids.
Proof.
  intros E. induction ids as [|i ids IH]; [reflexivity|]. unfold take in *. cbn [flat_map].
  destruct (nth_error a i) as [x|] eqn:X.
  - destruct (nth_error b i) as [y|] eqn:Y; [|exfalso; apply nth_error_None in Y; pose proof (proj1 (nth_error_Some a i)); rewrite X in *; assert (i < length a)%nat by (apply H; discriminate); lia].
    rewrite (SkyArrays.nth_error_combine a b i x y X Y). cbn [app combine]. rewrite IH. reflexivity.
  - assert (Y : nth_error b i = None) by (apply nth_error_None in X; apply nth_error_None; lia). rewrite Y.
    assert (Z : nth_error (combine a b) i = None) by (apply nth_error_None; rewrite combine_length; apply nth_error_None in X; lia). rewrite Z. exact IH.
Qed.
Lemma rsum_part (ids : list nat) n (g : nat -> R) : NoDup ids -> (forall i, In i ids -> (i < n)%nat) -> (forall i, (i < n)%nat -> ~ In i ids -> g i = 0) -> rsum (map g ids) = rsum (map g (seq 0 n)).
Proof.
  intros N I Z. transitivity (rsum (map g (filter (fun i => if in_dec Nat.eq_dec i ids then true else false) (seq 0 n)))).
  - apply rsum_perm, Permutation_map. apply NoDup_Permutation; [exact N|apply NoDup_filter, seq_NoDup|]. intros i. rewrite filter_In, in_seq. destruct (in_dec Nat.eq_dec i ids) as [Q|Q]; split; intros H; try tauto.
    + split; [specialize (I i H); lia|reflexivity].
    + destruct H as [_ H]. discriminate.
  - rewrite rsum_filter. apply rsum_ext'. intros i J. apply in_seq in J. destruct (in_dec Nat.eq_dec i ids) as [Q|Q]; [reflexivity|]. symmetry. apply Z; [lia|exact Q].
Qed.

Lemma split_sum n1 n2 nranks (l1 l2 : list (list nat)) (home : nat -> nat) (F : nat -> nat -> R) :
  length l1 = nranks -> length l2 = nranks -> (forall i, (i < n1)%nat -> (home i < nranks)%nat) ->
  (forall r ids, nth_error l1 r = Some ids -> NoDup ids /\ forall i, In i ids <-> (i < n1)%nat /\ home i = r) ->
  (forall r ids, nth_error l2 r = Some ids -> NoDup ids /\ (forall j, In j ids -> (j < n2)%nat) /\ forall i j, (i < n1)%nat -> home i = r -> (j < n2)%nat -> ~ In j ids -> F i j = 0) ->
  rsum (map (fun ab => rsum (map (fun i => rsum (map (F i) (snd ab))) (fst ab))) (combine l1 l2)) = rsum (map (fun i => rsum (map (F i) (seq 0 n2))) (seq 0 n1)).
Proof.
  intros L1 L2 HH A B. rewrite rsum_index. rewrite combine_length, L1, L2, Nat.min_id.
  rewrite (rsum_ext' _ (fun r => rsum (map (fun i => if Nat.eqb r (home i) then rsum (map (F i) (seq 0 n2)) else 0) (seq 0 n1)))).
  - rewrite rsum_swap. apply rsum_ext'. intros i I. apply in_seq in I. apply (rsum_one Nat.eqb (fun _ => rsum (map (F i) (seq 0 n2))) (home i)); [intros; apply Nat.eqb_eq|apply seq_NoDup|]. apply in_seq. specialize (HH i). lia.
  - intros r R. apply in_seq in R.
    destruct (nth_error l1 r) as [a|] eqn:X; [|apply nth_error_None in X; lia]. destruct (nth_error l2 r) as [b|] eqn:Y; [|apply nth_error_None in Y; lia].
    rewrite (SkyArrays.nth_error_combine l1 l2 r a b X Y). cbn [val fst snd]. destruct (A r a X) as [Na Ia]. destruct (B r b Y) as (Nb & Ib & Z).
    rewrite (rsum_ext' _ (fun i => if Nat.eqb r (home i) then rsum (map (F i) (seq 0 n2)) else 0)).
    + apply rsum_part; [exact Na|intros i I; apply Ia in I; tauto|]. intros i I NI. destruct (Nat.eqb r (home i)) eqn:E; [|reflexivity]. exfalso. apply NI, Ia. apply Nat.eqb_eq in E. split; [exact I|symmetry; exact E].
    + intros i I. apply Ia in I. destruct I as [I H]. rewrite H, Nat.eqb_refl. apply rsum_part; [exact Nb|exact Ib|]. intros j J NJ. apply Z; assumption.
Qed.

(* ---- bounds ---- *)
Lemma lmin_le l x : In x l -> lmin l <= x.
Proof. unfold lmin. generalize (hd 0 l). intros d. induction l as [|y l IH]; intros H; [destruct H|]. cbn [fold_right]. destruct H as [ -> |H]; [apply Rmin_l|]. eapply Rle_trans; [apply Rmin_r|auto]. Qed.
Lemma lmax_ge l x : In x l -> x <= lmax l.
Proof. unfold lmax. generalize (hd 0 l). intros d. induction l as [|y l IH]; intros H; [destruct H|]. cbn [fold_right]. destruct H as [ -> |H]; [apply Rmax_l|]. eapply Rle_trans; [|apply Rmax_r]. auto. Qed.
Lemma lmin_in' l d : fold_right Rmin d l = d \/ In (fold_right Rmin d l) l.
Proof. induction l as [|y l IH]; [left; reflexivity|]. cbn [fold_right]. unfold Rmin. destruct (Rle_dec _ _); [right; left; reflexivity|]. destruct IH as [E|I]; [left; exact E|right; right; exact I]. Qed.
Lemma lmax_in' l d : fold_right Rmax d l = d \/ In (fold_right Rmax d l) l.
Proof. induction l as [|y l IH]; [left; reflexivity|]. cbn [fold_right]. unfold Rmax. destruct (Rle_dec _ _); [|right; left; reflexivity]. destruct IH as [E|I]; [left; exact E|right; right; exact I]. Qed.
Lemma lmin_in l : l <> [] -> In (lmin l) l.
Proof. intros H. unfold lmin. destruct (lmin_in' l (hd 0 l)) as [E|I]; [|exact I]. rewrite E. destruct l; [contradiction|left; reflexivity]. Qed.
Lemma lmax_in l : l <> [] -> In (lmax l) l.
Proof. intros H. unfold lmax. destruct (lmax_in' l (hd 0 l)) as [E|I]; [|exact I]. rewrite E. destruct l; [contradiction|left; reflexivity]. Qed.

Lemma pad_axis (c : point -> R) l p : In p l -> (exists a b, In a l /\ In b l /\ c a < c b) ->
  let lo := lmin (map c l) in let hi := lmax (map c l) in lo - / 1000 * Rabs (hi - lo) < c p < hi + / 1000 * Rabs (hi - lo).
Proof.
  intros I (a & b & A & B & H). cbv zeta.
  pose proof (lmin_le (map c l) (c p) (in_map c l p I)). pose proof (lmax_ge (map c l) (c p) (in_map c l p I)).
  pose proof (lmin_le (map c l) (c a) (in_map c l a A)). pose proof (lmax_ge (map c l) (c b) (in_map c l b B)).
  rewrite Rabs_right by lra. lra.
Qed.
Lemma padded_inside l p : In p l -> spread_out l -> inside (pad_lo (bmin l) (bmax l)) (pad_hi (bmin l) (bmax l)) p.
Proof.
  intros I (A & B & C). pose proof (pad_axis px l p I A) as X. pose proof (pad_axis py l p I B) as Y. pose proof (pad_axis pz l p I C) as Z.
  destruct p as [[x y] z]. cbv zeta in X, Y, Z. unfold pad_lo, pad_hi, lift2, bmin, bmax, inside. unfold px at 1 2, py at 1 2, pz at 1 2. cbn [fst snd].
  exact (conj X (conj Y Z)).
Qed.
Lemma inside_both lo1 hi1 lo2 hi2 p : inside lo1 hi1 p \/ inside lo2 hi2 p -> inside (lift2 Rmin lo1 lo2) (lift2 Rmax hi1 hi2) p.
Proof.
  destruct lo1 as [[a b] c], hi1 as [[d e] f], lo2 as [[a' b'] c'], hi2 as [[d' e'] f'], p as [[x y] z]. unfold lift2, inside, px, py, pz. cbn [fst snd].
  pose proof (Rmin_l a a'). pose proof (Rmin_r a a'). pose proof (Rmin_l b b'). pose proof (Rmin_r b b'). pose proof (Rmin_l c c'). pose proof (Rmin_r c c').
  pose proof (Rmax_l d d'). pose proof (Rmax_r d d'). pose proof (Rmax_l e e'). pose proof (Rmax_r e e'). pose proof (Rmax_l f f'). pose proof (Rmax_r f f').
  intros [(A & B & C)|(A & B & C)]; repeat split; lra.
Qed.

(* ---- positions ---- *)
Lemma cart_place cosmo p : cart cosmo p = place (with_distance cosmo p).
Proof.
  destruct p as [[ra dec] z]. unfold cart, with_distance, place, toward, unit_sphere, deg2rad, SkyModel.deg2rad, degree, lift1, px, py, pz. cbn [fst snd].
  destruct cosmo as [D|]; cbn [fst snd]; (apply f_equal2; [apply f_equal2|]); ring.
Qed.
Lemma scalar_self u : scalar u u = separation u (0, 0, 0) * separation u (0, 0, 0).
Proof. destruct u as [[a b] c]. unfold scalar, separation. rewrite sqrt_sqrt by nra. ring. Qed.
Lemma place_unit ra dec : scalar (place (ra, dec, 1)) (place (ra, dec, 1)) = 1.
Proof. rewrite scalar_self. unfold place. rewrite toward_separation by lra. ring. Qed.
Lemma sep_sq u v : separation u v * separation u v = scalar (less u v) (less u v).
Proof. destruct u as [[a b] c], v as [[x y] z]. unfold separation, scalar, less. apply sqrt_sqrt. pose proof (Rle_0_sqr (a - x)). pose proof (Rle_0_sqr (b - y)). pose proof (Rle_0_sqr (c - z)). unfold Rsqr in *. lra. Qed.
Lemma sep_unit u v : scalar u u = 1 -> scalar v v = 1 -> separation u v * separation u v = 2 - 2 * scalar u v.
Proof. intros A B. rewrite sep_sq. destruct u as [[a b] c], v as [[x y] z]. unfold scalar, less in *. nra. Qed.
Lemma sq_le a b : 0 <= b -> a * a <= b * b -> a <= b.
Proof. intros. nra. Qed.
