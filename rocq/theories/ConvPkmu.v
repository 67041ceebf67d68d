From Verif Require Import Base.
From Coq Require Import Reals Lra Lia Permutation Sorted.
From Verif Require Import BaseProofs RandModel RandProofs ThreeModel ThreeSpec ThreeProofs YlmModel YlmSpec YlmProofs YlmMain ConvModel ConvSpec ConvProofs.
Local Open Scope R_scope.

(* ---- polynomials: values, derivatives, integrals ---- *)
Lemma lpoly_value x l : peval (lpoly l) x = rlegendre l x.
Proof.
  assert (G : forall l, peval (lpoly l) x = rlegendre l x /\ peval (lpoly (S l)) x = rlegendre (S l) x); [|apply G].
  clear l. induction l as [|l [A B]]; [split; unfold lpoly, rlegendre; cbn; ring|]. split; [exact B|]. rewrite lpoly_SS, peval_pscale, peval_padd, !peval_pscale. cbn [peval]. rewrite A, B.
  pose proof (rlegendre_SS l x) as E. pose proof (pos_INR l). apply (Rmult_eq_reg_l (INR l + 2)); [|lra]. rewrite E. rewrite !plus_INR, mult_INR. cbn [INR]. field. lra.
Qed.
Lemma peval_deriv x : forall p, derivable_pt_lim (peval p) x (peval (pderiv p) x).
Proof.
  induction p as [|c p IH]; [apply derivable_pt_lim_const|]. cbn [pderiv]. rewrite peval_padd. cbn [peval].
  assert (E : derivable_pt_lim (plus_fct (fct_cte c) (mult_fct id (peval p))) x (0 + (1 * peval p x + id x * peval (pderiv p) x))) by (apply derivable_pt_lim_plus; [apply derivable_pt_lim_const|apply derivable_pt_lim_mult; [apply derivable_pt_lim_id|exact IH]]).
  unfold id in E. replace (peval p x + (0 + x * peval (pderiv p) x)) with (0 + (1 * peval p x + x * peval (pderiv p) x)) by ring. exact E.
Qed.
Lemma pint_deriv x : forall p n, derivable_pt_lim (fun y => peval (pint n p) y * y ^ S n) x (peval p x * x ^ n).
Proof.
  induction p as [|c p IH]; intros n.
  - cbn [pint peval]. intros eps He. exists (mkposreal 1 Rlt_0_1). intros h _ _. replace ((0 * (x + h) ^ S n - 0 * x ^ S n) / h - 0 * x ^ n) with 0 by (unfold Rdiv; ring). rewrite Rabs_R0. exact He.
  - cbn [pint peval]. set (q := pint (S n) p) in *. pose proof (IH (S n)) as I.
    pose proof (derivable_pt_lim_scal (fun y => y ^ S n) (c / INR (S n)) x _ (derivable_pt_lim_pow x (S n))) as A. pose proof (derivable_pt_lim_plus _ _ x _ _ A I) as B. cbn [pred] in B.
    replace ((c + x * peval p x) * x ^ n) with (c / INR (S n) * (INR (S n) * x ^ n) + peval p x * x ^ S n) by (cbn [pow]; field; apply not_0_INR; discriminate).
    intros eps He. destruct (B eps He) as [d D]. exists d. intros h H0 H1. specialize (D h H0 H1). unfold plus_fct, mult_real_fct in D.
    replace ((c / INR (S n) + (x + h) * peval q (x + h)) * (x + h) ^ S n) with (c / INR (S n) * (x + h) ^ S n + peval q (x + h) * (x + h) ^ S (S n)) by (cbn [pow]; ring).
    replace ((c / INR (S n) + x * peval q x) * x ^ S n) with (c / INR (S n) * x ^ S n + peval q x * x ^ S (S n)) by (cbn [pow]; ring). exact D.
Qed.
Lemma derivable_ext f g x v : (forall y, f y = g y) -> derivable_pt_lim f x v -> derivable_pt_lim g x v.
Proof. intros H D eps He. destruct (D eps He) as [d Q]. exists d. intros h A B. rewrite <- !H. apply Q; assumption. Qed.
Lemma quad_deriv x p : derivable_pt_lim (peval (0 :: pint 0 p)) x (peval p x).
Proof.
  replace (peval p x) with (peval p x * x ^ 0) by (cbn; ring). apply (derivable_ext (fun y => peval (pint 0 p) y * y ^ 1)); [|apply pint_deriv]. intros y. cbn [peval pow]. ring.
Qed.
Lemma same_derivative f g h : (forall x, derivable_pt_lim f x (h x)) -> (forall x, derivable_pt_lim g x (h x)) -> forall a b, f b - f a = g b - g a.
Proof.
  intros F G a b. assert (D : forall x, derivable_pt_lim (minus_fct f g) x 0) by (intros x; replace 0 with (h x - h x) by ring; apply derivable_pt_lim_minus; [apply F|apply G]).
  pose (pr := fun x => exist (fun l => derivable_pt_lim (minus_fct f g) x l) 0 (D x) : derivable_pt (minus_fct f g) x).
  pose proof (null_derivative_1 (minus_fct f g) pr (fun x => eq_refl)) as C. unfold constant in C. specialize (C a b). unfold minus_fct in C. lra.
Qed.
Lemma sum_deriv {A} (f : A -> R -> R) (d : A -> R) x : forall l, (forall i, In i l -> derivable_pt_lim (f i) x (d i)) -> derivable_pt_lim (fun y => rsum (map (fun i => f i y) l)) x (rsum (map d l)).
Proof.
  induction l as [|i l IH]; intros H; cbn [map rsum]; [apply (derivable_pt_lim_const 0)|]. apply (derivable_pt_lim_plus (f i) (fun y => rsum (map (fun i => f i y) l))); [apply H; left; reflexivity|apply IH; intros; apply H; right; assumption].
Qed.
Definition anti (l : nat) (x : R) : R := peval (0 :: pint 0 (lpoly l)) x.
Lemma anti_deriv l x : derivable_pt_lim (anti l) x (rlegendre l x).
Proof. rewrite <- lpoly_value. apply quad_deriv. Qed.
Definition anti_series (max_ell : nat) (P : nat -> R) (x : R) : R := rsum (map (fun l => P l * anti l x) (even_ells max_ell)).
Lemma anti_series_deriv max_ell P x : derivable_pt_lim (anti_series max_ell P) x (series max_ell P x).
Proof. unfold anti_series, series. apply (sum_deriv (fun l y => P l * anti l y) (fun l => P l * rlegendre l x)). intros l _. apply (derivable_pt_lim_scal (anti l)), anti_deriv. Qed.

(* ---- the even multipoles ---- *)
Lemma ells_even max_ell : ells max_ell = even_ells max_ell.
Proof.
  unfold ells, even_ells.
  assert (G : forall n, map (fun i => (2 * i)%nat) (seq 0 (S n)) = filter Nat.even (seq 0 (S (2 * n))) /\ map (fun i => (2 * i)%nat) (seq 0 (S n)) = filter Nat.even (seq 0 (S (S (2 * n))))).
  { assert (O1 : forall n, Nat.even (0 + S (2 * n)) = false) by (intros n; cbn [Nat.add]; rewrite Nat.even_succ, <- Nat.negb_even, (proj2 (Nat.even_spec (2 * n)) (ex_intro _ n eq_refl)); reflexivity).
    induction n as [|n [A B]]; [split; reflexivity|]. rewrite seq_S, map_app, B. replace (2 * S n)%nat with (S (S (2 * n))) by lia. rewrite (seq_S (S (S (2 * n)))), filter_app. cbn [filter].
    assert (E2 : Nat.even (0 + S (S (2 * n))) = true) by (apply Nat.even_spec; exists (S n); lia). rewrite E2. cbn [map].
    assert (Q : (2 * (0 + S n) = 0 + S (S (2 * n)))%nat) by lia. rewrite Q. split; [reflexivity|]. rewrite (seq_S (S (S (S (2 * n))))), filter_app. cbn [filter].
    assert (E3 : Nat.even (0 + S (S (S (2 * n)))) = false) by (replace (S (S (S (2 * n)))) with (S (2 * S n)) by lia; apply O1). rewrite E3, app_nil_r, (seq_S (S (S (2 * n)))), filter_app. cbn [filter]. rewrite E2. reflexivity. }
  destruct (Nat.Even_or_Odd max_ell) as [[m ->]|[m ->]].
  - replace (2 * m / 2)%nat with m by (symmetry; rewrite Nat.mul_comm; apply Nat.div_mul; discriminate). apply G.
  - replace ((2 * m + 1) / 2)%nat with m by (rewrite Nat.mul_comm, Nat.div_add_l by discriminate; cbn; lia). replace (S (2 * m + 1)) with (S (S (2 * m))) by lia. apply G.
Qed.
Lemma lookup_in {A} l (f : A) : forall t, NoDup (map fst t) -> In (l, f) t -> lookup l t = Some f.
Proof.
  induction t as [|[k g] t IH]; intros N I; [destruct I|]. unfold lookup in *. cbn [find fst]. cbn [map fst] in N. inversion N as [|? ? N1 N2]; subst. destruct I as [E|I]; [injection E as -> ->; rewrite Nat.eqb_refl; reflexivity|].
  replace (Nat.eqb k l) with false; [apply IH; assumption|]. symmetry. apply Nat.eqb_neq. intros ->. apply N1. apply in_map_iff. exists (l, f). split; [reflexivity|exact I].
Qed.
Definition wedge (max_ell : nat) (P : nat -> R) (a b : R) : R := (anti_series max_ell P b - anti_series max_ell P a) / (b - a).
Lemma wedge_mean max_ell P a b : mean_over (series max_ell P) a b (wedge max_ell P a b).
Proof.
  split; [exists (anti_series max_ell P); apply anti_series_deriv|]. intros G HG. unfold wedge. f_equal. apply (same_derivative _ _ (series max_ell P)); [apply anti_series_deriv|exact HG].
Qed.
Lemma coefficient_sum max_ell P a b : b - a <> 0 -> rsum (map (fun l => coefficient l a b * P l) (even_ells max_ell)) = wedge max_ell P a b.
Proof.
  intros N. unfold wedge, anti_series, coefficient, quad. apply (Rmult_eq_reg_r (b - a)); [|exact N]. rewrite <- rsum_scr.
  replace ((rsum (map (fun l => P l * anti l b) (even_ells max_ell)) - rsum (map (fun l => P l * anti l a) (even_ells max_ell))) / (b - a) * (b - a)) with (rsum (map (fun l => P l * anti l b) (even_ells max_ell)) + (-1) * rsum (map (fun l => P l * anti l a) (even_ells max_ell))) by (field; exact N).
  rewrite <- rsum_scl, <- rsum_plus. apply rsum_ext'. intros l _. unfold anti. field. exact N.
Qed.
Lemma pairs_length {A} (l : list A) : length (pairs l) = (length l - 1)%nat.
Proof. unfold pairs. rewrite combine_length. destruct l as [|x l]; [reflexivity|]. cbn [tl length]. lia. Qed.
Section Pkmu.
Variable nk : nat.
Variable poles : list (nat * (nat -> comp)).
Variable P : nat -> nat -> comp.                           (* power_ell at k *)
Variable mu_edges : list R.
Variable max_ell : nat.
Hypothesis ND : NoDup (map fst poles).
Hypothesis HP : forall l, Nat.even l = true -> (l <= max_ell)%nat -> In (l, P l) poles.
Hypothesis HM : forall j a b, nth_error mu_edges j = Some a -> nth_error mu_edges (S j) = Some b -> a <> b.
Lemma even_in l : In l (even_ells max_ell) -> lookup l poles = Some (P l).
Proof using All. intros I. apply filter_In in I. destruct I as [I E]. apply in_seq in I. apply lookup_in; [exact ND|]. apply HP; [exact E|lia]. Qed.
Lemma pairs_nth {A} (l : list A) j p : nth_error (pairs l) j = Some p <-> nth_error l j = Some (fst p) /\ nth_error l (S j) = Some (snd p).
Proof using.
  destruct p as [a b]. cbn [fst snd]. unfold pairs. revert j. induction l as [|x l IH]; intros j; [destruct j; cbn; split; [discriminate|intros [? _]; discriminate|discriminate|intros [? _]; discriminate]|].
  destruct l as [|y l]; [cbn; destruct j as [|[|j]]; cbn; split; try discriminate; intros [? ?]; discriminate|]. cbn [tl combine]. destruct j as [|j].
  - cbn. split; [intros E; injection E as -> ->; split; reflexivity|intros [E1 E2]; injection E1 as ->; injection E2 as ->; reflexivity].
  - cbn [nth_error]. cbn [tl] in IH. rewrite IH. reflexivity.
Qed.
Lemma to_pkmu_form : to_pkmu nk poles mu_edges max_ell = Ok (map (fun i => map (fun p => (wedge max_ell (fun l => fst (P l i)) (fst p) (snd p), wedge max_ell (fun l => snd (P l i)) (fst p) (snd p))) (pairs mu_edges)) (seq 0 nk)).
Proof using ND HP HM.
  unfold to_pkmu. rewrite ells_even.
  replace (existsb (fun l => match lookup l poles with Some _ => false | None => true end) (even_ells max_ell)) with false by (symmetry; apply Bool.not_true_iff_false; intros Q; apply existsb_exists in Q; destruct Q as (l & I & E); rewrite (even_in l I) in E; discriminate).
  assert (NE : forall p, In p (pairs mu_edges) -> snd p - fst p <> 0) by (intros p I E; apply In_nth_error in I; destruct I as [j I]; apply pairs_nth in I; destruct I as [I1 I2]; apply (HM j _ _ I1 I2); lra).
  replace (existsb (fun p => ceq0 (snd p - fst p)) (pairs mu_edges)) with false by (symmetry; apply Bool.not_true_iff_false; intros Q; apply existsb_exists in Q; destruct Q as (p & I & E); apply ceq0_iff in E; apply (NE p I E)).
  f_equal. apply map_ext. intros i. apply map_ext_in. intros p I. rewrite csum_pair. cbn [fst snd cscale]. rewrite <- !coefficient_sum by (apply NE, I). f_equal; apply rsum_ext'; intros l Il; rewrite (even_in l Il); reflexivity.
Qed.
Lemma to_pkmu_mean : exists out, to_pkmu nk poles mu_edges max_ell = Ok out /\ length out = nk /\
  forall i j a b, (i < nk)%nat -> nth_error mu_edges j = Some a -> nth_error mu_edges (S j) = Some b ->
  exists w v, nth_error out i = Some w /\ length w = (length mu_edges - 1)%nat /\ nth_error w j = Some v /\
    mean_over (series max_ell (fun l => fst (P l i))) a b (fst v) /\ mean_over (series max_ell (fun l => snd (P l i))) a b (snd v).
Proof using ND HP HM.
  eexists. split; [apply to_pkmu_form|]. split; [rewrite map_length, seq_length; reflexivity|]. intros i j a b Li Ea Eb.
  eexists. eexists. split; [rewrite (map_nth_error _ i (seq 0 nk) (d := i)); [reflexivity|]; rewrite (nth_error_nth' _ O) by (rewrite seq_length; exact Li); rewrite seq_nth by exact Li; reflexivity|].
  split; [rewrite map_length; apply pairs_length|].
  split; [rewrite (map_nth_error _ j (pairs mu_edges) (d := (a, b))); [reflexivity|]; apply pairs_nth; split; assumption|]. cbn [fst snd]. split; apply wedge_mean.
Qed.
End Pkmu.

(* ---- wedges over all mu add up to the monopole ---- *)
Lemma dleg_deriv l x : derivable_pt_lim (rlegendre l) x (dlegendre l 1 x).
Proof. apply (derivable_ext (peval (lpoly l))); [intros y; apply lpoly_value|]. apply peval_deriv. Qed.
Lemma anti_closed l a b : (2 * INR l + 3) * (anti (S l) b - anti (S l) a) = (rlegendre (S (S l)) b - rlegendre l b) - (rlegendre (S (S l)) a - rlegendre l a).
Proof.
  transitivity ((fun x => (2 * INR l + 3) * anti (S l) x) b - (fun x => (2 * INR l + 3) * anti (S l) x) a); [cbv beta; ring|].
  apply (same_derivative (fun x => (2 * INR l + 3) * anti (S l) x) (fun x => rlegendre (S (S l)) x - rlegendre l x) (fun x => (2 * INR l + 3) * rlegendre (S l) x)).
  - intros x. apply (derivable_pt_lim_scal (anti (S l))), anti_deriv.
  - intros x. rewrite <- lpoly_value. change (peval (lpoly (S l)) x) with (dlegendre (S l) 0 x). rewrite by_lower. apply (derivable_pt_lim_minus (rlegendre (S (S l))) (rlegendre l)); apply dleg_deriv.
Qed.
Lemma legendre_1 : forall l, fst (rleg2 l 1) = 1 /\ snd (rleg2 l 1) = 1.
Proof. induction l as [|l [A B]]; [split; reflexivity|]. cbn [rleg2]. destruct (rleg2 l 1) as [p q]. cbn [fst snd] in *. subst. split; [reflexivity|]. rewrite !plus_INR, mult_INR. cbn [INR]. pose proof (pos_INR l). field. lra. Qed.
Lemma legendre_one l : rlegendre l 1 = 1.
Proof. apply legendre_1. Qed.
Lemma legendre_odd0 l : Nat.odd l = true -> rlegendre l 0 = 0.
Proof.
  intros H. pose proof (proj1 (rleg_neg 0 l)) as E. rewrite Ropp_0 in E. apply Nat.odd_spec in H. destruct H as [m ->]. replace ((-1) ^ (2 * m + 1)) with (-1) in E; [unfold rlegendre; lra|].
  rewrite pow_add, pow_mult. replace ((-1) ^ 2) with 1 by ring. rewrite pow1. ring.
Qed.
Lemma anti_01 l : Nat.even l = true -> l <> O -> anti l 1 - anti l 0 = 0 /\ anti l 1 - anti l (-1) = 0.
Proof.
  intros E N. destruct l as [|l]; [contradiction|]. assert (OL : Nat.odd l = true) by (rewrite <- Nat.even_succ; exact E). pose proof (pos_INR l) as L.
  assert (OL2 : Nat.odd (S (S l)) = true) by (apply Nat.odd_spec; apply Nat.odd_spec in OL; destruct OL as [m ->]; exists (S m); lia).
  pose proof (anti_closed l 0 1) as A. pose proof (anti_closed l (-1) 1) as B. rewrite !legendre_one in *. rewrite (legendre_odd0 l OL), (legendre_odd0 _ OL2) in A.
  assert (NG : forall k, rlegendre k (-1) = (-1) ^ k) by (intros k; unfold rlegendre; change (-1) with (- (1)) at 1; rewrite (proj1 (rleg_neg 1 k)), (proj1 (legendre_1 k)); ring).
  rewrite !NG in B. split; apply (Rmult_eq_reg_l (2 * INR l + 3)); try lra. rewrite B. cbn [pow]. ring.
Qed.
Lemma anti_0 a b : anti 0 b - anti 0 a = b - a.
Proof. unfold anti. cbn. field. Qed.
Lemma even_ells_0 max_ell : exists r, even_ells max_ell = O :: r /\ forall l, In l r -> Nat.even l = true /\ l <> O.
Proof.
  unfold even_ells. cbn [seq filter Nat.even]. eexists. split; [reflexivity|]. intros l I. apply filter_In in I. destruct I as [I E]. apply in_seq in I. split; [exact E|lia].
Qed.
Lemma anti_series_total max_ell P a : (a = 0 \/ a = -1) -> anti_series max_ell P 1 - anti_series max_ell P a = (1 - a) * P O.
Proof.
  intros H. unfold anti_series. destruct (even_ells_0 max_ell) as (r & -> & R). cbn [map rsum].
  assert (Z : rsum (map (fun l => P l * anti l 1) r) = rsum (map (fun l => P l * anti l a) r)).
  { apply rsum_ext'. intros l I. destruct (R l I) as [E N]. destruct (anti_01 l E N) as [A B]. destruct H as [-> | ->]; [replace (anti l 1) with (anti l 0) by lra|replace (anti l 1) with (anti l (-1)) by lra]; reflexivity. }
  rewrite Z. replace (anti 0 1) with (anti 0 a + (1 - a)) by (rewrite <- (anti_0 a 1); ring). ring.
Qed.
Lemma wedges_telescope G : forall l, l <> [] -> (forall j a b, nth_error l j = Some a -> nth_error l (S j) = Some b -> a <> b) ->
  widths_sum l (map (fun p => (G (snd p) - G (fst p)) / (snd p - fst p)) (pairs l)) = G (last l 0) - G (hd 0 l).
Proof.
  induction l as [|a l IH]; intros N D; [contradiction|]. destruct l as [|b l]; [unfold widths_sum; cbn; ring|].
  change (pairs (a :: b :: l)) with ((a, b) :: pairs (b :: l)). cbn [map fst snd]. set (w := map _ (pairs (b :: l))) in *.
  change (widths_sum (a :: b :: l) ((G b - G a) / (b - a) :: w)) with ((b - a) * ((G b - G a) / (b - a)) + widths_sum (b :: l) w).
  change (last (a :: b :: l) 0) with (last (b :: l) 0). rewrite IH by (try discriminate; intros j x y Hx Hy; apply (D (S j) x y Hx Hy)).
  pose proof (D O a b eq_refl eq_refl) as AB. cbn [hd]. field. lra.
Qed.
Lemma pkmu_total nk poles P mu_edges max_ell : NoDup (map fst poles) -> (forall l, Nat.even l = true -> (l <= max_ell)%nat -> In (l, P l) poles) ->
  (forall j a b, nth_error mu_edges j = Some a -> nth_error mu_edges (S j) = Some b -> a <> b) ->
  mu_edges <> [] -> (hd 0 mu_edges = 0 \/ hd 0 mu_edges = -1) -> last mu_edges 0 = 1 ->
  exists out, to_pkmu nk poles mu_edges max_ell = Ok out /\ length out = nk /\ forall i w, nth_error out i = Some w ->
    widths_sum mu_edges (map fst w) = (1 - hd 0 mu_edges) * fst (P O i) /\ widths_sum mu_edges (map snd w) = (1 - hd 0 mu_edges) * snd (P O i).
Proof.
  intros ND HP HM NE H0 H1. eexists. split; [apply (to_pkmu_form nk poles P mu_edges max_ell ND HP HM)|]. split; [rewrite map_length, seq_length; reflexivity|].
  intros i w E. apply nth_error_map_some in E || (rewrite nth_error_map in E; destruct (nth_error (seq 0 nk) i) as [i'|] eqn:Q; [|discriminate]; cbn [option_map] in E; injection E as E; assert (L : (i < nk)%nat) by (rewrite <- (seq_length nk 0); apply nth_error_Some; congruence); rewrite (nth_error_nth' _ O) in Q by (rewrite seq_length; exact L); rewrite seq_nth in Q by exact L; injection Q as <-).
  subst w. cbn [Nat.add]. rewrite !map_map. cbn [fst snd]. unfold wedge.
  rewrite (wedges_telescope (anti_series max_ell (fun l => fst (P l i))) mu_edges NE HM), (wedges_telescope (anti_series max_ell (fun l => snd (P l i))) mu_edges NE HM), H1.
  split; [apply (anti_series_total max_ell (fun l => fst (P l i)) _ H0)|apply (anti_series_total max_ell (fun l => snd (P l i)) _ H0)].
Qed.
