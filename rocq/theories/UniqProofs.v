From Coq Require Import Reals List Bool Lra Lia Psatz Sorted.
From Verif Require Import Base UniqModel.
Import ListNotations.
Local Open Scope R_scope.

Lemma rltb_iff x y : rltb x y = true <-> x < y.
Proof. unfold rltb. destruct (Rlt_dec x y); split; intros; try reflexivity; try assumption; try discriminate; contradiction. Qed.
Lemma floor_spec x : IZR (Int_part x) <= x < IZR (Int_part x) + 1.
Proof. destruct (base_Int_part x) as [H1 H2]. split; [exact H1|lra]. Qed.
Lemma floor_unique x z : IZR z <= x < IZR z + 1 -> Int_part x = z.
Proof.
  intros [H1 H2]. destruct (floor_spec x) as [F1 F2]. assert (A : IZR (Int_part x) < IZR (z + 1)) by (rewrite plus_IZR; lra). assert (B : IZR z < IZR (Int_part x + 1)) by (rewrite plus_IZR; lra). apply lt_IZR in A. apply lt_IZR in B. lia.
Qed.
Lemma floor_mono x y : x <= y -> (Int_part x <= Int_part y)%Z.
Proof. intros H. destruct (floor_spec x), (floor_spec y). assert (A : IZR (Int_part x) < IZR (Int_part y + 1)) by (rewrite plus_IZR; lra). apply lt_IZR in A. lia. Qed.
Lemma int64_pos x : 0 <= x -> int64 x = Int_part x.
Proof. intros H. unfold int64. destruct (rltb x 0) eqn:E; [apply rltb_iff in E; lra|reflexivity]. Qed.

(* unique *)
Section U.
Variable key : R -> Z.
Definition fine (l : list (Z * R)) : Prop := StronglySorted (fun a b => (fst a < fst b)%Z) l /\ Forall (fun a => fst a = key (snd a)) l.
Lemma put_in k x l a : In a (put k x l) -> a = (k, x) \/ In a l.
Proof.
  induction l as [|[k' y] l IH]; cbn [put]; [intros [H|[]]; auto|]. destruct (k <? k')%Z; [intros [H|H]; auto|]. destruct (k =? k')%Z; [auto|]. intros [H|H]; [right; left; exact H|destruct (IH H); auto with datatypes].
Qed.
Lemma put_has k x l : exists y, In (k, y) (put k x l) /\ (y = x \/ In (k, y) l).
Proof.
  induction l as [|[k' y] l (z & H1 & H2)]; cbn [put]; [exists x; auto with datatypes|]. destruct (Z.ltb_spec k k'); [exists x; auto with datatypes|]. destruct (Z.eqb_spec k k') as [->|]; [exists y; auto with datatypes|]. exists z. destruct H2; auto with datatypes.
Qed.
Lemma put_keep k x l a : In a l -> In a (put k x l).
Proof. induction l as [|[k' y] l IH]; cbn [put]; [intros []|]. intros H. destruct (k <? k')%Z; [right; exact H|]. destruct (k =? k')%Z; [exact H|]. destruct H as [H|H]; [left; exact H|right; apply IH; exact H]. Qed.
Lemma put_fine x l : fine l -> fine (put (key x) x l).
Proof.
  intros [H1 H2]. induction H1 as [|[k' y] l H1 IH F]; cbn [put].
  - split; [constructor; [constructor|constructor]|constructor; [reflexivity|constructor]].
  - inversion H2 as [|a b P Q]; subst. destruct (Z.ltb_spec (key x) k') as [L|L].
    + split; [|constructor; [reflexivity|exact H2]]. constructor; [constructor; [exact H1|exact F]|]. constructor; [exact L|]. rewrite Forall_forall in F |- *. intros a Ha. specialize (F a Ha). cbn [fst] in *. lia.
    + destruct (Z.eqb_spec (key x) k') as [E|E]; [split; [constructor; assumption|exact H2]|]. destruct (IH Q) as [I1 I2]. split; [|constructor; assumption]. constructor; [exact I1|].
      rewrite Forall_forall in F |- *. intros a Ha. apply put_in in Ha as [-> |Ha]; [cbn [fst]; lia|apply F; exact Ha].
Qed.
Lemma fold_fine l : forall acc, fine acc -> fine (fold_left (fun acc x => put (key x) x acc) l acc).
Proof. induction l as [|x l IH]; intros acc H; [exact H|]. cbn [fold_left]. apply IH, put_fine, H. Qed.
Lemma fold_in l : forall acc a, In a (fold_left (fun acc x => put (key x) x acc) l acc) -> In a acc \/ In (snd a) l.
Proof. induction l as [|x l IH]; intros acc a H; [left; exact H|]. cbn [fold_left] in H. apply IH in H as [H|H]; [|right; right; exact H]. apply put_in in H as [-> |H]; [right; left; reflexivity|left; exact H]. Qed.
Lemma fold_keep l : forall acc a, In a acc -> In a (fold_left (fun acc x => put (key x) x acc) l acc).
Proof. induction l as [|x l IH]; intros acc a H; [exact H|]. cbn [fold_left]. apply IH, put_keep, H. Qed.
Lemma fold_has l : forall acc x, In x l -> exists y, In (key x, y) (fold_left (fun acc x => put (key x) x acc) l acc).
Proof.
  induction l as [|z l IH]; intros acc x H; [destruct H|]. cbn [fold_left]. destruct H as [->|H]; [|apply IH; exact H]. destruct (put_has (key x) x acc) as (y & H1 & _). exists y. apply fold_keep, H1.
Qed.
Theorem unique_ok l : (forall x y, In x l -> In y l -> key x = key y -> x = y) -> (forall x, In x (unique_by key l) <-> In x l) /\ StronglySorted (fun x y => (key x < key y)%Z) (unique_by key l).
Proof.
  intros INJ. unfold unique_by. set (t := fold_left (fun acc x => put (key x) x acc) l []). assert (FT : fine t) by (apply fold_fine; split; constructor). assert (TI : forall a, In a t -> In (snd a) l) by (intros a Ha; apply fold_in in Ha as [[]|Ha]; exact Ha).
  split.
  - intros x. split.
    + intros H. apply in_map_iff in H as (a & <- & H). apply TI, H.
    + intros H. destruct (fold_has l [] x H) as (y & Hy). fold t in Hy. assert (y = x); [|subst y; apply in_map_iff; exists (key x, x); auto]. destruct FT as [_ F]. rewrite Forall_forall in F. pose proof (F _ Hy) as K. cbn [fst snd] in K. apply INJ; [exact (TI _ Hy)|exact H|congruence].
  - destruct FT as [S' F]. clear TI. clearbody t. induction S' as [|a t S' IH G]; [constructor|]. cbn [map]. inversion F as [|b c P Q]; subst. constructor; [apply IH; exact Q|].
    rewrite Forall_forall in G, Q |- *. intros x Hx. apply in_map_iff in Hx as (b & <- & Hb). specialize (G b Hb). specialize (Q b Hb). congruence.
Qed.
End U.
Lemma ss_weaken {X} (P Q : X -> X -> Prop) l : (forall x y, In x l -> In y l -> P x y -> Q x y) -> StronglySorted P l -> StronglySorted Q l.
Proof.
  intros H S'. induction S' as [|a l S' IH F]; [constructor|]. constructor; [apply IH; intros; apply H; auto with datatypes|]. rewrite Forall_forall in F |- *. intros x Hx. apply H; auto with datatypes.
Qed.
Lemma ss_nth {X} (P : X -> X -> Prop) l : StronglySorted P l -> forall i j x y, (i < j)%nat -> nth_error l i = Some x -> nth_error l j = Some y -> P x y.
Proof.
  induction 1 as [|a l S' IH F]; intros i j x y L Hi Hj; [destruct i; discriminate|]. destruct j as [|j]; [lia|]. cbn in Hj. destruct i as [|i]; cbn in Hi.
  - injection Hi as <-. rewrite Forall_forall in F. apply F. apply nth_error_In in Hj. exact Hj.
  - apply (IH i j); [lia|exact Hi|exact Hj].
Qed.
(* bins around increasing numbers *)
Definition bins (fx : list R) : list R := (0 :: tl ((hd 0 fx :: map (fun fw => fst fw - snd fw * (5 / 10)) (combine (tl fx) (diff fx))) ++ [last fx 0 + last (diff fx) 0 * (5 / 10)]))%list.
Lemma diff_nth l i : nth_error (diff l) i = match nth_error l i, nth_error l (S i) with Some a, Some b => Some (b - a) | _, _ => None end.
Proof.
  unfold diff. rewrite nth_error_map. assert (E : nth_error (combine l (tl l)) i = match nth_error l i, nth_error l (S i) with Some a, Some b => Some (a, b) | _, _ => None end).
  { revert i. induction l as [|a l IH]; intros i; [destruct i; reflexivity|]. destruct l as [|b l]; [destruct i; [reflexivity|cbn; destruct i; reflexivity]|]. destruct i as [|i]; [reflexivity|]. exact (IH i). }
  rewrite E. destruct (nth_error l i); [|reflexivity]. destruct (nth_error l (S i)); reflexivity.
Qed.
Lemma diff_length l : length (diff l) = pred (length l).
Proof. unfold diff. rewrite map_length, combine_length. destruct l; cbn [length tl Nat.pred]; lia. Qed.
Lemma last_nth {X} (l : list X) d : l <> [] -> nth_error l (pred (length l)) = Some (last l d).
Proof. intros H. destruct (exists_last H) as (l' & x & ->). rewrite last_last, app_length. cbn. replace (pred (length l' + 1)) with (length l') by lia. rewrite nth_error_app2, Nat.sub_diag by lia. reflexivity. Qed.
Lemma nth_combine {X Y} (l : list X) (m : list Y) i : nth_error (combine l m) i = match nth_error l i, nth_error m i with Some a, Some b => Some (a, b) | _, _ => None end.
Proof. revert m i. induction l as [|a l IH]; intros m i; [destruct i; reflexivity|]. destruct m as [|b m]; [destruct i; [reflexivity|cbn; destruct (nth_error l i); reflexivity]|]. destruct i as [|i]; [reflexivity|exact (IH m i)]. Qed.
Lemma bins_length fx : (2 <= length fx)%nat -> length (bins fx) = S (length fx).
Proof. intros H. unfold bins. cbn [app tl length]. rewrite app_length, map_length, combine_length, diff_length. destruct fx; cbn [length tl Nat.pred] in *; lia. Qed.
Lemma bins_mid fx i a b : nth_error fx i = Some a -> nth_error fx (S i) = Some b -> nth_error (bins fx) (S i) = Some ((a + b) / 2).
Proof.
  intros Ha Hb. assert (L : (S i < length fx)%nat) by (apply nth_error_Some; congruence). unfold bins. cbn [app tl nth_error].
  assert (LM : length (map (fun fw : R * R => fst fw - snd fw * (5 / 10)) (combine (tl fx) (diff fx))) = pred (length fx)) by (rewrite map_length, combine_length, diff_length; destruct fx; cbn [length tl Nat.pred]; lia).
  rewrite nth_error_app1 by lia. rewrite nth_error_map, nth_combine, diff_nth, Ha, Hb. destruct fx as [|x fx]; [discriminate|]. cbn [tl]. cbn [nth_error] in Hb. rewrite Hb. cbn. f_equal. field.
Qed.
Lemma bins_last fx i a b : S (S i) = length fx -> nth_error fx i = Some a -> nth_error fx (S i) = Some b -> nth_error (bins fx) (length fx) = Some (b + (b - a) / 2).
Proof.
  intros L Ha Hb. unfold bins. rewrite <- L. cbn [app tl]. match goal with |- nth_error (0 :: ?l) _ = _ => change (nth_error l (S i) = Some (b + (b - a) / 2)) end.
  assert (LM : length (map (fun fw : R * R => fst fw - snd fw * (5 / 10)) (combine (tl fx) (diff fx))) = pred (length fx)) by (rewrite map_length, combine_length, diff_length; destruct fx; cbn [length tl Nat.pred] in *; lia).
  rewrite nth_error_app2 by lia. replace (S i - _)%nat with 0%nat by lia. cbn [nth_error]. f_equal.
  assert (E1 : last fx 0 = b). { assert (N : fx <> []) by (destruct fx; [discriminate|discriminate]). pose proof (last_nth fx 0 N) as Q. replace (pred (length fx)) with (S i) in Q by lia. congruence. }
  assert (E2 : last (diff fx) 0 = b - a). { assert (N : diff fx <> []) by (intros E; apply (f_equal (@length R)) in E; rewrite diff_length in E; cbn in E; lia). pose proof (last_nth (diff fx) 0 N) as Q. rewrite diff_length in Q. replace (pred (pred (length fx))) with i in Q by lia. rewrite diff_nth, Ha, Hb in Q. congruence. }
  rewrite E1, E2. field.
Qed.
Theorem bins_ok fx : (2 <= length fx)%nat -> StronglySorted Rlt fx -> Forall (fun x => 0 <= x) fx ->
  forall i c lo hi, nth_error fx i = Some c -> nth_error (bins fx) i = Some lo -> nth_error (bins fx) (S i) = Some hi -> lo <= c < hi /\ forall m, In m fx -> lo <= m < hi -> m = c.
Proof.
  intros L SS NN i c lo hi Hc Hlo Hhi. assert (Li : (i < length fx)%nat) by (apply nth_error_Some; congruence).
  assert (LO : lo <= c /\ forall j x, (j < i)%nat -> nth_error fx j = Some x -> x < lo).
  { destruct i as [|i]; [cbn in Hlo; injection Hlo as <-; split; [rewrite Forall_forall in NN; apply NN; apply nth_error_In in Hc; exact Hc|intros; lia]|].
    destruct (nth_error fx i) as [p|] eqn:Ep; [|apply nth_error_None in Ep; lia]. rewrite (bins_mid fx i p c Ep Hc) in Hlo. injection Hlo as <-. assert (p < c) by (apply (ss_nth _ fx SS i (S i)); [lia|exact Ep|exact Hc]). split; [lra|].
    intros j x Hj Ex. destruct (Nat.eq_dec j i) as [->|N]; [replace x with p by congruence; lra|]. assert (x < p) by (apply (ss_nth _ fx SS j i); [lia|exact Ex|exact Ep]). lra. }
  assert (HI : c < hi /\ forall j x, (i < j)%nat -> nth_error fx j = Some x -> hi < x).
  { destruct (Nat.eq_dec (S i) (length fx)) as [E|E].
    - destruct i as [|i]; [lia|]. destruct (nth_error fx i) as [p|] eqn:Ep; [|apply nth_error_None in Ep; lia]. rewrite E in Hhi. rewrite (bins_last fx i p c E Ep Hc) in Hhi. injection Hhi as <-. assert (p < c) by (apply (ss_nth _ fx SS i (S i)); [lia|exact Ep|exact Hc]). split; [lra|]. intros j x Hj Ex. assert (j < length fx)%nat by (apply nth_error_Some; congruence). lia.
    - destruct (nth_error fx (S i)) as [q|] eqn:Eq; [|apply nth_error_None in Eq; lia]. rewrite (bins_mid fx i c q Hc Eq) in Hhi. injection Hhi as <-. assert (c < q) by (apply (ss_nth _ fx SS i (S i)); [lia|exact Hc|exact Eq]). split; [lra|].
      intros j x Hj Ex. destruct (Nat.eq_dec j (S i)) as [->|N]; [replace x with q by congruence; lra|]. assert (q < x) by (apply (ss_nth _ fx SS (S i) j); [lia|exact Eq|exact Ex]). lra. }
  destruct LO as [LO1 LO2]. destruct HI as [HI1 HI2]. split; [lra|]. intros m Hm [M1 M2]. apply In_nth_error in Hm as [j Hj]. destruct (Nat.lt_trichotomy j i) as [K|[-> |K]]; [specialize (LO2 j m K Hj); lra|congruence|specialize (HI2 j m K Hj); lra].
Qed.

(* cubic boxes *)
Section Cubic.
Variable kf : R.
Hypothesis kf_pos : 0 < kf.
Variable ranks : list (list Z).
Hypothesis small : forall r n, In r ranks -> In n r -> (0 <= n < 2500000000)%Z.
Variable xmax : R.
Definition modulus (n : Z) : R := kf * sqrt (IZR n).
Definition present (n : Z) : Prop := exists r, In r ranks /\ In n r.
Lemma rmin3 : rmin [kf; kf; kf] = kf.
Proof. unfold rmin. cbn [fold_left]. rewrite (Rmin_left kf kf) by apply Rle_refl. apply Rmin_left, Rle_refl. Qed.
Lemma key1 n : (0 <= n)%Z -> int64 (kf ^ 2 * IZR n / (kf * (5 / 100)) ^ 2 + 5 / 10) = (400 * n)%Z.
Proof.
  intros H. assert (E : kf ^ 2 * IZR n / (kf * (5 / 100)) ^ 2 + 5 / 10 = IZR (400 * n) + 5 / 10) by (rewrite mult_IZR; field; lra). rewrite E. assert (0 <= IZR (400 * n)) by (apply IZR_le; lia). rewrite int64_pos by lra. apply floor_unique. lra.
Qed.
Lemma sqrt_gap n m : (0 <= n)%Z -> (n < m)%Z -> (m < 2500000000)%Z -> 1 < 100000 * (sqrt (IZR m) - sqrt (IZR n)).
Proof.
  intros H0 H1 H2. assert (A : 0 <= IZR n) by (apply IZR_le; lia). assert (B : IZR n + 1 <= IZR m) by (rewrite <- plus_IZR; apply IZR_le; lia). assert (C : IZR m < 2500000000) by (apply IZR_lt; exact H2).
  pose proof (sqrt_pos (IZR n)). pose proof (sqrt_pos (IZR m)). pose proof (sqrt_def (IZR n) A). pose proof (sqrt_def (IZR m) ltac:(lra)).
  assert (SM : sqrt (IZR m) < 50000) by (rewrite <- (sqrt_square 50000) by lra; apply sqrt_lt_1; lra). assert (SN : sqrt (IZR n) < sqrt (IZR m)) by (apply sqrt_lt_1; lra). nra.
Qed.
Lemma key2 n : (0 <= n)%Z -> int64 (modulus n / (kf * (1 / 100000)) + 5 / 10) = Int_part (100000 * sqrt (IZR n) + 5 / 10).
Proof. intros H. assert (E : modulus n / (kf * (1 / 100000)) = 100000 * sqrt (IZR n)) by (unfold modulus; field; lra). rewrite E. pose proof (sqrt_pos (IZR n)). apply int64_pos. lra. Qed.
Lemma key2_lt n m : (0 <= n)%Z -> (n < m)%Z -> (m < 2500000000)%Z -> (Int_part (100000 * sqrt (IZR n) + 5 / 10) < Int_part (100000 * sqrt (IZR m) + 5 / 10))%Z.
Proof.
  intros H0 H1 H2. pose proof (sqrt_gap n m H0 H1 H2). pose proof (floor_spec (100000 * sqrt (IZR n) + 5 / 10)). pose proof (floor_spec (100000 * sqrt (IZR m) + 5 / 10)).
  assert (A : IZR (Int_part (100000 * sqrt (IZR n) + 5 / 10) + 1) < IZR (Int_part (100000 * sqrt (IZR m) + 5 / 10) + 1)) by (rewrite !plus_IZR; lra). apply lt_IZR in A. lia.
Qed.
Lemma sqrt_k2 n : (0 <= n)%Z -> sqrt (kf ^ 2 * IZR n) = modulus n.
Proof. intros H. unfold modulus. rewrite sqrt_mult; [|apply pow2_ge_0|apply IZR_le; exact H]. rewrite sqrt_pow2 by lra. reflexivity. Qed.
Lemma local_unique r : In r ranks -> forall x, In x (find_unique_local (map (fun n => kf ^ 2 * IZR n) r) ((kf * (5 / 100)) ^ 2)) <-> exists n, In n r /\ x = kf ^ 2 * IZR n.
Proof.
  intros Hr x. unfold find_unique_local. destruct (unique_ok (fun f => int64 (f / (kf * (5 / 100)) ^ 2 + 5 / 10)) (map (fun n => kf ^ 2 * IZR n) r)) as [U _].
  { intros a b Ha Hb E. apply in_map_iff in Ha as (n & <- & Hn). apply in_map_iff in Hb as (m & <- & Hm). rewrite !key1 in E by (first [apply (small r n Hr Hn)|apply (small r m Hr Hm)]). replace m with n by lia. reflexivity. }
  rewrite U. rewrite in_map_iff. split; intros (n & A & B); exists n; auto.
Qed.
Definition gathered := concat (map (fun fx2 => filter (fun f => rltb f xmax) (map sqrt (find_unique_local fx2 ((kf * (5 / 100)) ^ 2)))) (map (map (fun n => kf ^ 2 * IZR n)) ranks)).
Lemma gathered_in x : In x gathered <-> exists n, present n /\ x = modulus n /\ x < xmax.
Proof.
  unfold gathered. rewrite map_map, in_concat. split.
  - intros (l & Hl & Hx). apply in_map_iff in Hl as (r & <- & Hr). apply filter_In in Hx as [Hx Hm]. apply rltb_iff in Hm. apply in_map_iff in Hx as (y & <- & Hy). apply (local_unique r Hr) in Hy as (n & Hn & ->). rewrite sqrt_k2 in * by apply (small r n Hr Hn). exists n. split; [exists r; auto|auto].
  - intros (n & (r & Hr & Hn) & -> & Hm). eexists. split; [apply in_map_iff; exists r; split; [reflexivity|exact Hr]|]. apply filter_In. split; [|apply rltb_iff; exact Hm]. apply in_map_iff. exists (kf ^ 2 * IZR n). split; [apply sqrt_k2, (small r n Hr Hn)|]. apply (local_unique r Hr). exists n. auto.
Qed.
Definition centers := find_unique_local gathered (kf * (1 / 100000)).
Lemma present_small n : present n -> (0 <= n < 2500000000)%Z.
Proof. intros (r & Hr & Hn). apply (small r n Hr Hn). Qed.
Lemma centers_ok : (forall x, In x centers <-> exists n, present n /\ x = modulus n /\ x < xmax) /\ StronglySorted Rlt centers /\ Forall (fun x => 0 <= x) centers.
Proof.
  unfold centers, find_unique_local. destruct (unique_ok (fun f => int64 (f / (kf * (1 / 100000)) + 5 / 10)) gathered) as [U S'].
  { intros a b Ha Hb E. apply gathered_in in Ha as (n & Pn & -> & _). apply gathered_in in Hb as (m & Pm & -> & _). pose proof (present_small n Pn). pose proof (present_small m Pm). rewrite !key2 in E by lia.
    destruct (Z.lt_trichotomy n m) as [L|[-> |L]]; [pose proof (key2_lt n m ltac:(lia) L ltac:(lia)); lia|reflexivity|pose proof (key2_lt m n ltac:(lia) L ltac:(lia)); lia]. }
  assert (UI : forall x, In x (unique_by (fun f => int64 (f / (kf * (1 / 100000)) + 5 / 10)) gathered) <-> exists n, present n /\ x = modulus n /\ x < xmax) by (intros x; rewrite U; apply gathered_in).
  split; [exact UI|]. split.
  - eapply ss_weaken; [|exact S']. intros x y Hx Hy L. apply UI in Hx as (n & Pn & -> & _). apply UI in Hy as (m & Pm & -> & _). pose proof (present_small n Pn). pose proof (present_small m Pm). rewrite !key2 in L by lia.
    destruct (Rlt_le_dec (modulus n) (modulus m)) as [G|G]; [exact G|]. exfalso. unfold modulus in G. apply Rmult_le_reg_l in G; [|exact kf_pos]. pose proof (floor_mono (100000 * sqrt (IZR m) + 5 / 10) (100000 * sqrt (IZR n) + 5 / 10) ltac:(lra)). lia.
  - apply Forall_forall. intros x Hx. apply UI in Hx as (n & _ & -> & _). unfold modulus. apply Rmult_le_pos; [lra|apply sqrt_pos].
Qed.
Lemma edges_eq : find_unique_edges (map (map (fun n => kf ^ 2 * IZR n)) ranks) [kf; kf; kf] xmax = if (length centers <=? 1)%nat then Err IndexError else Ok (bins centers, centers).
Proof.
  unfold find_unique_edges. cbv zeta. rewrite rmin3. fold gathered. fold centers. pose proof (diff_length centers) as L. destruct (diff centers) as [|d ds] eqn:E.
  - cbn in L. destruct (Nat.leb_spec (length centers) 1); [reflexivity|lia].
  - cbn in L. destruct (Nat.leb_spec (length centers) 1); [lia|]. unfold bins. rewrite <- E. reflexivity.
Qed.
Theorem edges_cubic : (exists n m, present n /\ present m /\ n <> m /\ modulus n < xmax /\ modulus m < xmax) ->
  exists edges coords, find_unique_edges (map (map (fun n => kf ^ 2 * IZR n)) ranks) [kf; kf; kf] xmax = Ok (edges, coords) /\ length edges = S (length coords) /\ nth_error edges 0 = Some 0 /\ StronglySorted Rlt coords /\
    (forall c, In c coords <-> exists n, present n /\ c = modulus n /\ c < xmax) /\
    forall i c lo hi, nth_error coords i = Some c -> nth_error edges i = Some lo -> nth_error edges (S i) = Some hi -> lo <= c < hi /\ forall n, present n -> modulus n < xmax -> lo <= modulus n < hi -> modulus n = c.
Proof.
  intros (n & m & Pn & Pm & NE & Hn & Hm). destruct centers_ok as (C1 & C2 & C3).
  assert (L : (2 <= length centers)%nat).
  { assert (I1 : In (modulus n) centers) by (apply C1; exists n; auto). assert (I2 : In (modulus m) centers) by (apply C1; exists m; auto).
    assert (D : modulus n <> modulus m). { unfold modulus. intros E. apply Rmult_eq_reg_l in E; [|lra]. pose proof (present_small n Pn). pose proof (present_small m Pm). destruct (Z.lt_trichotomy n m) as [K|[K|K]]; [pose proof (sqrt_gap n m ltac:(lia) K ltac:(lia)); lra|contradiction|]. pose proof (sqrt_gap m n ltac:(lia) K ltac:(lia)). lra. }
    destruct centers as [|a [|b l]]; [destruct I1| |cbn; lia]. destruct I1 as [I1|[]]. destruct I2 as [I2|[]]. congruence. }
  exists (bins centers), centers. rewrite edges_eq. destruct (Nat.leb_spec (length centers) 1); [lia|]. split; [reflexivity|]. split; [apply bins_length; exact L|]. split; [reflexivity|]. split; [exact C2|]. split; [exact C1|].
  intros i c lo hi Hc Hlo Hhi. destruct (bins_ok centers L C2 C3 i c lo hi Hc Hlo Hhi) as [B1 B2]. split; [exact B1|]. intros k Pk Hk. apply B2. apply C1. exists k. auto.
Qed.
End Cubic.
