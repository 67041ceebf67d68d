From Coq Require Import Reals List Bool Lia Lra Sorting.Sorted.
From Verif Require Import Base UniqModel UniqProofs.
Import ListNotations.
Local Open Scope R_scope.

(* arange *)
Lemma ceil_lt i y : (i < Z.to_nat (- Int_part (- y)))%nat <-> INR i < y.
Proof.
  destruct (floor_spec (- y)) as [F1 F2]. rewrite INR_IZR_INZ. set (c := Int_part (- y)) in *. split; intros H.
  - assert (A : (Z.of_nat i < - c)%Z) by lia. apply Z.le_succ_l in A. apply IZR_le in A. rewrite succ_IZR, opp_IZR in A. lra.
  - assert (A : IZR (Z.of_nat i) < IZR (- c)) by (rewrite opp_IZR; lra). apply lt_IZR in A. lia.
Qed.
Theorem arange_nth start stop step i : 0 < step -> nth_error (arange start stop step) i = if Rlt_dec (start + INR i * step) stop then Some (start + INR i * step) else None.
Proof.
  intros Hs. unfold arange. rewrite nth_error_map. pose proof (ceil_lt i ((stop - start) / step)) as C. set (n := Z.to_nat _) in *.
  assert (D : INR i < (stop - start) / step <-> start + INR i * step < stop).
  { split; intros H.
    - apply (Rmult_lt_compat_r step) in H; [|exact Hs]. replace ((stop - start) / step * step) with (stop - start) in H by (field; lra). lra.
    - apply (Rmult_lt_reg_r step); [exact Hs|]. replace ((stop - start) / step * step) with (stop - start) by (field; lra). lra. }
  destruct (Rlt_dec (start + INR i * step) stop) as [L|L].
  - assert (A : (i < n)%nat) by (apply C, D, L). rewrite (nth_error_nth' (seq 0 n) 0%nat) by (rewrite seq_length; exact A). rewrite seq_nth by exact A. reflexivity.
  - assert (A : ~ (i < n)%nat) by (intros A; apply L, D, C, A). assert (E : nth_error (seq 0 n) i = None) by (apply nth_error_None; rewrite seq_length; lia). rewrite E. reflexivity.
Qed.
Lemma fold_min_le l : forall a x, (x = a \/ In x l) -> fold_left Rmin l a <= x.
Proof.
  induction l as [|b l IH]; intros a x H; cbn [fold_left]; [destruct H as [->|[]]; apply Rle_refl|]. destruct H as [-> |[-> |H]].
  - eapply Rle_trans; [apply IH; left; reflexivity|apply Rmin_l].
  - eapply Rle_trans; [apply IH; left; reflexivity|apply Rmin_r].
  - apply IH. right. exact H.
Qed.
Lemma rmin_le l x : In x l -> rmin l <= x.
Proof. destruct l as [|a l]; [intros []|]. intros H. cbn [rmin]. apply fold_min_le. destruct H as [->|H]; auto. Qed.
Lemma fold_max_ge l : forall a x, (x = a \/ In x l) -> x <= fold_left Rmax l a.
Proof.
  induction l as [|b l IH]; intros a x H; cbn [fold_left]; [destruct H as [->|[]]; apply Rle_refl|]. destruct H as [-> |[-> |H]].
  - eapply Rle_trans; [apply Rmax_l|apply IH; left; reflexivity].
  - eapply Rle_trans; [apply Rmax_r|apply IH; left; reflexivity].
  - apply IH. right. exact H.
Qed.
Lemma fold_min_in l : forall a, fold_left Rmin l a = a \/ In (fold_left Rmin l a) l.
Proof.
  induction l as [|b l IH]; intros a; cbn [fold_left]; [left; reflexivity|]. destruct (IH (Rmin a b)) as [E|H]; [|right; right; exact H]. rewrite E. unfold Rmin. destruct (Rle_dec a b); [left; reflexivity|right; left; reflexivity].
Qed.
Lemma rmin_in l : l <> [] -> In (rmin l) l.
Proof. destruct l as [|a l]; [congruence|]. intros _. cbn [rmin]. destruct (fold_min_in l a) as [E|H]; [left; symmetry; exact E|right; exact H]. Qed.
(* the bins of a positive width *)
Theorem edges_linear N L ranks dk kmin kmax : 0 < dk -> exists edges, k_edges N L ranks (Some dk) kmin (Some kmax) = Ok (edges, None) /\
  forall i, nth_error edges i = if Rlt_dec (kmin + INR i * dk) kmax then Some (kmin + INR i * dk) else None.
Proof.
  intros H. unfold k_edges. destruct (rltb 0 dk) eqn:E; [|exfalso; assert (rltb 0 dk = true) by (apply rltb_iff; exact H); congruence]. exists (arange kmin kmax dk). split; [reflexivity|]. intros i. apply arange_nth, H.
Qed.
Theorem edges_nyquist N L ranks dk kmin : 0 < dk -> L <> [] -> Forall (fun n => 0 <= n) N -> Forall (fun l => 0 < l) L ->
  exists edges, k_edges N L ranks (Some dk) kmin None = Ok (edges, None) /\ forall e n l, In e edges -> In n N -> In l L -> e < PI * n / l + dk / 2.
Proof.
  intros H HL HN HP. unfold k_edges. destruct (rltb 0 dk) eqn:E; [|exfalso; assert (rltb 0 dk = true) by (apply rltb_iff; exact H); congruence]. eexists. split; [reflexivity|]. intros e n l He Hn Hl. apply In_nth_error in He as (i & Hi). rewrite arange_nth in Hi by exact H.
  destruct (Rlt_dec _ _) as [LT|]; [|discriminate]. injection Hi as <-. eapply Rlt_le_trans; [exact LT|]. apply Rplus_le_compat_r. rewrite Forall_forall in HN, HP. pose proof (HP l Hl) as L0. pose proof (rmin_le N n Hn) as M. pose proof (fold_max_ge L 0 l (or_intror Hl)) as X. pose proof PI_RGT_0.
  assert (0 <= rmin N) by (apply HN, rmin_in; intros ->; destruct Hn). unfold Rdiv. assert (/ fold_left Rmax L 0 <= / l) by (apply Rinv_le_contravar; assumption). assert (0 < / fold_left Rmax L 0) by (apply Rinv_0_lt_compat; lra). assert (0 <= PI * rmin N) by (apply Rmult_le_pos; lra).
  apply Rmult_le_compat; [assumption|lra| |assumption]. apply Rmult_le_compat_l; lra.
Qed.
Lemma max3 l : 0 < l -> fold_left Rmax [l; l; l] 0 = l.
Proof. intros H. cbn [fold_left]. rewrite (Rmax_right 0 l) by lra. rewrite (Rmax_left l l) by lra. apply Rmax_left; lra. Qed.
Theorem edges_default n l ranks : (0 <= n)%Z -> 0 < l -> exists edges, k_edges [IZR n; IZR n; IZR n] [l; l; l] ranks None 0 None = Ok (edges, None) /\
  forall i, nth_error edges i = if (i <=? Z.to_nat (n / 2))%nat then Some (INR i * (2 * PI / l)) else None.
Proof.
  intros Hn Hl. pose proof PI_RGT_0 as P. unfold k_edges. rewrite !rmin3, max3 by exact Hl. set (dk := 2 * PI / l). assert (D : 0 < dk) by (unfold dk, Rdiv; apply Rmult_lt_0_compat; [lra|apply Rinv_0_lt_compat, Hl]).
  destruct (rltb 0 dk) eqn:E; [|exfalso; assert (rltb 0 dk = true) by (apply rltb_iff; exact D); congruence]. eexists. split; [reflexivity|]. intros i. rewrite arange_nth by exact D. rewrite !Rplus_0_l.
  assert (K : PI * IZR n / l + dk / 2 = (IZR n + 1) / 2 * dk) by (unfold dk; field; lra). rewrite K.
  assert (Q : INR i * dk < (IZR n + 1) / 2 * dk <-> (i <= Z.to_nat (n / 2))%nat).
  { rewrite INR_IZR_INZ. split; intros H.
    - apply Rmult_lt_reg_r in H; [|exact D]. assert (A : IZR (2 * Z.of_nat i) < IZR (n + 1)) by (rewrite mult_IZR, plus_IZR; lra). apply lt_IZR in A. lia.
    - apply Rmult_lt_compat_r; [exact D|]. assert (A : (2 * Z.of_nat i < n + 1)%Z) by lia. apply IZR_lt in A. rewrite mult_IZR, plus_IZR in A. lra. }
  destruct (Rlt_dec _ _) as [A|A]; destruct (Nat.leb_spec i (Z.to_nat (n / 2))) as [B|B]; try reflexivity; exfalso; [apply Q in A; lia|apply A, Q, B].
Qed.
(* a long box *)
Theorem no_bins : exists N L, (forall n l, In n N -> In l L -> 0 < n /\ 0 < l) /\ Forall2 (fun n l => PI * n / l = 4 * PI) N L /\ forall ranks, k_edges N L ranks None 0 None = Ok ([0], None).
Proof.
  exists [4; 4; 400], [1; 1; 100]. split; [intros n l Hn Hl; cbn in Hn, Hl; repeat destruct Hn as [<-|Hn]; repeat destruct Hl as [<-|Hl]; try contradiction; lra|]. split; [repeat constructor; field|].
  intros ranks. pose proof PI_RGT_0 as P. unfold k_edges. assert (E1 : rmin [1; 1; 100] = 1) by (unfold rmin; cbn [fold_left]; rewrite (Rmin_left 1 1) by lra; apply Rmin_left; lra). assert (E2 : rmin [4; 4; 400] = 4) by (unfold rmin; cbn [fold_left]; rewrite (Rmin_left 4 4) by lra; apply Rmin_left; lra).
  assert (E3 : fold_left Rmax [1; 1; 100] 0 = 100) by (cbn [fold_left]; rewrite (Rmax_right 0 1) by lra; rewrite (Rmax_left 1 1) by lra; apply Rmax_right; lra). rewrite E1, E2, E3.
  destruct (rltb 0 (2 * PI / 1)) eqn:E; [|exfalso; assert (rltb 0 (2 * PI / 1) = true) by (apply rltb_iff; lra); congruence]. do 2 f_equal.
  assert (A : forall i, nth_error (arange 0 (PI * 4 / 100 + 2 * PI / 1 / 2) (2 * PI / 1)) i = nth_error [0] i).
  { intros i. rewrite arange_nth by lra. destruct i as [|i]; [cbn [INR nth_error]; destruct (Rlt_dec _ _) as [|C]; [f_equal; lra|exfalso; apply C; lra]|].
    replace (nth_error [0] (S i)) with (@None R) by (cbn; destruct i; reflexivity). destruct (Rlt_dec _ _) as [C|]; [|reflexivity]. exfalso. rewrite S_INR in C. pose proof (pos_INR i). nra. }
  set (l := arange _ _ _) in *. clearbody l. destruct l as [|a l]; [specialize (A 0%nat); discriminate|]. pose proof (A 0%nat) as A0. cbn in A0. injection A0 as ->. f_equal. destruct l as [|b l]; [reflexivity|]. specialize (A 1%nat). discriminate.
Qed.
(* increasing lists with equal elements *)
Lemma sorted_eq l : forall m, StronglySorted Rlt l -> StronglySorted Rlt m -> (forall x, In x l <-> In x m) -> l = m.
Proof.
  induction l as [|a l IH]; intros m Sl Sm H; [destruct m as [|b m]; [reflexivity|exfalso; apply (H b); left; reflexivity]|].
  destruct m as [|b m]; [exfalso; apply (H a); left; reflexivity|]. inversion Sl as [|? ? S1 F1]; subst. inversion Sm as [|? ? S2 F2]; subst. rewrite Forall_forall in F1, F2.
  assert (E : a = b). { destruct (proj1 (H a) (or_introl eq_refl)) as [->|I1]; [reflexivity|]. destruct (proj2 (H b) (or_introl eq_refl)) as [->|I2]; [reflexivity|]. pose proof (F2 a I1). pose proof (F1 b I2). lra. }
  subst b. f_equal. apply IH; [assumption|assumption|]. intros x. split; intros Hx.
  - destruct (proj1 (H x) (or_intror Hx)) as [->|I]; [|exact I]. exfalso. pose proof (F1 x Hx). lra.
  - destruct (proj2 (H x) (or_intror Hx)) as [->|I]; [|exact I]. exfalso. pose proof (F2 x Hx). lra.
Qed.
(* the squares of the wave numbers of a mesh of 6 cells, in units of the fundamental *)
Definition squares6 : list Z := (flat_map (fun i => flat_map (fun j => map (fun k => i * i + j * j + k * k) [0; 1; 2; 3]) [0; 1; 2; -3; -2; -1]) [0; 1; 2; -3; -2; -1])%Z.
Lemma small6 : forall r n, In r [squares6] -> In n r -> (0 <= n < 2500000000)%Z.
Proof.
  intros r n [<-|[]]. assert (A : forallb (fun n => (0 <=? n) && (n <? 2500000000))%Z squares6 = true) by (vm_compute; reflexivity). rewrite forallb_forall in A. intros Hn. apply A, andb_prop in Hn as [H1 H2]. lia.
Qed.
Lemma below6 : forall n, In n squares6 -> (n < 9)%Z -> In n [0; 1; 2; 3; 4; 5; 6; 8]%Z.
Proof.
  intros n Hn Hl. assert (A : forallb (fun n => (9 <=? n) || existsb (Z.eqb n) [0; 1; 2; 3; 4; 5; 6; 8])%Z squares6 = true) by (vm_compute; reflexivity). rewrite forallb_forall in A. specialize (A n Hn). apply orb_prop in A as [A|A]; [lia|]. apply existsb_exists in A as (m & Hm & E). apply Z.eqb_eq in E. subst m. exact Hm.
Qed.
Lemma there6 : forall n, In n [0; 1; 2; 3; 4; 5; 6; 8; 9]%Z -> In n squares6.
Proof.
  assert (A : forallb (fun n => existsb (Z.eqb n) squares6) [0; 1; 2; 3; 4; 5; 6; 8; 9]%Z = true) by (vm_compute; reflexivity). rewrite forallb_forall in A. intros n Hn. apply A, existsb_exists in Hn as (m & Hm & E). apply Z.eqb_eq in E. subst m. exact Hm.
Qed.
Lemma sqrt9 : sqrt 9 = 3.
Proof. replace 9 with (3 * 3) by lra. apply sqrt_square. lra. Qed.
Lemma centers6 : centers 1 [squares6] 3 = map (fun n => 1 * sqrt (IZR n)) [0; 1; 2; 3; 4; 5; 6; 8]%Z.
Proof.
  destruct (centers_ok 1 Rlt_0_1 [squares6] small6 3) as (C1 & C2 & _). apply sorted_eq; [exact C2| |].
  - cbn [map]. repeat constructor; rewrite ?Rmult_1_l; apply sqrt_lt_1; lra.
  - intros x. rewrite C1, in_map_iff. split.
    + intros (n & (r & [<-|[]] & Hn) & -> & Hx). exists n. split; [reflexivity|]. apply below6; [exact Hn|]. unfold modulus in Hx. rewrite Rmult_1_l, <- sqrt9 in Hx. pose proof (small6 squares6 n (or_introl eq_refl) Hn). apply sqrt_lt_0_alt in Hx. apply lt_IZR in Hx. exact Hx.
    + intros (n & <- & Hn). exists n. split; [exists squares6; split; [left; reflexivity|apply there6; cbn in Hn |- *; tauto]|]. split; [reflexivity|]. rewrite Rmult_1_l, <- sqrt9. assert (A : (0 <= n < 9)%Z) by (cbn in Hn; lia). destruct A as [A1 A2]. apply IZR_le in A1. apply IZR_lt in A2. apply sqrt_lt_1; lra.
Qed.
Lemma rmin_same x : rmin [x; x; x] = x.
Proof. unfold rmin. cbn [fold_left]. rewrite (Rmin_left x x) by lra. apply Rmin_left; lra. Qed.
Theorem last_bin_mixed : exists N L ranks edges coords, (forall x, In x (concat ranks) -> exists n, In n squares6 /\ x = IZR n) /\ k_edges N L ranks (Some 0) 0 None = Ok (edges, Some coords) /\ N = [6; 6; 6] /\ L = [2 * PI; 2 * PI; 2 * PI] /\
  exists i lo hi a b, nth_error edges i = Some lo /\ nth_error edges (S i) = Some hi /\ In a (concat ranks) /\ In b (concat ranks) /\ lo <= sqrt a < hi /\ lo <= sqrt b < hi /\ sqrt a <> sqrt b.
Proof.
  exists [6; 6; 6], [2 * PI; 2 * PI; 2 * PI], (map (map (fun n => 1 ^ 2 * IZR n)) [squares6]). pose proof PI_RGT_0 as P.
  assert (IC : forall n, In n squares6 -> In (IZR n) (concat (map (map (fun n => 1 ^ 2 * IZR n)) [squares6]))).
  { intros n Hn. cbn [map concat]. rewrite app_nil_r. apply in_map_iff. exists n. split; [ring|exact Hn]. }
  assert (EX : k_edges [6; 6; 6] [2 * PI; 2 * PI; 2 * PI] (map (map (fun n => 1 ^ 2 * IZR n)) [squares6]) (Some 0) 0 None = Ok (bins (centers 1 [squares6] 3), Some (centers 1 [squares6] 3))).
  { unfold k_edges. destruct (rltb 0 0) eqn:E; [apply rltb_iff in E; lra|]. rewrite rmin_same, max3 by lra. assert (M : map (fun l => 2 * PI / l) [2 * PI; 2 * PI; 2 * PI] = [1; 1; 1]) by (cbn [map]; repeat f_equal; field; lra). rewrite M. replace (PI * 6 / (2 * PI) + 0 / 2) with 3 by (field; lra).
    rewrite (edges_eq 1 [squares6] small6 3). rewrite centers6. reflexivity. }
  eexists. eexists. split; [|split; [exact EX|]].
  - intros x Hx. cbn [map concat] in Hx. rewrite app_nil_r in Hx. apply in_map_iff in Hx as (n & <- & Hn). exists n. split; [exact Hn|ring].
  - split; [reflexivity|]. split; [reflexivity|]. exists 7%nat. rewrite centers6. set (c := map (fun n => 1 * sqrt (IZR n)) [0; 1; 2; 3; 4; 5; 6; 8]%Z).
    assert (B1 : nth_error (bins c) 7 = Some ((1 * sqrt 6 + 1 * sqrt 8) / 2)) by (apply (bins_mid c 6); reflexivity). assert (B2 : nth_error (bins c) 8 = Some (1 * sqrt 8 + (1 * sqrt 8 - 1 * sqrt 6) / 2)) by (apply (bins_last c 6); reflexivity).
    eexists. eexists. exists 8, 9. split; [exact B1|]. split; [exact B2|]. split; [apply IC, there6; cbn; tauto|]. split; [apply IC, there6; cbn; tauto|]. rewrite sqrt9.
    assert (S1 : sqrt 6 < 2.45) by (rewrite <- (sqrt_square 2.45) by lra; apply sqrt_lt_1; lra). assert (S2 : 2.828 < sqrt 8) by (rewrite <- (sqrt_square 2.828) by lra; apply sqrt_lt_1; lra). assert (S3 : sqrt 8 < 2.83) by (rewrite <- (sqrt_square 2.83) by lra; apply sqrt_lt_1; lra). repeat split; lra.
Qed.
(* a mesh of 2 cells whose second axis is longer by 1e-4 *)
Definition mesh2 : list R := flat_map (fun i => flat_map (fun j => map (fun k => i ^ 2 + (10001 / 10000 * j) ^ 2 + k ^ 2) [0; 1]) [0; -1]) [0; -1].
Lemma key_at (x : R) (z : Z) : (0 <= z)%Z -> IZR z <= x < IZR z + 1 -> int64 x = z.
Proof. intros H0 H. apply IZR_le in H0. rewrite int64_pos by lra. apply floor_unique, H. Qed.
Theorem merged : exists L ranks edges coords, In (1 ^ 2) (concat ranks) /\ In ((10001 / 10000) ^ 2) (concat ranks) /\ k_edges [2; 2; 2] L ranks (Some 0) 0 (Some 2) = Ok (edges, Some coords) /\ map (fun l => 2 * PI / l) L = [1; 10001 / 10000; 1] /\ ranks = [mesh2] /\
  exists i lo hi, nth_error edges i = Some lo /\ nth_error edges (S i) = Some hi /\ lo <= 1 < hi /\ lo <= 10001 / 10000 < hi /\ hi < 2.
Proof.
  pose proof PI_RGT_0 as P. exists [2 * PI; 2 * PI / (10001 / 10000); 2 * PI], [mesh2].
  assert (M : map (fun l => 2 * PI / l) [2 * PI; 2 * PI / (10001 / 10000); 2 * PI] = [1; 10001 / 10000; 1]) by (cbn [map]; replace (2 * PI / (2 * PI)) with 1 by (field; lra); replace (2 * PI / (2 * PI / (10001 / 10000))) with (10001 / 10000) by (field; lra); reflexivity).
  set (u := 2 + 20001 / 100000000). set (v := 3 + 20001 / 100000000).
  assert (m0 : 0 ^ 2 + (10001 / 10000 * 0) ^ 2 + 0 ^ 2 = 0) by lra. assert (m1 : 0 ^ 2 + (10001 / 10000 * 0) ^ 2 + 1 ^ 2 = 1) by lra. assert (m2 : 0 ^ 2 + (10001 / 10000 * -1) ^ 2 + 0 ^ 2 = u - 1) by (unfold u; lra). assert (m3 : 0 ^ 2 + (10001 / 10000 * -1) ^ 2 + 1 ^ 2 = u) by (unfold u; lra).
  assert (m4 : (-1) ^ 2 + (10001 / 10000 * 0) ^ 2 + 0 ^ 2 = 1) by lra. assert (m5 : (-1) ^ 2 + (10001 / 10000 * 0) ^ 2 + 1 ^ 2 = 2) by lra. assert (m6 : (-1) ^ 2 + (10001 / 10000 * -1) ^ 2 + 0 ^ 2 = u) by (unfold u; lra). assert (m7 : (-1) ^ 2 + (10001 / 10000 * -1) ^ 2 + 1 ^ 2 = v) by (unfold v; lra).
  assert (EM : mesh2 = [0; 1; u - 1; u; 1; 2; u; v]) by (unfold mesh2; cbn [flat_map map app]; rewrite m0, m1, m2, m3, m4, m5, m6, m7; reflexivity).
  assert (R3 : rmin [1; 10001 / 10000; 1] = 1) by (unfold rmin; cbn [fold_left]; rewrite (Rmin_left 1 (10001 / 10000)) by lra; apply Rmin_left; lra).
  set (b := (1 * (5 / 100)) ^ 2).
  assert (k0 : int64 (0 / b + 5 / 10) = 0%Z) by (apply key_at; [lia|unfold b; lra]). assert (k1 : int64 (1 / b + 5 / 10) = 400%Z) by (apply key_at; [lia|unfold b; lra]). assert (k2 : int64 ((u - 1) / b + 5 / 10) = 400%Z) by (apply key_at; [lia|unfold u, b; lra]). assert (k3 : int64 (u / b + 5 / 10) = 800%Z) by (apply key_at; [lia|unfold u, b; lra]). assert (k5 : int64 (2 / b + 5 / 10) = 800%Z) by (apply key_at; [lia|unfold b; lra]). assert (k7 : int64 (v / b + 5 / 10) = 1200%Z) by (apply key_at; [lia|unfold v, b; lra]).
  assert (F1 : find_unique_local mesh2 b = [0; 1; u; v]) by (rewrite EM; unfold find_unique_local, unique_by; cbn [fold_left]; rewrite k0, k1, k2, k3, k5, k7; reflexivity).
  assert (su : 1.4142 < sqrt u < 1.4143) by (split; [rewrite <- (sqrt_square 1.4142) by lra|rewrite <- (sqrt_square 1.4143) by lra]; apply sqrt_lt_1; unfold u; lra). assert (sv : 1.73 < sqrt v < 1.74) by (split; [rewrite <- (sqrt_square 1.73) by lra|rewrite <- (sqrt_square 1.74) by lra]; apply sqrt_lt_1; unfold v; lra).
  assert (F2 : concat (map (fun fx2 => filter (fun f => rltb f 2) (map sqrt (find_unique_local fx2 b))) [mesh2]) = [0; 1; sqrt u; sqrt v]).
  { cbn [map concat]. rewrite F1. cbn [map filter]. rewrite sqrt_0, sqrt_1. assert (LT : forall x, x < 2 -> rltb x 2 = true) by (intros; apply rltb_iff; assumption). rewrite !LT by lra. reflexivity. }
  set (c := 1 * (1 / 100000)).
  assert (q0 : int64 (0 / c + 5 / 10) = 0%Z) by (apply key_at; [lia|unfold c; lra]). assert (q1 : int64 (1 / c + 5 / 10) = 100000%Z) by (apply key_at; [lia|unfold c; lra]).
  assert (qu : (141420 <= int64 (sqrt u / c + 5 / 10) < 141431)%Z). { rewrite int64_pos by (unfold c; lra). destruct (floor_spec (sqrt u / c + 5 / 10)) as [G1 G2]. split; [apply Z.lt_succ_r; apply lt_IZR; rewrite succ_IZR; unfold c in *; lra|apply lt_IZR; unfold c in *; lra]. }
  assert (qv : (172999 <= int64 (sqrt v / c + 5 / 10))%Z). { rewrite int64_pos by (unfold c; lra). destruct (floor_spec (sqrt v / c + 5 / 10)) as [G1 G2]. apply Z.lt_succ_r; apply lt_IZR; rewrite succ_IZR; unfold c in *; lra. }
  assert (F3 : find_unique_local [0; 1; sqrt u; sqrt v] c = [0; 1; sqrt u; sqrt v]).
  { unfold find_unique_local, unique_by. cbn [fold_left]. rewrite q0, q1. set (zu := int64 (sqrt u / c + 5 / 10)) in *. set (zv := int64 (sqrt v / c + 5 / 10)) in *. clearbody zu zv.
    cbn [put]. change (100000 <? 0)%Z with false. change (100000 =? 0)%Z with false. cbv iota.
    assert (X1 : (zu <? 0)%Z = false) by lia. assert (X2 : (zu =? 0)%Z = false) by lia. assert (X3 : (zu <? 100000)%Z = false) by lia. assert (X4 : (zu =? 100000)%Z = false) by lia. cbn [put]. rewrite X1, X2, X3, X4.
    assert (Y1 : (zv <? 0)%Z = false) by lia. assert (Y2 : (zv =? 0)%Z = false) by lia. assert (Y3 : (zv <? 100000)%Z = false) by lia. assert (Y4 : (zv =? 100000)%Z = false) by lia. assert (Y5 : (zv <? zu)%Z = false) by lia. assert (Y6 : (zv =? zu)%Z = false) by lia. cbn [put]. rewrite Y1, Y2, Y3, Y4, Y5, Y6. reflexivity. }
  eexists. eexists. split; [cbn [concat]; rewrite app_nil_r, EM; right; left; lra|]. split; [cbn [concat]; rewrite app_nil_r, EM; right; right; left; unfold u; lra|]. split.
  - unfold k_edges. destruct (rltb 0 0) eqn:E; [apply rltb_iff in E; lra|]. rewrite M. unfold find_unique_edges. cbv zeta. rewrite R3. fold b. fold c. rewrite F2, F3. unfold diff. cbn [tl combine map]. cbn [rbind fst snd]. reflexivity.
  - split; [exact M|]. split; [reflexivity|]. exists 1%nat. cbn [hd last tl app combine map nth_error fst snd]. eexists. eexists. split; [reflexivity|]. split; [reflexivity|]. lra.
Qed.
Theorem kmin_ignored : exists N L ranks kmin edges coords, 0 < kmin /\ k_edges N L ranks (Some 0) kmin None = Ok (edges, Some coords) /\ nth_error edges 0 = Some 0.
Proof.
  destruct last_bin_mixed as (N & L & ranks & edges & coords & _ & E & _). exists N, L, ranks, 1, edges, coords. split; [lra|]. 
  unfold k_edges in *. destruct (rltb 0 0) eqn:E0; [apply rltb_iff in E0; lra|]. split; [exact E|]. unfold find_unique_edges in E. destruct (diff _) in E; [discriminate|]. cbn [rbind fst snd] in E. injection E as <- <-. reflexivity.
Qed.
(* too few moduli *)
Theorem edges_few kf (ranks : list (list Z)) xmax : 0 < kf -> (forall r n, In r ranks -> In n r -> (0 <= n < 2500000000)%Z) ->
  (forall n m, present ranks n -> present ranks m -> modulus kf n < xmax -> modulus kf m < xmax -> n = m) -> find_unique_edges (map (map (fun n => kf ^ 2 * IZR n)) ranks) [kf; kf; kf] xmax = Err IndexError.
Proof.
  intros Hk small H. rewrite (edges_eq kf ranks small xmax). destruct (centers_ok kf Hk ranks small xmax) as (C1 & C2 & _). destruct (Nat.leb_spec (length (centers kf ranks xmax)) 1) as [|L]; [reflexivity|exfalso].
  destruct (centers kf ranks xmax) as [|a [|b l]]; cbn [length] in L; try lia. inversion C2 as [|? ? S1 F]; subst. inversion F as [|? ? LT ?]; subst. destruct (proj1 (C1 a) ltac:(cbn; tauto)) as (n & Pn & -> & Ln). destruct (proj1 (C1 b) ltac:(cbn; tauto)) as (m & Pm & -> & Lm). rewrite (H n m Pn Pm Ln Lm) in LT. lra.
Qed.
