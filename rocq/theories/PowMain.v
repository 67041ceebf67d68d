From Verif Require Import Base BaseProofs Num RanksSpec FiberModel FiberProofs FiberMore CgmLocal CgmGlobal CgmGeom CgmRun PowModel PowSpec PowProofs.
From Coq Require Import Sorted Permutation.
Local Open Scope nat_scope.

(* ---- negative frequencies ---- *)
Lemma neg_lt : forall n i, i < n -> neg n i < n.
Proof. intros n i H. unfold neg. destruct (i =? 0) eqn:E; [apply Nat.eqb_eq in E|apply Nat.eqb_neq in E]; lia. Qed.
Lemma neg_neg : forall n i, i < n -> neg n (neg n i) = i.
Proof. intros n i H. unfold neg. destruct (i =? 0) eqn:E; [apply Nat.eqb_eq in E; cbn; lia|apply Nat.eqb_neq in E]. destruct (n - i =? 0) eqn:E2; [apply Nat.eqb_eq in E2|apply Nat.eqb_neq in E2]; lia. Qed.
Lemma neg_perm : forall n, Permutation (map (neg n) (seq 0 n)) (seq 0 n).
Proof.
  intros n. apply NoDup_Permutation; [|apply seq_NoDup|].
  - apply nodup_inj_map; [apply seq_NoDup|]. intros x z Hx Hz E. apply in_seq in Hx, Hz. rewrite <- (neg_neg n x), <- (neg_neg n z) by lia. rewrite E. reflexivity.
  - intros x. rewrite in_map_iff. split.
    + intros [z [<- Hz]]. apply in_seq in Hz. apply in_seq. split; [lia|]. apply neg_lt. lia.
    + intros Hx. apply in_seq in Hx. exists (neg n x). split; [apply neg_neg; lia|]. apply in_seq. split; [lia|]. apply neg_lt. lia.
Qed.
Lemma freq_neg : forall n i, i < n -> freq n (neg n i) = (- freq n i)%Z \/ 2 * i = n /\ neg n i = i.
Proof.
  intros n i H. unfold freq, neg. destruct (i =? 0) eqn:E; [apply Nat.eqb_eq in E|apply Nat.eqb_neq in E].
  - left. subst i. destruct (2 * 0 <? n) eqn:E2; [reflexivity|apply Nat.ltb_ge in E2; lia].
  - destruct (2 * i <? n) eqn:E1; [apply Nat.ltb_lt in E1|apply Nat.ltb_ge in E1]; destruct (2 * (n - i) <? n) eqn:E2; [apply Nat.ltb_lt in E2|apply Nat.ltb_ge in E2|apply Nat.ltb_lt in E2|apply Nat.ltb_ge in E2]; lia.
Qed.
Lemma coord_neg_sq : forall u n i, i < n -> (axis_coord u n (neg n i) * axis_coord u n (neg n i) = axis_coord u n i * axis_coord u n i)%Qc.
Proof. intros u n i H. unfold axis_coord. destruct (freq_neg n i H) as [E|[_ E]]; rewrite E; [rewrite zq_opp; ring|reflexivity]. Qed.

Lemma half_sum : forall n (h : nat -> Qc), 0 < n ->
  qsum (map (fun l => (h l + (if (0 <? freq n l)%Z then h (neg n l) else 0))%Qc) (seq 0 (n / 2 + 1))) = qsum (map h (seq 0 n)).
Proof.
  intros n h Hn. set (k := (n - 1) / 2). assert (Hk : n / 2 + 1 + k = n) by (unfold k; lia).
  rewrite qsum_map_add. transitivity (qsum (map h (seq 0 (n / 2 + 1))) + qsum (map h (seq (n / 2 + 1) k)))%Qc; [|rewrite <- qsum_app, <- map_app; do 2 f_equal; transitivity (seq 0 (n / 2 + 1 + k)); [symmetry; exact (seq_app (n / 2 + 1) k 0)|f_equal; exact Hk]]. f_equal.
  assert (Hr : exists r, n / 2 + 1 = 1 + k + r /\ r <= 1 /\ forall l, l < r -> 2 * (1 + k + l) >= n) by (exists (n / 2 - k); unfold k; split; [lia|split; [lia|intros; lia]]). destruct Hr as [r [Er [_ Hr]]].
  replace (seq 0 (n / 2 + 1)) with (seq 0 1 ++ seq 1 k ++ seq (1 + k) r) by (rewrite Er, !seq_app; reflexivity).
  rewrite !map_app, !qsum_app. cbn [seq map]. rewrite qsum_cons, qsum_nil.
  assert (A : qsum (map (fun l => if (0 <? freq n l)%Z then h (neg n l) else 0%Qc) (seq (1 + k) r)) = 0%Qc).
  { rewrite (qsum_ext' _ _ (fun _ => 0%Qc)); [apply qsum_map_zero|]. intros l Hl. apply in_seq in Hl. specialize (Hr (l - (1 + k)) ltac:(lia)). unfold freq. destruct (2 * l <? n) eqn:E; [apply Nat.ltb_lt in E; lia|]. destruct (0 <? Z.of_nat l - Z.of_nat n)%Z eqn:E2; [|reflexivity]. apply Z.ltb_lt in E2. assert (l < n) by lia. lia. }
  assert (A' : (if (0 <? freq n 0)%Z then h (neg n 0) else 0%Qc) = 0%Qc). { unfold freq. destruct (2 * 0 <? n) eqn:E; [reflexivity|apply Nat.ltb_ge in E; lia]. }
  assert (B : qsum (map (fun l => if (0 <? freq n l)%Z then h (neg n l) else 0%Qc) (seq 1 k)) = qsum (map h (map (neg n) (seq 1 k)))).
  { rewrite map_map. apply qsum_ext'. intros l Hl. apply in_seq in Hl. unfold freq. assert (E : (2 * l <? n) = true) by (apply Nat.ltb_lt; unfold k in Hl; lia). rewrite E. assert (E2 : (0 <? Z.of_nat l)%Z = true) by (apply Z.ltb_lt; lia). rewrite E2. reflexivity. }
  rewrite A, A', B. match goal with |- ?a = ?b => replace a with (qsum (map h (map (neg n) (seq 1 k)))) by ring end. apply qsum_map_perm. apply NoDup_Permutation; [|apply seq_NoDup|].
  - apply nodup_inj_map; [apply seq_NoDup|]. intros x z Hx Hz E. apply in_seq in Hx, Hz. rewrite <- (neg_neg n x), <- (neg_neg n z) by lia. rewrite E. reflexivity.
  - intros x. rewrite in_map_iff, in_seq. split.
    + intros [z [<- Hz]]. apply in_seq in Hz. unfold neg. destruct (z =? 0) eqn:E; [apply Nat.eqb_eq in E; lia|]. unfold k in *. lia.
    + intros Hx. exists (n - x). split; [unfold neg; destruct (n - x =? 0) eqn:E; [apply Nat.eqb_eq in E; lia|lia]|]. apply in_seq. unfold k in *. lia.
Qed.

Section Modes.
Variables n0 n1 n2 : nat. Variables u0 u1 u2 : Qc.
Hypothesis N2 : 0 < n2. Hypothesis U2 : (0 < u2)%Qc.
Notation full := (cells3 (seq 0 n0) (seq 0 n1) (seq 0 n2)). Notation half := (cells3 (seq 0 n0) (seq 0 n1) (seq 0 (n2 / 2 + 1))).
Notation opp := (opposite n0 n1 n2). Notation ns := (nonsingular (axis_coord u2 n2)). Notation rp := (rep n0 n1 n2). Notation mode := (is_mode n0 n1 n2).
Lemma in_full : forall m, In m full <-> mode m.
Proof using. clear N2 U2. intros [[i j] l]. unfold cells3, is_mode. rewrite !in_prod_iff, !in_seq. lia. Qed.
Lemma in_half : forall m, In m half <-> mode m /\ is_stored n2 m = true.
Proof using All. intros [[i j] l]. unfold cells3, is_mode, is_stored. rewrite !in_prod_iff, !in_seq, Nat.leb_le. lia. Qed.
Lemma ns_freq : forall i j l, ns (i, j, l) = (0 <? freq n2 l)%Z.
Proof using All.
  intros i j l. unfold nonsingular, axis_coord. unfold freq. fold (freq n2 l). apply Bool.eq_iff_eq_true. rewrite qltb_iff, Z.ltb_lt, zq_lt, zq_0. split.
  - intros H. destruct (Qclt_le_dec 0 (zq (freq n2 l))) as [L|L]; [exact L|]. exfalso. apply (Qclt_not_le _ _ H). replace 0%Qc with (u2 * 0)%Qc by ring. rewrite !(Qcmult_comm u2). apply Qcmult_le_compat_r; [exact L|apply Qclt_le_weak, U2].
  - intros H. replace 0%Qc with (0 * zq (freq n2 l))%Qc by ring. apply Qcmult_lt_compat_r; assumption.
Qed.
Lemma opp_mode : forall m, mode m -> mode (opp m).
Proof using. intros [[i j] l] [A [B C]]. unfold is_mode, opposite. repeat split; apply neg_lt; assumption. Qed.
Lemma opp_opp : forall m, mode m -> opp (opp m) = m.
Proof using. intros [[i j] l] [A [B C]]. unfold opposite. rewrite !neg_neg by assumption. reflexivity. Qed.
Lemma fold_sum : forall G : cell3 -> Qc, qsum (map (fun m => (G m + (if ns m then G (opp m) else 0))%Qc) half) = qsum (map G full).
Proof using All.
  intros G. unfold cells3. rewrite !(qsum_prod (nat * nat) nat).
  rewrite (qsum_ext' _ _ (fun ij => (qsum (map (fun l => G (ij, l)) (seq 0 (n2 / 2 + 1))) + qsum (map (fun l => if (0 <? freq n2 l)%Z then G ((neg n0 (fst ij), neg n1 (snd ij)), neg n2 l) else 0) (seq 0 (n2 / 2 + 1))))%Qc)).
  2: { intros [i j] _. rewrite <- qsum_map_add. apply qsum_ext'. intros l _. rewrite ns_freq. reflexivity. }
  rewrite qsum_map_add.
  assert (S2 : forall h : nat * nat -> Qc, qsum (map (fun ij => h (neg n0 (fst ij), neg n1 (snd ij))) (list_prod (seq 0 n0) (seq 0 n1))) = qsum (map h (list_prod (seq 0 n0) (seq 0 n1)))).
  { intros h. rewrite !qsum_prod. cbn [fst snd].
    rewrite (qsum_ext' _ _ (fun i => qsum (map (fun j => h (neg n0 i, j)) (seq 0 n1)))) by (intros i _; rewrite <- (qsum_map_perm _ (fun j => h (neg n0 i, j)) _ _ (neg_perm n1)), map_map; reflexivity).
    rewrite <- (qsum_map_perm _ (fun i => qsum (map (fun j => h (i, j)) (seq 0 n1))) _ _ (neg_perm n0)), map_map. reflexivity. }
  rewrite (S2 (fun ij => qsum (map (fun l => if (0 <? freq n2 l)%Z then G (ij, neg n2 l) else 0%Qc) (seq 0 (n2 / 2 + 1))))).
  rewrite <- qsum_map_add. apply qsum_ext'. intros ij _. rewrite <- qsum_map_add. apply (half_sum n2 (fun l => G (ij, l)) N2).
Qed.
Lemma opp_unstored : forall m, mode m -> is_stored n2 m = true -> ns m = true -> is_stored n2 (opp m) = false.
Proof using All.
  intros [[i j] l] [A [B C]] Hs Hn. rewrite ns_freq in Hn. unfold is_stored in *. cbn [opposite]. apply Z.ltb_lt in Hn. apply Nat.leb_le in Hs. apply Nat.leb_gt. unfold freq in Hn. unfold neg. destruct (2 * l <? n2) eqn:E; [apply Nat.ltb_lt in E|]; [|lia]. destruct (l =? 0) eqn:E2; [apply Nat.eqb_eq in E2; lia|]. lia.
Qed.
Lemma unstored_opp : forall m, mode m -> is_stored n2 m = false -> is_stored n2 (opp m) = true /\ ns (opp m) = true.
Proof using All.
  intros [[i j] l] [A [B C]] Hs. cbn [opposite]. rewrite ns_freq. unfold is_stored in *. apply Nat.leb_gt in Hs. rewrite Nat.leb_le, Z.ltb_lt. unfold neg, freq. destruct (l =? 0) eqn:E; [apply Nat.eqb_eq in E; lia|]. destruct (2 * (n2 - l) <? n2) eqn:E2; [apply Nat.ltb_lt in E2|apply Nat.ltb_ge in E2]; lia.
Qed.
Lemma rep_half : forall m, mode m -> In (rp m) half.
Proof using All. intros m H. apply in_half. unfold rep. destruct (is_stored n2 m) eqn:E; [auto|]. split; [apply opp_mode, H|apply unstored_opp; assumption]. Qed.
Lemma rep_mode : forall m, mode m -> mode (rp m).
Proof using All. intros m H. apply rep_half, in_half in H. apply H. Qed.
Lemma fold_filter : forall (P : cell3 -> bool) (g : cell3 -> Qc),
  qsum (map (fun m => (g m + (if ns m then g (opp m) else 0))%Qc) (filter P half)) = qsum (map g (filter (fun m => P (rp m)) full)).
Proof using All.
  intros P g. rewrite !qsum_filter, <- (fold_sum (fun m => if P (rp m) then g m else 0%Qc)). apply qsum_ext'. intros m Hm. apply in_half in Hm. destruct Hm as [Hm Hs].
  unfold rep at 1. rewrite Hs. destruct (ns m) eqn:E; [|destruct (P m); ring]. unfold rep. rewrite (opp_unstored m Hm Hs E), (opp_opp m Hm). destruct (P m); ring.
Qed.
Lemma k2_opp : forall m, mode m -> k2 n0 n1 n2 u0 u1 u2 (opp m) = k2 n0 n1 n2 u0 u1 u2 m.
Proof using. intros [[i j] l] [A [B C]]. unfold k2, opposite. rewrite !coord_neg_sq by assumption. reflexivity. Qed.
Lemma k2_rep : forall m, mode m -> k2 n0 n1 n2 u0 u1 u2 (rp m) = k2 n0 n1 n2 u0 u1 u2 m.
Proof using. intros m H. unfold rep. destruct (is_stored n2 m); [reflexivity|apply k2_opp, H]. Qed.
Lemma nodup_full : NoDup full.
Proof using. unfold cells3. repeat apply nodup_prod; apply seq_NoDup. Qed.
End Modes.

(* ---- Legendre polynomials are odd or even ---- *)
Lemma legendre2_neg : forall l x, legendre2 l (- x)%Qc = if Nat.odd l then ((- fst (legendre2 l x))%Qc, snd (legendre2 l x)) else (fst (legendre2 l x), (- snd (legendre2 l x))%Qc).
Proof.
  induction l as [|l IH]; intros x; [reflexivity|]. cbn [legendre2]. rewrite IH, Nat.odd_succ, <- Nat.negb_odd. destruct (legendre2 l x) as [p q] eqn:E. cbn [fst snd]. unfold Qcdiv. destruct (Nat.odd l); cbn [negb fst snd]; f_equal; ring.
Qed.
Lemma legendre_neg : forall l x, legendre l (- x)%Qc = if Nat.odd l then (- legendre l x)%Qc else legendre l x.
Proof. intros l x. unfold legendre. rewrite legendre2_neg. destruct (Nat.odd l); reflexivity. Qed.
Lemma legendre_0 : forall x, legendre 0 x = 1%Qc. Proof. reflexivity. Qed.

(* ---- sorting the multipoles ---- *)
Lemma sort_ells_in : forall l x, In x (sort_ells l) <-> In x l.
Proof.
  induction l as [|a l IH]; intros x; [reflexivity|]. cbn [sort_ells fold_right]. fold (sort_ells l). cbn [In]. rewrite <- IH.
  generalize (sort_ells l). clear. induction l as [|z l IH]; [reflexivity|]. destruct (a <=? z); cbn [In] in *; [tauto|]. rewrite IH. tauto.
Qed.
Lemma position_nth : forall l x, In x l -> nth_error l (position x l) = Some x.
Proof. induction l as [|z l IH]; intros x H; [destruct H|]. cbn [position]. destruct (x =? z) eqn:E; [apply Nat.eqb_eq in E; subst; reflexivity|]. apply Nat.eqb_neq in E. cbn [nth_error]. apply IH. destruct H as [H|H]; [congruence|exact H]. Qed.
Lemma sort_ells_0 : forall l, In 0 l -> nth_error (sort_ells l) 0 = Some 0.
Proof.
  intros l. induction l as [|a l IH]; intros H; [destruct H|]. cbn [sort_ells fold_right]. fold (sort_ells l). destruct (sort_ells l) as [|z s] eqn:E.
  - destruct H as [->|H]; [reflexivity|]. exfalso. apply sort_ells_in in H. rewrite E in H. destruct H.
  - destruct (a <=? z) eqn:La.
    + destruct H as [->|H]; [reflexivity|]. apply IH in H. injection H as ->. apply Nat.leb_le in La. cbn [nth_error]. f_equal. lia.
    + apply Nat.leb_gt in La. destruct H as [->|H]; [lia|]. apply IH in H. exact H.
Qed.

(* ---- the result in terms of sums over the stored cells ---- *)
Section Result.
Variables (root : Qc -> Qc) (compressed : bool) (c0 c1 c2 : nat -> Qc) (y : cell3 -> cplx) (los : vec) (xedges muedges : list Qc).
Hypothesis Hx : increasing (map (fun e => (e * e)%Qc) xedges).
Hypothesis Hm : increasing muedges.
Hypothesis Lm : 2 <= length muedges.
Hypothesis Lx : 1 <= length xedges.
Variables (blocks : list block) (cells : list cell3) (poles : list Z).
Hypothesis HB : Permutation (concat (map (fun b => cells3 (b0 b) (b1 b) (b2 b)) blocks)) cells.
Hypothesis HP : forall e, In e poles -> (0 <= e)%Z.
Notation n2' := (norm2 c0 c1 c2). Notation mu' := (mu root c0 c1 c2 los).
Notation wt := (weight compressed c2). Notation wy := (weighted root compressed c0 c1 c2 y los).
Notation P2 i im := (in_bin root c0 c1 c2 los xedges muedges (S i) (S im)).
Definition in_row (i : nat) (m : cell3) : bool := (dig (map (fun e => (e * e)%Qc) xedges) (n2' m) =? S i) && (1 <=? dig muedges (mu' m)).
Lemma table_at : forall (A : Type) (f : nat -> nat -> A) i im, i < Nx xedges -> im < Nmu muedges -> at2 (table xedges muedges f) i im = Some (f (S i) (S im)).
Proof using.
  intros A f i im Hi Him. unfold at2, table. rewrite nth_error_map', nth_error_seq. assert (E1 : (i <? Nx xedges) = true) by (apply Nat.ltb_lt; exact Hi). rewrite E1. cbn [option_map Nat.add]. rewrite nth_error_map', nth_error_seq. assert (E2 : (im <? Nmu muedges) = true) by (apply Nat.ltb_lt; exact Him). rewrite E2. reflexivity.
Qed.
Lemma row_at : forall (A : Type) (f : nat -> A) i, i < Nx xedges -> nth_error (row xedges f) i = Some (f (S i)).
Proof using. intros A f i Hi. unfold row. rewrite nth_error_map', nth_error_seq. assert (E1 : (i <? Nx xedges) = true) by (apply Nat.ltb_lt; exact Hi). rewrite E1. reflexivity. Qed.
Lemma project_bins : exists r pol, project root compressed c0 c1 c2 y los xedges muedges poles blocks = Ok (r, pol) /\
  (forall i im, i < Nx xedges -> im < Nmu muedges -> let B := filter (P2 i im) cells in
     at2 (r_n r) i im = Some (qsum (map wt B)) /\
     at2 (r_x r) i im = Some (ratio (qsum (map (fun m => root (n2' m) * wt m)%Qc B)) (qsum (map wt B))) /\
     at2 (r_mu r) i im = Some (ratio (qsum (map (fun m => mu' m * wt m)%Qc B)) (qsum (map wt B))) /\
     at2 (r_y r) i im = Some (cratio (qsum (map (fun m => fst (wy 0 m)) B), qsum (map (fun m => snd (wy 0 m)) B)) (qsum (map wt B)))) /\
  (poles = [] -> pol = None) /\
  (poles <> [] -> exists p, pol = Some p /\ forall i, i < Nx xedges -> let B := filter (in_row i) cells in
     nth_error (p_n p) i = Some (qsum (map wt B)) /\
     nth_error (p_x p) i = Some (ratio (qsum (map (fun m => root (n2' m) * wt m)%Qc B)) (qsum (map wt B))) /\
     forall q ell, nth_error poles q = Some ell -> at2 (p_y p) q i = Some (cratio (qsum (map (fun m => fst (wy (Z.to_nat ell) m)) B), qsum (map (fun m => snd (wy (Z.to_nat ell) m)) B)) (qsum (map wt B)))).
Proof using All.
  assert (Lm1 : 1 <= length muedges) by lia. unfold project.
  assert (E0 : existsb (fun e => (e <? 0)%Z) poles = false). { destruct (existsb _ poles) eqn:E; [|reflexivity]. apply existsb_exists in E. destruct E as [e [He Hl]]. apply HP in He. apply Z.ltb_lt in Hl. lia. }
  rewrite E0. set (ps := map Z.to_nat poles). set (ells := if existsb (Nat.eqb 0) ps then sort_ells ps else 0 :: sort_ells ps).
  destruct (all_sums root compressed c0 c1 c2 y los xedges muedges Hx Hm Lm1 Lx ells blocks cells HB) as [parts [E1 [S1 S2 S3 S4 S5]]]. rewrite E1. cbn [rbind]. set (s := total_sums xedges muedges ells parts) in *.
  assert (Z0 : nth_error ells 0 = Some 0). { unfold ells. destruct (existsb (Nat.eqb 0) ps) eqn:E; [|reflexivity]. apply sort_ells_0. apply existsb_exists in E. destruct E as [z [Hz Ez]]. apply Nat.eqb_eq in Ez. subst z. exact Hz. }
  assert (Pin : forall ell, In ell ps -> nth_error ells (position ell ells) = Some ell). { intros ell H. apply position_nth. apply sort_ells_in in H. unfold ells. destruct (existsb (Nat.eqb 0) ps); [exact H|right; exact H]. }
  assert (Y : forall e ell, nth_error ells e = Some ell -> holds root c0 c1 c2 los xedges muedges (fst (nth e (s_y s) (zero xedges muedges, zero xedges muedges))) (fun m => fst (wy ell m)) cells /\ holds root c0 c1 c2 los xedges muedges (snd (nth e (s_y s) (zero xedges muedges, zero xedges muedges))) (fun m => snd (wy ell m)) cells).
  { intros e ell He. assert (L : e < length (s_y s)) by (rewrite S4; apply nth_error_Some; congruence). destruct (nth_error (s_y s) e) as [[re im]|] eqn:E; [|apply nth_error_None in E; lia]. rewrite (nth_error_nth _ _ _ E). cbn [fst snd]. apply (S5 e ell re im He E). }
  eexists. eexists. split; [reflexivity|]. split; [|split].
  - intros i im Hi Him. cbn [r_n r_x r_mu r_y]. rewrite !table_at by assumption. destruct (Y 0 0 Z0) as [Y1 Y2].
    rewrite (folded_holds root compressed c0 c1 c2 y los xedges muedges Hx Hm Lm1 Lx _ _ cells (S i) (S im) S1) by lia.
    rewrite (folded_holds root compressed c0 c1 c2 y los xedges muedges Hx Hm Lm1 Lx _ _ cells (S i) (S im) S2) by lia.
    rewrite (folded_holds root compressed c0 c1 c2 y los xedges muedges Hx Hm Lm1 Lx _ _ cells (S i) (S im) S3) by lia.
    rewrite (folded_holds root compressed c0 c1 c2 y los xedges muedges Hx Hm Lm1 Lx _ _ cells (S i) (S im) Y1) by lia.
    rewrite (folded_holds root compressed c0 c1 c2 y los xedges muedges Hx Hm Lm1 Lx _ _ cells (S i) (S im) Y2) by lia. auto.
  - intros E. assert (Eps : ps = []) by (unfold ps; rewrite E; reflexivity). rewrite Eps. reflexivity.
  - intros E. assert (Eps : ps <> []) by (unfold ps; destruct poles; [congruence|discriminate]). destruct ps as [|p0 ps'] eqn:EE; [congruence|]. rewrite <- EE in *. eexists. split; [reflexivity|]. intros i Hi. cbn [p_n p_x p_y]. rewrite !row_at by assumption.
    assert (NM1 : 1 <= Nmu muedges) by (unfold Nmu; lia).
    rewrite (over_mu_holds root compressed c0 c1 c2 y los xedges muedges Hx Hm Lm1 Lx _ _ cells (S i) S1) by lia.
    rewrite (over_mu_holds root compressed c0 c1 c2 y los xedges muedges Hx Hm Lm1 Lx _ _ cells (S i) S3) by lia.
    split; [reflexivity|]. split; [reflexivity|]. intros q ell Hq. unfold at2. assert (Hq' : nth_error ps q = Some (Z.to_nat ell)) by (rewrite EE; unfold ps in EE; rewrite <- EE, nth_error_map', Hq; reflexivity).
    rewrite nth_error_map', Hq'. cbn [option_map]. rewrite row_at by exact Hi. apply nth_error_In, Pin, Y in Hq'. destruct Hq' as [Y1 Y2].
    rewrite (over_mu_holds root compressed c0 c1 c2 y los xedges muedges Hx Hm Lm1 Lx _ _ cells (S i) Y1) by lia.
    rewrite (over_mu_holds root compressed c0 c1 c2 y los xedges muedges Hx Hm Lm1 Lx _ _ cells (S i) S3) by lia.
    rewrite (over_mu_holds root compressed c0 c1 c2 y los xedges muedges Hx Hm Lm1 Lx _ _ cells (S i) Y2) by lia. reflexivity.
Qed.
Lemma in_row_iff : forall i lo hi e0 m, nth_error xedges i = Some lo -> nth_error xedges (S i) = Some hi -> nth_error muedges 0 = Some e0 ->
  in_row i m = true <-> ((lo * lo <= n2' m)%Qc /\ (n2' m < hi * hi)%Qc) /\ (e0 <= mu' m)%Qc.
Proof using Hx Hm Lm Lx y compressed.
  intros i lo hi e0 m El Eh E0. unfold in_row. rewrite andb_true_iff, (dig_first root true c0 c1 c2 (fun _ => (0, 0)%Qc) los xedges muedges Hx Hm ltac:(lia) Lx m e0 E0), Nat.eqb_eq, (dig_iff _ _ _ Hx).
  apply and_iff_compat_r. rewrite !nth_error_map', El, Eh. cbn [option_map]. split.
  - intros [a [E [L H]]]. injection E as <-. auto.
  - intros [L H]. exists (lo * lo)%Qc. split; [reflexivity|]. split; [exact L|]. intros b E. injection E as <-. exact H.
Qed.
End Result.
