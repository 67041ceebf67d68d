(* The decomposition of a box over ranks keeps all pairs. *)
From Verif Require Import Base BaseProofs Num FofModel FofCmModel FofCmSpec FofMean PairModel PairSpec PairProofs.
From Coq Require Import Permutation Ascii.
Local Open Scope Z_scope.

(* ---------------- separations ---------------- *)
Lemma qmul_nonneg a b : (0 <= a)%Qc -> (0 <= b)%Qc -> (0 <= a * b)%Qc.
Proof. intros A B. replace 0%Qc with (0 * b)%Qc by ring. apply Qcmult_le_compat_r; assumption. Qed.
Lemma sq_le a b : (- b <= a)%Qc -> (a <= b)%Qc -> (a * a <= b * b)%Qc.
Proof.
  intros H1 H2. assert (0 <= (b - a) * (b + a))%Qc as H. { apply qmul_nonneg; qc_lra. }
  replace (b * b)%Qc with ((b - a) * (b + a) + a * a)%Qc by ring. set (t := ((b - a) * (b + a))%Qc) in *. set (u := (a * a)%Qc). clearbody t u. clear -H. qc_lra.
Qed.
Lemma sq_lt_inv a b : (0 <= a)%Qc -> (0 < b)%Qc -> (a * a < b * b)%Qc -> (a < b)%Qc.
Proof. intros A B H. destruct (Qclt_le_dec a b) as [G|G]; [exact G|]. exfalso. apply (Qclt_not_le _ _ H). apply sq_le; [qc_lra|exact G]. Qed.
Lemma half_half L : (L * half + L * half = L)%Qc.
Proof. assert (half + half = 1)%Qc as H by (apply Qc_is_canon; reflexivity). rewrite <- Qcmult_plus_distr_r, H. ring. Qed.
Lemma sq_nonneg x : (0 <= sq x)%Qc.
Proof. unfold sq. destruct (Qclt_le_dec x 0) as [H|H]; [replace (x * x)%Qc with ((- x) * (- x))%Qc by ring|]; apply qmul_nonneg; qc_lra. Qed.
Lemma near_sep2 L a b : (0 < L)%Qc -> (0 <= a /\ a < L)%Qc -> (0 <= b /\ b < L)%Qc -> axis_sep2 true L a b (sq (near true L a b)).
Proof.
  intros HL [A0 A1] [B0 B1]. unfold axis_sep2, near, sq. cbv zeta. pose proof (half_half L) as HH. fold half. set (h := (L * half)%Qc) in *.
  assert (exists k D, (if Qclt_le_dec h (a - b) then a - b - L else if Qclt_le_dec (a - b) (- h) then a - b + L else a - b)%Qc = D /\ D = (a - b + zq k * L)%Qc /\ (- h <= D)%Qc /\ (D <= h)%Qc) as (k & D & -> & E & D1 & D2).
  { destruct (Qclt_le_dec h (a - b)) as [H|H]; [|destruct (Qclt_le_dec (a - b) (- h)) as [G|G]].
    - exists (-1), (a - b - L)%Qc. split; [reflexivity|]. split; [change (zq (-1)) with (- (1))%Qc; ring|]. split; qc_lra.
    - exists 1, (a - b + L)%Qc. split; [reflexivity|]. split; [rewrite zq_1; ring|]. split; qc_lra.
    - exists 0, (a - b)%Qc. split; [reflexivity|]. split; [rewrite zq_0; ring|]. split; qc_lra. }
  split; [exists k; rewrite E; reflexivity|]. intros j. set (X := (a - b + zq j * L)%Qc).
  assert (X = D + zq (j - k) * L)%Qc as EX. { unfold X. rewrite E. unfold Z.sub. rewrite zq_add, zq_opp. ring. }
  destruct (Z.eq_dec (j - k) 0) as [Z0|NZ]; [rewrite EX, Z0, zq_0; replace (D + 0 * L)%Qc with D by ring; apply Qcle_refl|].
  rewrite EX. destruct (Z_le_gt_dec 1 (j - k)) as [G|G].
  - pose proof (zq_mult_ge (j - k) 1 L HL G) as Q. rewrite zq_1 in Q. set (t := (zq (j - k) * L)%Qc) in *. clearbody t. apply sq_le; qc_lra.
  - pose proof (zq_mult_ge (-1) (j - k) L HL ltac:(lia)) as Q. change (zq (-1)) with (- (1))%Qc in Q. set (t := (zq (j - k) * L)%Qc) in *. clearbody t.
    replace ((D + t) * (D + t))%Qc with ((- (D + t)) * (- (D + t)))%Qc by ring. apply sq_le; qc_lra.
Qed.
Lemma axis_sep2_unique per L a b s s' : axis_sep2 per L a b s -> axis_sep2 per L a b s' -> s = s'.
Proof.
  unfold axis_sep2. destruct per; [|intros -> ->; reflexivity]. intros [(k & ->) M] [(k' & ->) M']. apply Qcle_antisym; [apply M|apply M'].
Qed.
Lemma axis_sep2_mod L a b a' b' s : same_mod L a a' -> same_mod L b b' -> axis_sep2 true L a' b' s -> axis_sep2 true L a b s.
Proof.
  intros [i ->] [j ->] [(k & E) M]. split.
  - exists (k + i - j). rewrite E. unfold Z.sub. rewrite !zq_add, zq_opp. ring.
  - intros n. replace (a - b + zq n * L)%Qc with (a + zq i * L - (b + zq j * L) + zq (n - i + j) * L)%Qc; [apply M|]. unfold Z.sub. rewrite !zq_add, zq_opp. ring.
Qed.

(* ---------------- lists ---------------- *)
Definition pair_row {P} (sep : P -> P -> Qc) (a b : P * Qc) : Qc * Qc := (sep (fst a) (fst b), snd a * snd b)%Qc.
Lemma pairs_in_flat {P} test sep (A B : list (P * Qc)) :
  pairs_in test sep A B = flat_map (fun a => map (pair_row sep a) (filter (fun b => test (fst a) (fst b)) B)) A.
Proof.
  unfold pairs_in. induction A as [|a A IH]; [reflexivity|]. cbn [list_prod flat_map]. rewrite filter_app', map_app, IH. f_equal. clear IH.
  induction B as [|b B IH]; [reflexivity|]. cbn [map filter fst snd]. destruct (test (fst a) (fst b)); cbn [map]; rewrite IH; reflexivity.
Qed.
Lemma filter_true {A} (l : list A) : filter (fun _ => true) l = l.
Proof. induction l as [|x l IH]; [reflexivity|]. cbn [filter]. rewrite IH. reflexivity. Qed.
Lemma flat_map_ext_in' {A B} (f g : A -> list B) l : (forall x, In x l -> f x = g x) -> flat_map f l = flat_map g l.
Proof. intros H. rewrite !flat_map_concat_map. f_equal. apply map_ext_in, H. Qed.
Lemma filter_filter_sub {A} (f m : A -> bool) l : (forall x, In x l -> f x = true -> m x = true) -> filter f (filter m l) = filter f l.
Proof.
  induction l as [|x l IH]; [reflexivity|]. intros H. cbn [filter]. destruct (m x) eqn:Em; cbn [filter].
  - destruct (f x); rewrite IH by (intros y Hy; apply H; right; exact Hy); reflexivity.
  - destruct (f x) eqn:Ef; [rewrite (H x (or_introl eq_refl) Ef) in Em; discriminate Em|]. apply IH. intros y Hy. apply H. right. exact Hy.
Qed.
Lemma exchange_filter {A} (T : A -> list nat) parts r : (forall x, In x (concat parts) -> NoDup (T x)) ->
  exchange_to T parts r = filter (fun x => existsb (Nat.eqb r) (T x)) (concat parts).
Proof.
  unfold exchange_to. induction (concat parts) as [|x l IH]; intros H; [reflexivity|]. cbn [flat_map filter]. rewrite IH by (intros y Hy; apply H; right; exact Hy).
  specialize (H x (or_introl eq_refl)). clear IH. assert (map (fun _ => x) (filter (Nat.eqb r) (T x)) = if existsb (Nat.eqb r) (T x) then [x] else []) as ->; [|destruct (existsb _ _); reflexivity].
  induction (T x) as [|t ts IH]; [reflexivity|]. inversion H as [|? ? N ND]; subst. cbn [filter existsb]. destruct (Nat.eqb_spec r t) as [->|Ne]; cbn [orb map]; [|apply IH, ND].
  assert (filter (Nat.eqb t) ts = []) as ->; [|reflexivity]. clear -N. induction ts as [|u ts IH]; [reflexivity|]. cbn [filter]. destruct (Nat.eqb_spec t u) as [->|]; [exfalso; apply N; left; reflexivity|]. apply IH. intros G. apply N. right. exact G.
Qed.
Lemma insert_one {A} (g : nat -> list A) (x : list A) : forall n a r, (a <= r < a + n)%nat ->
  Permutation (concat (map (fun k => if Nat.eqb k r then x ++ g k else g k) (seq a n))) (x ++ concat (map g (seq a n))).
Proof.
  induction n as [|n IH]; intros a r H; [lia|]. cbn [seq map concat]. destruct (Nat.eqb_spec a r) as [->|Ne].
  - rewrite <- app_assoc. do 2 apply Permutation_app_head. assert (map (fun k => if Nat.eqb k r then x ++ g k else g k) (seq (S r) n) = map g (seq (S r) n)) as ->; [|reflexivity].
    apply map_ext_in. intros k Hk. apply in_seq in Hk. replace (Nat.eqb k r) with false by (symmetry; apply Nat.eqb_neq; lia). reflexivity.
  - rewrite (IH (S a) r) by lia. rewrite !app_assoc. apply Permutation_app_tail, Permutation_app_comm.
Qed.
Lemma by_owner {A B} (f : A -> list B) (owner : A -> nat) size l : (forall x, In x l -> (owner x < size)%nat) ->
  Permutation (concat (map (fun r => flat_map f (filter (fun x => Nat.eqb r (owner x)) l)) (seq 0 size))) (flat_map f l).
Proof.
  induction l as [|x l IH]; intros H.
  - cbn [filter flat_map]. rewrite <- flat_map_concat_map. assert (flat_map (fun _ : nat => @nil B) (seq 0 size) = []) as ->; [|reflexivity]. induction (seq 0 size); [reflexivity|]. exact IHl.
  - cbn [flat_map]. rewrite <- (IH (fun y Hy => H y (or_intror Hy))).
    rewrite <- (insert_one (fun r => flat_map f (filter (fun x => Nat.eqb r (owner x)) l)) (f x) size 0 (owner x)) by (pose proof (H x (or_introl eq_refl)); lia).
    match goal with |- Permutation ?a ?b => assert (a = b) as ->; [|reflexivity] end. f_equal. apply map_ext. intros r. cbn [filter]. destruct (Nat.eqb r (owner x)); reflexivity.
Qed.
Lemma split_pairs {P} (test : P -> P -> bool) sep (A B : list (P * Qc)) owner size (m : nat -> P * Qc -> bool) :
  (forall a, In a A -> (owner a < size)%nat) -> (forall a b, In a A -> In b B -> test (fst a) (fst b) = true -> m (owner a) b = true) ->
  Permutation (concat (map (fun r => pairs_in test sep (filter (fun a => Nat.eqb r (owner a)) A) (filter (m r) B)) (seq 0 size))) (pairs_in test sep A B).
Proof.
  intros HO HM. rewrite (pairs_in_flat test sep A B). rewrite <- (by_owner _ owner size A HO).
  match goal with |- Permutation ?a ?b => assert (a = b) as ->; [|reflexivity] end. f_equal. apply map_ext. intros r. rewrite pairs_in_flat. apply flat_map_ext_in'. intros a Ha. apply filter_In in Ha as [Ha E]. apply Nat.eqb_eq in E. subst r.
  f_equal. apply filter_filter_sub. intros b Hb. apply (HM a b Ha Hb).
Qed.
Lemma pairs_in_map {P} test sep (f : P -> P) (A B : list (P * Qc)) :
  pairs_in test sep (map (fun x => (f (fst x), snd x)) A) (map (fun x => (f (fst x), snd x)) B) = pairs_in (fun p q => test (f p) (f q)) (fun p q => sep (f p) (f q)) A B.
Proof.
  rewrite !pairs_in_flat. rewrite flat_map_concat_map, map_map, <- flat_map_concat_map. apply flat_map_ext. intros a. cbn [fst].
  induction B as [|b B IH]; [reflexivity|]. cbn [map filter fst]. destruct (test (f (fst a)) (f (fst b))); cbn [map]; rewrite IH; reflexivity.
Qed.
Lemma pairs_in_ext {P} test test' sep sep' (A B : list (P * Qc)) : (forall a b, In a A -> In b B -> test (fst a) (fst b) = test' (fst a) (fst b) /\ sep (fst a) (fst b) = sep' (fst a) (fst b)) ->
  pairs_in test sep A B = pairs_in test' sep' A B.
Proof.
  intros H. rewrite !pairs_in_flat. apply flat_map_ext_in'. intros a Ha. assert (forall b, In b B -> test (fst a) (fst b) = test' (fst a) (fst b) /\ sep (fst a) (fst b) = sep' (fst a) (fst b)) as G by (intros b; apply H, Ha). clear H.
  induction B as [|b B IH]; [reflexivity|]. cbn [filter]. destruct (G b (or_introl eq_refl)) as [-> E]. destruct (test' (fst a) (fst b)); cbn [map]; rewrite IH by (intros c Hc; apply G; right; exact Hc); [|reflexivity]. f_equal. unfold pair_row. rewrite E. reflexivity.
Qed.

(* ---------------- arguments ---------------- *)
Lemma qgt_false a b : (a <= b)%Qc -> qgt a b = false.
Proof. intros H. destruct (qgt a b) eqn:E; [|reflexivity]. apply qgt_iff in E. exfalso. apply (Qclt_not_le _ _ E H). Qed.
Lemma lmaxq_ok l : l <> [] -> exists m, lmaxq l = Ok m /\ In m l /\ forall x, In x l -> (x <= m)%Qc.
Proof. destruct l as [|x l]; [contradiction|]. intros _. exists (fold_left qmax l x). split; [reflexivity|]. apply fold_qmax. Qed.
Lemma lminq_ok l : l <> [] -> exists m, lminq l = Ok m /\ In m l /\ forall x, In x l -> (m <= x)%Qc.
Proof. destruct l as [|x l]; [contradiction|]. intros _. exists (fold_left qmin l x). split; [reflexivity|]. apply fold_qmin. Qed.
Lemma coord_lt3 (P : Qc -> Prop) L : (forall i, (i < 3)%nat -> P (coord L i)) -> P (vmin L).
Proof. intros H. unfold vmin, qmin. repeat match goal with |- context [Qclt_le_dec ?a ?b] => destruct (Qclt_le_dec a b) end; apply H; lia. Qed.
Lemma twice_half e L : (e + e <= L)%Qc -> (e <= half * L)%Qc.
Proof. intros H. pose proof (half_half L). rewrite Qcmult_comm. set (h := (L * half)%Qc) in *. clearbody h. qc_lra. Qed.
Lemma good_args_checks sqrt mode edges Nmu pimax periodic L : sqrt_contract sqrt -> good_args mode edges Nmu pimax periodic L ->
  paircount_check mode edges Nmu pimax = Ok tt /\ box_check mode edges pimax periodic L = Ok tt /\
  exists s, smoothing_of sqrt mode edges pimax = Ok s /\ (0 < s)%Qc /\ forall n2 aux b s2, (0 <= coord s2 2)%Qc -> bin_test mode edges pimax n2 aux b s2 = true -> (coord s2 0 + coord s2 1 + coord s2 2 <= s * s)%Qc.
Proof.
  intros SQ (NE & Pos & M & Per). destruct (lmaxq_ok edges NE) as (mx & Emx & Imx & Mmx). destruct (lminq_ok edges NE) as (mn & Emn & Imn & _).
  assert (negb (qgt mn 0) = false) as G. { apply negb_false_iff, qgt_iff, Pos, Imn. }
  assert (0 < mx)%Qc as P0 by (apply Pos, Imx).
  assert (periodic = true -> (mx <= half * vmin L)%Qc) as Hper. { intros E. destruct (Per E) as [_ H]. apply (coord_lt3 (fun c => mx <= half * c)%Qc). intros i Hi. apply twice_half, H; assumption. }
  assert (forall k s, between2 edges k s = true -> (s < mx * mx)%Qc) as Bt.
  { intros k s H. unfold between2 in H. destruct (nth_error edges k) as [lo|]; [|discriminate H]. destruct (nth_error edges (S k)) as [hi|] eqn:E; [|discriminate H].
    apply andb_true_iff in H as [_ H]. destruct (Qclt_le_dec s (hi * hi)) as [Hs|]; [|discriminate H]. apply nth_error_In in E. apply Qclt_le_trans with (1 := Hs). apply sq_le; [|apply Mmx, E]. specialize (Pos hi E). qc_lra. }
  unfold paircount_check, box_check, smoothing_of. rewrite Emx, Emn. cbn [rbind]. rewrite G.
  destruct mode; [destruct M as [-> ->]|destruct M as [N ->]; destruct Nmu as [nm|]; [|contradiction N; reflexivity]|destruct M as (-> & p & -> & Hp1 & Hp2)|contradiction].
  - split; [reflexivity|]. split; [destruct periodic; [rewrite qgt_false by (apply Hper; reflexivity)|]; reflexivity|]. exists mx. split; [reflexivity|]. split; [exact P0|].
    intros n2 aux b s2 _ H. cbn [bin_test] in H. apply Qclt_le_weak, Bt with b, H.
  - split; [reflexivity|]. split; [destruct periodic; [rewrite qgt_false by (apply Hper; reflexivity)|]; reflexivity|]. exists mx. split; [reflexivity|]. split; [exact P0|].
    intros n2 aux b s2 _ H. cbn [bin_test] in H. apply andb_true_iff in H as [H _]. apply Qclt_le_weak, Bt with (b / n2)%nat, H.
  - rewrite (qgt_false 1 p Hp1). split; [reflexivity|]. split.
    { destruct periodic; [rewrite qgt_false by (apply Hper; reflexivity)|reflexivity]. rewrite qgt_false; [reflexivity|]. apply (coord_lt3 (fun c => p <= half * c)%Qc). intros i Hi. apply twice_half, Hp2; [reflexivity|exact Hi]. }
    assert (0 < mx * mx + p * p)%Qc as PX. { pose proof (sq_nonneg p) as Q1. unfold sq in Q1. assert (0 * mx < mx * mx)%Qc as Q2 by (apply Qcmult_lt_compat_r; exact P0). set (u := (mx * mx)%Qc) in *. set (v := (p * p)%Qc) in *. clearbody u v. clear -Q1 Q2. replace (0 * mx)%Qc with 0%Qc in Q2 by ring. qc_lra. }
    destruct (SQ _ PX) as [S1 S2]. eexists. split; [reflexivity|]. split; [exact S1|].
    intros n2 aux b s2 Z H. cbn [bin_test] in H. apply andb_true_iff in H as [H _]. apply andb_true_iff in H as [H1 H2]. apply Bt in H1. destruct (Qclt_le_dec (coord s2 2) (p * p)) as [H3|]; [|discriminate H2].
    apply Qcle_trans with (2 := S2). set (u := (mx * mx)%Qc) in *. set (v := (p * p)%Qc) in *. clearbody u v. clear -H1 H3. qc_lra.
Qed.

(* ---------------- the whole count ---------------- *)
Definition v3_lt3 (p : v3) : p = (coord p 0, coord p 1, coord p 2).
Proof. destruct p as [[a b] c]. reflexivity. Qed.
Lemma near_np L L' a b : near false L a b = near false L' a b.
Proof. reflexivity. Qed.
Lemma near2_reorder los periodic L p q : (los < 3)%nat -> (periodic = true -> L = cube (coord L 0)) ->
  near2 periodic (cube (coord L 0)) (reorder los p) (reorder los q) = sep_of los (fun i p q => sq (near periodic (coord L i) (coord p i) (coord q i))) p q.
Proof.
  intros H HL. assert (forall i a b, (i < 3)%nat -> near periodic (coord (cube (coord L 0)) i) a b = near periodic (coord L 0) a b) as C.
  { intros i a b Hi. destruct periodic; [|reflexivity]. assert (i = 0 \/ i = 1 \/ i = 2)%nat as [-> | [-> | ->]] by lia; reflexivity. }
  assert (forall i a b, (i < 3)%nat -> near periodic (coord L i) a b = near periodic (coord L 0) a b) as D.
  { intros i a b Hi. destruct periodic; [|reflexivity]. rewrite (HL eq_refl). apply C, Hi. }
  unfold near2. rewrite !C by lia. assert (los = 0 \/ los = 1 \/ los = 2)%nat as [-> | [-> | ->]] by lia; unfold sep_of, reorder, axes_order; cbn [filter Nat.eqb negb app coord fst snd]; rewrite ?(D 1%nat), ?(D 2%nat) by lia; reflexivity.
Qed.
Lemma in_concat_map {A B} (f : A -> B) parts x : In x (concat (map (map f) parts)) -> exists y, x = f y /\ In y (concat parts).
Proof. rewrite <- concat_map. intros H. apply in_map_iff in H as (y & E & H). exists y. split; [symmetry; exact E|exact H]. Qed.
Lemma vmod_in_box L p : (forall i, (i < 3)%nat -> (0 < coord L i)%Qc) -> in_box true L (vmod p L).
Proof. intros H _ i Hi. assert (i = 0 \/ i = 1 \/ i = 2)%nat as [-> | [-> | ->]] by lia; [apply (proj1 (qmod_ok (coord p 0) (coord L 0) (H 0%nat Hi)))|apply (proj1 (qmod_ok (coord p 1) (coord L 1) (H 1%nat Hi)))|apply (proj1 (qmod_ok (coord p 2) (coord L 2) (H 2%nat Hi)))]. Qed.

Section Whole.
Variables (size : nat) (targets : Qc -> v3 -> list nat) (sqrt : Qc -> Qc) (corr : list obj -> list obj -> list pc_bin).
Variables (g : grouping) (mode : pmode) (edges : list Qc) (Nmu : option nat) (pimax : option Qc) (n2 : nat) (aux : nat -> v3 -> bool) (sepf : v3 -> Qc).
Variables (los : los_arg) (axis : nat) (periodic show : bool) (L : v3) (first : list (list obj)) (second : option (list (list obj))).
Variable sep2 : nat -> v3 -> v3 -> Qc.
Hypothesis SQ : sqrt_contract sqrt.
Hypothesis DC : domain_contract size targets periodic L.
Hypothesis CC : corr_contract corr mode edges pimax n2 aux sepf periodic (coord L 0).
Hypothesis GA : good_args mode edges Nmu pimax periodic L.
Hypothesis GR : Permutation (leaves g) (seq 0 size).
Hypothesis LO : check_los los = Ok axis.
Hypothesis S2 : forall i p q, (i < 3)%nat -> axis_sep2 periodic (coord L i) (coord p i) (coord q i) (sep2 i p q).
Let A := concat first.
Let B := concat (match second with Some s => s | None => first end).

Lemma L_pos : periodic = true -> forall i, (i < 3)%nat -> (0 < coord L i)%Qc.
Proof using GA.
  intros E i Hi. clear - GA E Hi. destruct GA as (NE & Pos & _ & Per). destruct (Per E) as [_ H]. destruct edges as [|e es] eqn:Ee; [contradiction|]. specialize (Pos e (or_introl eq_refl)). specialize (H e i (or_introl eq_refl) Hi). qc_lra.
Qed.
Lemma L_cube : periodic = true -> L = cube (coord L 0).
Proof using GA. intros E. destruct GA as (_ & _ & _ & Per). destruct (Per E) as [[E1 E2] _]. rewrite (v3_lt3 L) at 1. rewrite E1, E2. reflexivity. Qed.
Definition enf (p : v3) : v3 := if periodic then vmod p L else p.
Lemma enf_box p : in_box periodic L (enf p).
Proof using GA. pose proof L_pos as LP. clear - LP. unfold enf. destruct periodic eqn:E; [|intros H; discriminate H]. apply vmod_in_box. apply LP; reflexivity. Qed.
Lemma enforce_enf parts : enforce periodic L parts = map (map (fun x => (enf (fst x), snd x))) parts.
Proof using periodic L.
  clear. unfold enforce, enf. destruct periodic; [reflexivity|]. symmetry. rewrite <- (map_id parts) at 2. apply map_ext. intros l. rewrite <- (map_id l) at 2. apply map_ext. intros [p w]. reflexivity.
Qed.
Lemma enf_sep i p q : (i < 3)%nat -> sq (near periodic (coord L i) (coord (enf p) i) (coord (enf q) i)) = sep2 i p q.
Proof using GA S2.
  intros Hi. pose proof L_pos as LP. apply (axis_sep2_unique periodic (coord L i) (coord p i) (coord q i)); [|apply S2, Hi]. clear - LP Hi. unfold enf. destruct periodic eqn:E; [|reflexivity].
  assert (forall v, coord (vmod v L) i = qmod (coord v i) (coord L i)) as C. { intros v. assert (i = 0 \/ i = 1 \/ i = 2)%nat as [-> | [-> | ->]] by lia; reflexivity. }
  pose proof (LP eq_refl i Hi) as HL. destruct (qmod_ok (coord p i) (coord L i) HL) as [Bp Mp]. destruct (qmod_ok (coord q i) (coord L i) HL) as [Bq Mq].
  rewrite !C. apply axis_sep2_mod with (1 := Mp) (2 := Mq). apply near_sep2; assumption.
Qed.
Lemma axis3 : (axis < 3)%nat.
Proof using LO. apply los_lt3 with los, LO. Qed.
Lemma enf_turn p q : near2 periodic (cube (coord L 0)) (reorder axis (enf p)) (reorder axis (enf q)) = sep_of axis sep2 p q.
Proof using GA LO S2 n2.
  rewrite (near2_reorder axis periodic L) by (apply axis3 || apply L_cube). pose proof axis3 as H3.
  assert (axis = 0 \/ axis = 1 \/ axis = 2)%nat as [-> | [-> | ->]] by lia; unfold sep_of; rewrite !enf_sep by lia; reflexivity.
Qed.
Lemma enf_dist p q : dist2 periodic L (enf p) (enf q) = (sep2 0%nat p q + sep2 1%nat p q + sep2 2%nat p q)%Qc.
Proof using GA S2 axis n2 size. unfold dist2, near2. cbn [coord fst snd]. change (fst (fst (enf p))) with (coord (enf p) 0). change (fst (fst (enf q))) with (coord (enf q) 0). 
  change (snd (fst (enf p))) with (coord (enf p) 1). change (snd (fst (enf q))) with (coord (enf q) 1). change (snd (enf p)) with (coord (enf p) 2). change (snd (enf q)) with (coord (enf q) 2).
  change (fst (fst L)) with (coord L 0). change (snd (fst L)) with (coord L 1). change (snd L) with (coord L 2). rewrite !enf_sep by lia. reflexivity. Qed.
Lemma sep2_nonneg i p q : (i < 3)%nat -> (0 <= sep2 i p q)%Qc.
Proof using GA S2. intros Hi. rewrite <- enf_sep by exact Hi. apply sq_nonneg. Qed.

Lemma simbox_ok : exists out, simbox_pairs size targets sqrt corr g mode edges Nmu pimax los periodic show L first second = Ok out /\
  length out = n_bins mode edges n2 /\
  forall b, (b < n_bins mode edges n2)%nat -> exists o, nth_error out b = Some o /\
    reports (pairs_in (fun p q => bin_test mode edges pimax n2 aux b (sep_of axis sep2 p q)) (fun p q => sepf (sep_of axis sep2 p q)) A B) o.
Proof.
  unfold simbox_pairs. rewrite LO. cbn [rbind]. destruct (good_args_checks sqrt _ _ _ _ _ _ SQ GA) as (-> & -> & s & -> & Ps & Hs). cbn [rbind].
  assert (periodic && negb (if Qc_eq_dec (coord L 1) (coord L 0) then if Qc_eq_dec (coord L 2) (coord L 0) then true else false else false) = false) as ->.
  { destruct periodic eqn:E; [|reflexivity]. destruct GA as (_ & _ & _ & Per). destruct (Per eq_refl) as [[E1 E2] _]. destruct (Qc_eq_dec (coord L 1) (coord L 0)); [|contradiction]. destruct (Qc_eq_dec (coord L 2) (coord L 0)); [reflexivity|contradiction]. }
  set (data := map _ (decompose_box _ _ _ _ _ _ _)).
  assert (length data = size) as Ld. { unfold data, decompose_box. rewrite !map_length, seq_length. reflexivity. }
  destruct (corr_call_ok corr _ _ _ show g data CC) as (out & E & Lo & Ho); [rewrite Ld; exact GR|]. exists out. split; [exact E|]. split; [exact Lo|].
  intros b Hb. destruct (Ho b Hb) as (o & Eo & Ro). exists o. split; [exact Eo|]. apply reports_perm with (2 := Ro). clear Ro Eo o Ho Lo E out Ld.
  set (test := fun b p q => bin_test mode edges pimax n2 aux b (near2 periodic (cube (coord L 0)) p q)). set (sepp := fun p q => sepf (near2 periodic (cube (coord L 0)) p q)).
  destruct DC as (D1 & D2 & D3).
  set (pos1 := enforce periodic L first). set (pos2 := enforce periodic L (match second with Some x => x | None => first end)).
  assert (concat pos1 = map (fun x => (enf (fst x), snd x)) A) as C1. { unfold pos1, A. rewrite enforce_enf, concat_map. reflexivity. }
  assert (concat pos2 = map (fun x => (enf (fst x), snd x)) B) as C2. { unfold pos2, B. rewrite enforce_enf, concat_map. reflexivity. }
  assert (forall x, In x (concat pos1) -> in_box periodic L (fst x)) as I1. { rewrite C1. intros x Hx. apply in_map_iff in Hx as (y & <- & _). apply enf_box. }
  assert (forall x, In x (concat pos2) -> in_box periodic L (fst x)) as I2. { rewrite C2. intros x Hx. apply in_map_iff in Hx as (y & <- & _). apply enf_box. }
  set (owner := fun x : obj => hd 0%nat (targets 0%Qc (fst x))).
  set (m := fun r (x : obj) => if qgt s (vmax L * Q2Qc (1 # 4))%Qc then true else existsb (Nat.eqb r) (targets s (fst x))).
  set (t := test b). 
  assert (forall p q, t (reorder axis (enf p)) (reorder axis (enf q)) = bin_test mode edges pimax n2 aux b (sep_of axis sep2 p q)) as T. { intros p q. unfold t, test. rewrite enf_turn. reflexivity. }
  (* the data of rank r *)
  match goal with |- Permutation _ ?R => change (Permutation (concat (map (fun d : list obj * list obj => pairs_in t sepp (fst d) (snd d)) data)) R) end.
  assert (map (fun d : list obj * list obj => pairs_in t sepp (fst d) (snd d)) data =
          map (fun r => pairs_in (fun p q => t (reorder axis p) (reorder axis q)) (fun p q => sepp (reorder axis p) (reorder axis q)) (filter (fun x => Nat.eqb r (owner x)) (concat pos1)) (filter (m r) (concat pos2))) (seq 0 size)) as ->.
  { unfold data, decompose_box. rewrite !map_map. apply map_ext. intros r. cbn [fst snd]. etransitivity; [apply (pairs_in_map t sepp (reorder axis))|].
    replace (match second with Some s0 => enforce periodic L s0 | None => enforce periodic L first end) with pos2 by (unfold pos2; destruct second; reflexivity). fold pos1. f_equal.
    - rewrite exchange_filter.
      + apply filter_ext_in. intros x Hx. destruct (D1 (fst x) (I1 x Hx)) as (k & _ & Ek). unfold owner. rewrite Ek. cbn [existsb hd]. rewrite orb_false_r. reflexivity.
      + intros x Hx. destruct (D1 (fst x) (I1 x Hx)) as (k & _ & ->). constructor; [intros []|constructor].
    - unfold m. destruct (qgt s (vmax L * Q2Qc (1 # 4))%Qc).
      + symmetry. apply filter_true.
      + apply exchange_filter. intros x Hx. apply D3; [exact Ps|apply I2, Hx]. }
  rewrite (split_pairs (fun p q => t (reorder axis p) (reorder axis q)) _ (concat pos1) (concat pos2) owner size m).
  - rewrite C1, C2, pairs_in_map. match goal with |- Permutation ?a ?b => assert (a = b) as ->; [|reflexivity] end. apply pairs_in_ext. intros x y _ _. rewrite T. split; [reflexivity|]. unfold sepp. rewrite enf_turn. reflexivity.
  - intros a Ha. destruct (D1 (fst a) (I1 a Ha)) as (k & Hk & Ek). unfold owner. rewrite Ek. exact Hk.
  - intros a c Ha Hc Hac. unfold m. destruct (qgt s (vmax L * Q2Qc (1 # 4))%Qc); [reflexivity|]. apply existsb_exists. exists (owner a). split; [|apply Nat.eqb_refl].
    destruct (D1 (fst a) (I1 a Ha)) as (k & Hk & Ek). apply (D2 s (fst a) (fst c) (owner a) Ps (I1 a Ha) (I2 c Hc)); [unfold owner; rewrite Ek; reflexivity|].
    rewrite C1 in Ha. rewrite C2 in Hc. apply in_map_iff in Ha as (x & <- & _). apply in_map_iff in Hc as (y & <- & _). cbn [fst snd] in *. rewrite T in Hac. rewrite enf_dist.
    assert (0 <= coord (sep_of axis sep2 (fst x) (fst y)) 2)%Qc as Z. { pose proof axis3. assert (axis = 0 \/ axis = 1 \/ axis = 2)%nat as [-> | [-> | ->]] by lia; apply sep2_nonneg; lia. }
    specialize (Hs n2 aux b _ Z Hac). pose proof axis3 as H3. set (s0 := sep2 0%nat (fst x) (fst y)) in *. set (s1 := sep2 1%nat (fst x) (fst y)) in *. set (s2 := sep2 2%nat (fst x) (fst y)) in *.
    replace (coord (sep_of axis sep2 (fst x) (fst y)) 0 + coord (sep_of axis sep2 (fst x) (fst y)) 1 + coord (sep_of axis sep2 (fst x) (fst y)) 2)%Qc with (s0 + s1 + s2)%Qc in Hs; [exact Hs|].
    assert (axis = 0 \/ axis = 1 \/ axis = 2)%nat as [-> | [-> | ->]] by lia; cbn [sep_of coord fst snd]; unfold s0, s1, s2; ring.
Qed.
End Whole.
