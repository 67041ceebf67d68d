(* Proofs: averages over an axis, totals, constants, refusals. *)
From Verif Require Import Base BaseProofs Num BinModel BinSpec BinArr BinProofs BinIndex.
From Coq Require Import Sorting.Sorted.
Local Open Scope nat_scope.

Lemma this_zq z : this (zq z) = (z # 1)%Q.
Proof.
  unfold zq. cbn [this Q2Qc]. unfold inject_Z. unfold Qred. pose proof (Z.ggcd_gcd z 1) as G. pose proof (Z.ggcd_correct_divisors z 1) as D. destruct (Z.ggcd z 1) as [g [aa bb]]. cbn in *. rewrite Z.gcd_1_r in G. subst g.
  destruct D as [-> D2]. rewrite Z.mul_1_l. assert (bb = 1%Z) as -> by lia. reflexivity.
Qed.
Lemma qfloor_zq z : qfloor (zq z) = z.
Proof. unfold qfloor. rewrite this_zq. cbn [Qnum Qden]. apply Z.div_1_r. Qed.
Lemma qround_zq z : qround (zq z) = z.
Proof.
  unfold qround. rewrite qfloor_zq. replace (zq z - zq z)%Qc with 0%Qc by ring. destruct (Qclt_le_dec 0 (Q2Qc (1 # 2))) as [_|H]; [reflexivity|].
  exfalso. apply (Qcle_not_lt _ _ H). reflexivity.
Qed.
Lemma qabs_nonneg x : (0 <= qabs x)%Qc.
Proof. unfold qabs. destruct (Qclt_le_dec x 0) as [H|H]; [|exact H]. replace 0%Qc with (- 0)%Qc by reflexivity. apply Qcopp_le_compat, Qclt_le_weak, H. Qed.
Lemma allclose_refl x : allclose x x = true.
Proof.
  unfold allclose. replace (x - x)%Qc with 0%Qc by ring. destruct (Qclt_le_dec _ (qabs 0)) as [H|_]; [|reflexivity]. exfalso. apply (Qclt_not_le _ _ H).
  replace (qabs 0) with (0 + 0)%Qc by reflexivity. apply Qcplus_le_compat; [discriminate|]. replace 0%Qc with (Q2Qc (1 # 100000) * 0)%Qc by ring.
  rewrite (Qcmult_comm _ 0), (Qcmult_comm _ (qabs x)). apply Qcmult_le_compat_r; [apply qabs_nonneg|discriminate].
Qed.
Lemma sorted_seq n : forall l k, StronglySorted lt l -> (forall j, In j l <-> k <= j < k + n) -> l = seq k n.
Proof.
  induction n as [|n IH]; intros l k HS HI.
  - destruct l as [|x l]; [reflexivity|]. exfalso. pose proof (proj1 (HI x) (or_introl eq_refl)). lia.
  - destruct l as [|x l]; [exfalso; apply (proj2 (HI k)); lia|]. inversion HS as [|? ? HS' HF]; subst. rewrite Forall_forall in HF.
    assert (x = k).
    { pose proof (proj1 (HI x) (or_introl eq_refl)). destruct (proj2 (HI k) ltac:(lia)) as [|H1]; [assumption|]. specialize (HF k H1). lia. }
    subst x. cbn [seq]. f_equal. apply (IH l (S k) HS'). intros j. split.
    + intros Hj. pose proof (proj1 (HI j) (or_intror Hj)). specialize (HF j Hj). lia.
    + intros Hj. destruct (proj2 (HI j) ltac:(lia)) as [|]; [lia|assumption].
Qed.

Lemma even_ends e e0 h n : even e e0 h n -> (last e 0 - hd 0 e)%Qc = (h * nq n)%Qc.
Proof.
  intros HE. pose proof (even_length _ _ _ _ HE) as L. destruct (snoc_split e n L) as (l & x & -> & EL). rewrite last_last.
  pose proof (even_nth _ _ _ _ n HE ltac:(lia)) as N1. rewrite nth_error_app2, EL, Nat.sub_diag in N1 by lia. cbn in N1. injection N1 as ->.
  pose proof (even_nth _ _ _ _ 0 HE ltac:(lia)) as N0. destruct (l ++ [(e0 + nq n * h)%Qc]) as [|y l'] eqn:E; [destruct l; discriminate|]. cbn in N0. injection N0 as ->. cbn [hd]. change (nq 0) with 0%Qc. ring.
Qed.

(* ---- totals along the axis ---- *)
Lemma sum_of_app a b : sum_of (a ++ b) = (sum_of a + sum_of b)%Qc.
Proof. rewrite !sum_of_fin, map_app, qsum_app. reflexivity. Qed.
Lemma sum_of_concat {A} (f : A -> list val) l : sum_of (concat (map f l)) = qsum (map (fun x => sum_of (f x)) l).
Proof. induction l as [|x l IH]; cbn [map concat]; [reflexivity|]. rewrite sum_of_app, qsum_cons, IH. reflexivity. Qed.
Lemma fine_line p r i m k : i = length p -> fine i m (p ++ k :: r) = map (fun j => p ++ j :: r) (map (fun j => k * m + j) (seq 0 m)).
Proof.
  intros ->. unfold fine. rewrite map_map. apply map_ext. intros j. rewrite firstn_app, firstn_all, Nat.sub_diag, firstn_O, app_nil_r. rewrite app_nth2, Nat.sub_diag by lia. cbn [nth].
  rewrite skipn_app. rewrite skipn_all2 by lia. replace (S (length p) - length p) with 1 by lia. reflexivity.
Qed.
Lemma line_total (f g : list nat -> val) p r i m q : i = length p ->
  (forall k, k < q -> g (p ++ k :: r) = Some (sum_of (map f (fine i m (p ++ k :: r))))) ->
  sum_of (map (fun k => g (p ++ k :: r)) (seq 0 q)) = sum_of (map (fun j => f (p ++ j :: r)) (seq 0 (q * m))).
Proof.
  intros Hi HG. rewrite seq_blocks, concat_map, map_map, sum_of_concat. rewrite sum_of_fin, map_map. apply qsum_map_ext. intros k Hk. apply in_seq in Hk.
  rewrite (HG k) by lia. cbn [fin]. rewrite (fine_line p r i m k Hi), map_map. reflexivity.
Qed.
(* ---- constants ---- *)
Lemma finite_const {A} (f : A -> val) c l : (forall x, In x l -> f x = Some c) -> finite_values (map f l) = map (fun _ => c) l.
Proof. intros H. induction l as [|x l IH]; cbn [map finite_values]; [reflexivity|]. rewrite (H x (or_introl eq_refl)), IH; [reflexivity|]. intros y Hy. apply H. right. exact Hy. Qed.
Lemma qsum_const {A} (c : Qc) (l : list A) : qsum (map (fun _ => c) l) = (c * nq (length l))%Qc.
Proof. induction l as [|x l IH]; cbn [map length]; [rewrite qsum_nil; change (nq 0) with 0%Qc; ring|]. rewrite qsum_cons, IH, nq_S. ring. Qed.
Lemma mean_const {A} (f : A -> val) c l v : l <> [] -> (forall x, In x l -> f x = Some c) -> mean_of (map f l) v -> v = Some c.
Proof.
  intros HN H [[H1 _]|(H1 & x & -> & E)]; rewrite (finite_const f c l H) in *.
  - destruct l; [congruence|discriminate].
  - f_equal. unfold sum_of in E. rewrite (finite_const f c l H), map_length, qsum_const in E. assert (nq (length l) <> 0%Qc) as NZ by (apply nq_neq0; destruct l; [congruence|discriminate]).
    transitivity (x * nq (length l) / nq (length l))%Qc; [field; exact NZ|]. rewrite E. field. exact NZ.
Qed.
Lemma wmean_const {A} (f : A -> val) (g : A -> Qc) c l v : qsum (map g l) <> 0%Qc -> (forall x, In x l -> f x = Some c) -> wmean_of (map (fun x => (f x, g x)) l) v -> v = Some c.
Proof.
  intros HN H. unfold wmean_of. rewrite map_map. cbn [snd]. intros [[H1 _]|(H1 & x & -> & E)]; [contradiction|]. f_equal. unfold wsum_of in E. rewrite map_map in E. cbn [fst snd] in E.
  assert (ES : qsum (map (fun x => match f x with Some x0 => (x0 * g x)%Qc | None => 0%Qc end) l) = (c * qsum (map g l))%Qc).
  { clear -H. induction l as [|y l IH]; cbn [map]; [rewrite !qsum_nil; ring|]. rewrite !qsum_cons, (H y (or_introl eq_refl)), IH by (intros z Hz; apply H; right; exact Hz). ring. }
  rewrite ES in E. change (map (fun x => g x) l) with (map g l) in E. transitivity (x * qsum (map g l) / qsum (map g l))%Qc; [field; exact HN|]. rewrite E. field. exact HN.
Qed.

(* ---- average over an axis ---- *)
Lemma average_ok s dim i n e0 h w wt force to_sum :
  wf s -> 2 <= length (dims s) -> nth_error (dims s) i = Some dim -> even (nth i (edges s) []) e0 h n -> nth i (coords s) [] = mid (nth i (edges s) []) ->
  h <> 0%Qc -> 2 <= n -> Forall (lt 0) (sshape s) -> weighted_by s w wt ->
  (forall k x, nth_error (vars s) k = Some (x, true) -> ~ In x to_sum -> match wt with Some (true, _) => False | _ => True end) ->
  exists t, average s dim w force to_sum = Ok t /\ wf t /\ dims t = remove_at i (dims s) /\ vars t = vars s /\
    edges t = remove_at i (edges s) /\
    (forall p r, length p = i -> valid (sshape t) (p ++ r) ->
       forall k x int, nth_error (vars s) k = Some (x, int) ->
         exists v, (int = false \/ integral v -> var_at t k (p ++ r) = v) /\
           (In x to_sum -> v = Some (sum_of (map (fun j => var_at s k (p ++ j :: r)) (seq 0 n)))) /\
           (~ In x to_sum -> match wt with
                             | None => mean_of (map (fun j => var_at s k (p ++ j :: r)) (seq 0 n)) v
                             | Some (_, g) => wmean_of (map (fun j => (var_at s k (p ++ j :: r), g (p ++ j :: r))) (seq 0 n)) v
                             end)).
Proof.
  intros W H2 Ei HE HC Hh Hn HP HW HI. assert (Li : i < length (dims s)) by (apply nth_error_Some; congruence).
  unfold average. rewrite (position_nth dim (dims s) i (wf_names s W) Ei). rewrite (even_ends _ _ _ _ HE).
  destruct (reindex_ok s dim i n e0 h (h * nq n)%Qc w wt force to_sum n W Ei HE HC Hh Hn (le_n n)) as (t & E & Wt & T1 & T2 & T3 & T4 & T5 & T6 & T7 & T8); auto.
  { replace (h * nq n / h)%Qc with (nq n) by (field; exact Hh). apply qround_zq. }
  { right. split; [apply Nat.mod_same; lia|apply allclose_refl]. }
  rewrite E. cbn [rbind]. rewrite Nat.div_same in T6 by lia.
  assert (L1 : length (nth i (coords t) []) = 1) by (rewrite T7, mid_length, T6, map_length, seq_length; reflexivity).
  destruct (nth i (coords t) []) as [|c0 [|]] eqn:EC; try discriminate. cbn [hd]. unfold sel. cbn [map rall fst snd]. 
  rewrite (position_nth dim (dims t) i (wf_names t Wt)) by (rewrite T1; exact Ei). rewrite EC. unfold get_index.
  destruct (Qc_eq_dec c0 c0) as [_|N]; [|contradiction]. cbn [rbind rall flat_map app length snd fst]. rewrite T1.
  destruct (Nat.eqb_spec 1 (length (dims s))) as [|_]; [lia|].
  destruct (take_ok t [] [(dim, PIdx [Z.of_nat 0])] Wt) as (u & jss & EU & Wu & LJ & SJ & U1 & U2 & U3 & U4 & U5 & U6 & U7 & U8).
  { intros d p [H|[]]. injection H as <- <-. exists i. split; [rewrite T1; exact Ei|]. cbn [pick_ok]. constructor; [|constructor].
    assert (nth i (sshape t) 0 = 1) as ->; [|lia]. unfold sshape. change 0 with (length (@nil Qc)). rewrite map_nth, EC. reflexivity. }
  match goal with |- context [take ?a ?b ?c] => change (take a b c) with (take t [] [(dim, PIdx [Z.of_nat 0])]) end. rewrite EU. cbn [rbind].
  assert (N1 : nth i (sshape t) 0 = 1) by (unfold sshape; change 0 with (length (@nil Qc)); rewrite map_nth, EC; reflexivity).
  assert (EJ : jss = map (seq 0) (sshape t)).
  { apply nth_error_ext. intros k. rewrite nth_error_map'. destruct (Nat.ltb_spec k (length (dims t))) as [Hk|Hk].
    - rewrite (nth_error_nth' jss [] (n := k)) by lia. rewrite (nth_error_nth' (sshape t) 0 (n := k)) by (rewrite (sshape_length t Wt); lia). cbn [option_map]. f_equal.
      destruct (SJ k Hk) as [S1 S2]. apply sorted_seq; [exact S1|]. intros j. rewrite S2. split; [intros (H & _); lia|]. intros H. split; [lia|]. split; [intros m idx []|].
      intros d p [Hd|[]] Ed. injection Hd as <- <-. cbn [picks]. exists 0%Z. split; [left; reflexivity|]. left.
      assert (k = i) as -> by (pose proof (wf_names t Wt) as ND; rewrite NoDup_nth_error in ND; apply ND; [exact Hk|rewrite Ed, T1; symmetry; exact Ei]). lia.
    - rewrite (proj2 (nth_error_None jss k)) by lia. rewrite (proj2 (nth_error_None (sshape t) k)) by (rewrite (sshape_length t Wt); lia). reflexivity. }
  assert (EU2 : sshape u = sshape t).
  { rewrite U7, EJ. unfold counts. rewrite map_map. rewrite <- (map_id (sshape t)) at 2. apply map_ext. intros x. apply seq_length. }
  assert (EU3 : edges u = edges t).
  { rewrite U5, EJ. unfold chosen. pose proof (wf_bins_shape t Wt) as WB. clear -WB. induction WB as [|n e sh es H0 H IH]; [reflexivity|]. cbn [map combine fst snd]. rewrite IH. f_equal.
    unfold chosen_edges. destruct n as [|n]; [destruct e as [|x [|]]; try discriminate; reflexivity|].
    cbn [seq]. change (0 :: seq 1 n) with (seq 0 (S n)). assert (last (seq 0 (S n)) 0 = n) as -> by (rewrite seq_S, last_last; reflexivity).
    apply nth_error_ext. intros k. rewrite nth_error_map'. replace (seq 0 (S n) ++ [S n]) with (seq 0 (S (S n))) by (rewrite (seq_S (S n) 0); reflexivity).
    rewrite nth_error_seq. destruct (Nat.ltb_spec k (S (S n))); cbn [option_map]; symmetry; [apply nth_error_nth'; lia|apply nth_error_None; lia]. }
  assert (Eid : nth_error (dims u) i = Some dim) by (rewrite U1, T1; exact Ei).
  destruct (split_nth _ _ _ Eid) as (P & D & ED & LP).
  destruct (split_nth (edges u) i (nth i (edges u) [])) as (eP & eD & EE & LeP); [apply nth_error_nth'; rewrite (wf_edges u Wu), U1, T1; exact Li|].
  destruct (split_nth (coords u) i (nth i (coords u) [])) as (cP & cD & ECu & LcP); [apply nth_error_nth'; rewrite (wf_coords u Wu), U1, T1; exact Li|].
  destruct (squeeze_ok u P dim D eP _ eD cP _ cD Wu ED EE ECu ltac:(lia) ltac:(lia)) as (v & EV & Wv & V1 & V2 & V3 & V4 & V5 & V6 & V7).
  { change (length (nth i (coords u) []) = 1). assert (nth i (sshape u) 0 = 1) as Q by (rewrite EU2; exact N1). unfold sshape in Q. change 0 with (length (@nil Qc)) in Q. rewrite map_nth in Q. exact Q. }
  { intros HX. apply (f_equal (@length nat)) in HX. rewrite app_length in HX. rewrite <- T1, <- U1, ED, app_length in H2. cbn [length] in *. lia. }
  cbn [squeezes]. rewrite EV. cbn [rbind]. exists v. split; [reflexivity|]. split; [exact Wv|]. split; [rewrite V1, <- T1, <- U1, ED, remove_at_app by auto; reflexivity|]. split; [congruence|]. split.
  { rewrite V2. rewrite <- (remove_at_app eP eD (nth i (edges u) []) i) by auto. rewrite <- EE, EU3.
    assert (REM : forall (l1 l2 : list (list Qc)), length l1 = length l2 -> (forall j, j <> i -> nth j l1 [] = nth j l2 []) -> remove_at i l1 = remove_at i l2).
    { clear. induction i as [|i IH]; intros [|x l1] [|y l2] HL HN; try discriminate; cbn [remove_at]; auto.
      - apply (nth_ext _ _ [] []); [cbn in HL; lia|]. intros k _. apply (HN (S k)). lia.
      - f_equal; [apply (HN 0); lia|]. apply IH; [cbn in HL; lia|]. intros k Hk. apply (HN (S k)). lia. }
    apply REM; [rewrite (wf_edges t Wt), (wf_edges s W), T1; reflexivity|]. intros k Hk. apply T5, Hk. }
  intros p r Hp HV k x int Ek. destruct (V7 p r ltac:(lia)) as [C1 _].
  assert (HV2 : valid (sshape u) (p ++ 0 :: r)).
  { unfold sshape in *. rewrite V3, map_app in HV. rewrite ECu, map_app. cbn [map]. apply Forall2_app_inv_r in HV. destruct HV as (p' & r' & Q1 & Q2 & Q3).
    assert (length p' = length p) by (rewrite (valid_length _ _ Q1), map_length; lia). destruct (app_inj_len _ _ _ _ Q3) as [-> ->]; [congruence|]. apply Forall2_app; [exact Q1|].
    constructor; [|exact Q2]. rewrite <- EU2 in N1. unfold sshape in N1. change 0 with (length (@nil Qc)) in N1. rewrite map_nth in N1. cbn [length] in N1. lia. }
  assert (C2 : cell (data u) (p ++ 0 :: r) = cell (data t) (p ++ 0 :: r)).
  { destruct (U8 (p ++ 0 :: r)) as [Q _]; [rewrite <- U7; exact HV2|]. rewrite Q. f_equal. rewrite EJ. rewrite EU2 in HV2. clear -HV2. induction HV2 as [|x y l l' H0 H IH]; [reflexivity|]. cbn [map combine fst snd]. rewrite IH.
    rewrite seq_nth by exact H0. reflexivity. }
  destruct (T8 (p ++ 0 :: r)) as [T9 _]; [rewrite <- EU2; exact HV2|]. destruct (T9 k x int Ek) as (v0 & [K1 K2] & K3). exists v0.
  assert (F : fine i n (p ++ 0 :: r) = map (fun j => p ++ j :: r) (seq 0 n)).
  { rewrite (fine_line p r i n 0) by auto. f_equal. rewrite <- (map_id (seq 0 n)) at 2. apply map_ext. intros j. reflexivity. }
  rewrite F in K1, K2. split; [|split].
  - intros Q. specialize (K3 Q). unfold var_at in *. rewrite C1, C2. exact K3.
  - intros Q. rewrite (K1 Q), map_map. reflexivity.
  - intros Q. specialize (K2 Q). destruct wt as [[b g]|]; rewrite map_map in K2; exact K2.
Qed.

(* ---- consequences ---- *)
Lemma rebin_conserves s dim i n e0 h spacing w wt force to_sum m : rebinnable s dim i n e0 h spacing w wt force to_sum m ->
  exists t, reindex s dim spacing w force to_sum = Ok t /\
    forall k x int p r, nth_error (vars s) k = Some (x, int) -> In x to_sum -> length p = i ->
      (forall j, j < n / m -> valid (sshape t) (p ++ j :: r)) ->
      (int = true -> forall idx, valid (sshape s) idx -> exists z, var_at s k idx = Some (zq z)) ->
      sum_of (map (fun j => var_at t k (p ++ j :: r)) (seq 0 (n / m))) = sum_of (map (fun j => var_at s k (p ++ j :: r)) (seq 0 (n / m * m))).
Proof.
  intros (W & Ei & HE & HC & Hh & Hm & Hmn & HR & HF & HP & HW & HI).
  destruct (reindex_ok s dim i n e0 h spacing w wt force to_sum m W Ei HE HC Hh Hm Hmn HR HF HP HW HI) as (t & E & Wt & T1 & T2 & T3 & T4 & T5 & T6 & T7 & T8).
  exists t. split; [exact E|]. intros k x int p r Ek Hx Hp HV HInt. apply (line_total (var_at s k) (var_at t k) p r i m (n / m)); [auto|].
  intros j Hj. destruct (T8 _ (HV j Hj)) as [T9 _]. destruct (T9 k x int Ek) as (v & [K1 _] & K2). rewrite (K1 Hx) in K2. apply K2.
  destruct int; [right|left; reflexivity]. specialize (HInt eq_refl).
  assert (G : forall l, (forall t0, In t0 l -> valid (sshape s) t0) -> exists z, sum_of (map (var_at s k) l) = zq z).
  { induction l as [|t0 l IH]; intros HL; [exists 0%Z; reflexivity|]. destruct IH as [z Hz]; [intros t1 Ht1; apply HL; right; exact Ht1|]. destruct (HInt t0 (HL t0 (or_introl eq_refl))) as [y Hy].
    exists (y + z)%Z. cbn [map]. rewrite sum_of_fin in *. cbn [map]. rewrite qsum_cons, Hz, Hy. cbn [fin]. rewrite zq_add. reflexivity. }
  destruct (G (fine i m (p ++ j :: r))) as [z Hz]; [|exists z; rewrite Hz; reflexivity]. intros t0 Ht0.
  assert (HVj := HV j Hj). 
  assert (LC : i < length (coords s)) by (rewrite (wf_coords s W); apply nth_error_Some; congruence).
  destruct (split_nth (coords s) i (nth i (coords s) [])) as (ca & cb & EC & LCa); [apply nth_error_nth', LC|].
  assert (ES : sshape s = map (@length Qc) ca ++ n :: map (@length Qc) cb).
  { unfold sshape. rewrite EC at 1. rewrite map_app. cbn [map]. rewrite HC, mid_length, (even_length _ _ _ _ HE). f_equal. f_equal. lia. }
  assert (ET : sshape t = map (@length Qc) ca ++ (n / m) :: map (@length Qc) cb).
  { assert (LT : length (coords t) = length (coords s)) by (rewrite (wf_coords t Wt), (wf_coords s W), T1; reflexivity).
    unfold sshape. apply nth_error_ext. intros q. rewrite nth_error_map'. destruct (Nat.ltb_spec q (length (coords t))) as [Hq|Hq].
    - rewrite (nth_error_nth' (coords t) [] Hq). cbn [option_map]. destruct (Nat.eq_dec q i) as [->|N].
      + rewrite T7, mid_length, T6, map_length, seq_length. rewrite nth_error_app2 by (rewrite map_length; lia). rewrite map_length, LCa, Nat.sub_diag. cbn. f_equal. lia.
      + destruct (T5 q N) as [_ ->]. symmetry. transitivity (nth_error (sshape s) q).
        * rewrite ES. destruct (Nat.ltb_spec q i); [rewrite !nth_error_app1 by (rewrite map_length; lia); reflexivity|]. rewrite !nth_error_app2 by (rewrite map_length; lia). rewrite map_length. destruct (q - length ca) eqn:EQ; [lia|reflexivity].
        * unfold sshape. rewrite nth_error_map'. rewrite (nth_error_nth' (coords s) [] (n := q)) by lia. reflexivity.
    - rewrite (proj2 (nth_error_None (coords t) q)) by exact Hq. cbn. symmetry. apply nth_error_None. rewrite app_length. cbn [length]. rewrite !map_length. rewrite LT, EC, app_length in Hq. cbn [length] in Hq. exact Hq. }
  rewrite ES. rewrite ET in HVj. rewrite <- LCa in Ht0. rewrite <- (map_length (@length Qc) ca) in Ht0. apply (fine_valid _ _ n (n / m) m _ HVj) with (2 := Ht0). pose proof (Nat.div_mod n m ltac:(lia)). lia.
Qed.
Lemma rebin_constant s dim i n e0 h spacing w wt force to_sum m : rebinnable s dim i n e0 h spacing w wt force to_sum m ->
  exists t, reindex s dim spacing w force to_sum = Ok t /\
    forall k x c idx, nth_error (vars s) k = Some (x, false) -> ~ In x to_sum -> valid (sshape t) idx ->
      (forall t0, In t0 (fine i m idx) -> var_at s k t0 = Some c) ->
      match wt with Some (_, g) => qsum (map g (fine i m idx)) <> 0%Qc | None => True end ->
      var_at t k idx = Some c.
Proof.
  intros (W & Ei & HE & HC & Hh & Hm & Hmn & HR & HF & HP & HW & HI).
  destruct (reindex_ok s dim i n e0 h spacing w wt force to_sum m W Ei HE HC Hh Hm Hmn HR HF HP HW HI) as (t & E & Wt & T1 & T2 & T3 & T4 & T5 & T6 & T7 & T8).
  exists t. split; [exact E|]. intros k x c idx Ek Hx HV Hc Hw. destruct (T8 _ HV) as [T9 _]. destruct (T9 k x false Ek) as (v & [_ K1] & K2).
  rewrite K2 by (left; reflexivity). specialize (K1 Hx). destruct wt as [[b g]|].
  - apply (wmean_const (var_at s k) g c (fine i m idx) v Hw Hc K1).
  - apply (mean_const (var_at s k) c (fine i m idx) v); [|exact Hc|exact K1]. unfold fine. destruct m; [lia|discriminate].
Qed.
(* leftover bins without force *)
Lemma reindex_leftover s dim i n e0 h spacing w to_sum m :
  wf s -> nth_error (dims s) i = Some dim -> even (nth i (edges s) []) e0 h n -> nth i (coords s) [] = mid (nth i (edges s) []) ->
  h <> 0%Qc -> 2 <= m -> m <= n -> qround (spacing / h)%Qc = Z.of_nat m -> weighted s w -> n mod m <> 0 ->
  reindex s dim spacing w false to_sum = Err ValueError.
Proof.
  intros W Ei HE HC Hh Hm Hmn HR HWt HL. unfold reindex. rewrite (position_nth dim (dims s) i (wf_names s W) Ei). rewrite HC.
  assert (Li : i < length (dims s)) by (apply nth_error_Some; congruence).
  destruct (even_mid _ _ _ _ HE ltac:(lia)) as (c0 & c1 & rest & EM & ED). rewrite EM. rewrite ED.
  destruct (Qc_eq_dec h 0%Qc) as [|_]; [contradiction|]. rewrite HR.
  destruct (Z.eqb_spec (Z.of_nat m) 0) as [|_]; [lia|]. destruct (Z.eqb_spec (Z.of_nat m) 1) as [|_]; [lia|].
  destruct (negb (allclose (h * zq (Z.of_nat m)) spacing) && negb false); [reflexivity|].
  destruct HWt as (wt & HWt).
  match goal with |- rbind ?x _ = _ => assert (exists w', x = Ok w') as [w' ->] end.
  { destruct HWt as [|x k int g Ek ND Hg|wa int g ES Hg]; [eexists; reflexivity| |].
    - assert (var_position x (vars s) = Some k) as ->; [|eexists; reflexivity]. unfold var_position. apply position_nth; [exact ND|]. rewrite nth_error_map', Ek. reflexivity.
    - eexists. match goal with |- (if ?c then _ else _) = _ => assert (c = true) as -> by (etransitivity; [apply f_equal2; [exact (eq_trans ES (wf_data s W))|reflexivity]|apply shape_eqb_refl]) end. reflexivity. }
  cbn [rbind]. destruct (Z.ltb_spec (Z.of_nat m) 0) as [|_]; [lia|]. rewrite Nat2Z.id.
  assert (nth i (sshape s) 0 = n) as ->.
  { unfold sshape. change 0 with (length (@nil Qc)). rewrite map_nth, HC, mid_length, (even_length _ _ _ _ HE). lia. }
  destruct (Nat.eqb_spec (n mod m) 0) as [|_]; [contradiction|]. reflexivity.
Qed.

(* ---- indices that are refused ---- *)
Lemma getitem_too_many s ks : length (dims s) < length ks -> getitem s ks = Err IndexError.
Proof. intros H. unfold getitem. destruct (Nat.ltb_spec (length (dims s)) (length ks)); [reflexivity|lia]. Qed.
Lemma getitem_all_ints s l : wf s -> length l = length (dims s) -> getitem s (map KInt l) = Err IndexError.
Proof.
  intros W HL. unfold getitem. rewrite map_length, HL. rewrite Nat.ltb_irrefl.
  assert (exists ind, key_indices (sshape s) (map KInt l) = Ok ind) as [ind ->].
  { pose proof (sshape_length s W) as LS. revert LS. rewrite <- HL. generalize (sshape s). clear. induction l as [|z l IH]; intros [|n sh] E; try discriminate; [eexists; reflexivity|].
    destruct (IH sh) as [ind Hi]; [cbn in E; lia|]. cbn [map key_indices tl rbind]. rewrite Hi. cbn [rbind]. eexists. reflexivity. }
  cbn [rbind]. assert (int_dims (dims s) (map KInt l) = dims s) as ->.
  { clear -HL. revert l HL. generalize (dims s). unfold int_dims. induction l as [|d ds IH]; intros [|z l] HL; try discriminate; [reflexivity|]. cbn [map combine flat_map snd fst app]. rewrite IH by (cbn in HL; lia). reflexivity. }
  rewrite Nat.eqb_refl. reflexivity.
Qed.
(* contiguous selections keep their edges *)
Lemma chosen_contiguous e a k : a + k < length e -> 0 < k -> chosen_edges e (seq a k) = firstn (S k) (skipn a e).
Proof.
  intros H Hk. unfold chosen_edges. destruct k as [|k]; [lia|]. cbn [seq]. change (a :: seq (S a) k) with (seq a (S k)).
  assert (last (seq a (S k)) 0 = a + k) as -> by (rewrite seq_S, last_last; reflexivity).
  replace (seq a (S k) ++ [S (a + k)]) with (seq a (S (S k))) by (rewrite (seq_S (S k) a); f_equal; f_equal; lia).
  apply nth_error_ext. intros j. rewrite nth_error_map', nth_error_seq, nth_error_firstn. destruct (Nat.ltb_spec j (S (S k))); [|reflexivity]. cbn [option_map].
  rewrite nth_error_skipn. symmetry. apply nth_error_nth'. lia.
Qed.

(* ---- names ---- *)
Lemma get_vars_ok s names ks : wf s -> NoDup (map fst (vars s)) -> Forall2 (fun x k => exists b, nth_error (vars s) k = Some (x, b)) names ks ->
  exists t, get_vars s names = Ok t /\ wf t /\ dims t = dims s /\ map fst (vars t) = names /\ edges t = edges s /\ coords t = map mid (edges s) /\ fts t = fts s /\ attrs t = attrs s /\
    sshape t = sshape s /\
    forall idx, valid (sshape s) idx -> cell (mask t) idx = cell (mask s) idx /\
      forall q k, nth_error ks q = Some k -> var_at t q idx = var_at s k idx /\ nth_error (vars t) q = nth_error (vars s) k.
Proof.
  intros W ND HF. unfold get_vars.
  assert (rall (map (fun x => match var_position x (vars s) with Some k => Ok k | None => Err KeyError end) names) = Ok ks) as ->.
  { clear -ND HF. induction HF as [|x k names ks [b Ek] HF IH]; [reflexivity|]. cbn [map rall]. assert (var_position x (vars s) = Some k) as -> by (apply (position_nth x _ k ND); rewrite nth_error_map', Ek; reflexivity). cbn [rbind]. rewrite IH. reflexivity. }
  cbn [rbind]. set (jss := map (seq 0) (sshape s)). pose proof (sshape_length s W) as LS.
  assert (EC : counts jss = sshape s) by (unfold jss, counts; rewrite map_map; rewrite <- (map_id (sshape s)) at 2; apply map_ext; intros; apply seq_length).
  assert (EL : lens (map (fun _ => true) jss) jss = sshape s) by (rewrite <- EC; unfold lens, counts; clear; induction jss; cbn; congruence).
  assert (HJ : Forall2 (fun n js => Forall (fun j => j < n) js) (sshape s) jss) by (unfold jss; clear; induction (sshape s); cbn; constructor; auto; apply seq_lt).
  assert (ECh : chosen (edges s) jss = edges s).
  { unfold chosen, jss. pose proof (wf_bins_shape s W) as WB. clear -WB. induction WB as [|n e sh es H0 H IH]; [reflexivity|]. cbn [map combine fst snd]. rewrite IH. f_equal.
    destruct n as [|n]; [destruct e as [|x [|]]; try discriminate; reflexivity|]. rewrite chosen_contiguous by lia. cbn [skipn]. apply firstn_all2. lia. }
  assert (HE : rall (map (fun ei => slice_edges (fst ei) (snd ei)) (combine (edges s) (map (fun n => map Z.of_nat (seq 0 n)) (sshape s)))) = Ok (edges s)).
  { replace (map (fun n => map Z.of_nat (seq 0 n)) (sshape s)) with (map (map Z.of_nat) jss) by (unfold jss; rewrite map_map; reflexivity). rewrite (rall_chosen (sshape s)) by (try apply (wf_bins_shape s W); exact HJ). rewrite ECh. reflexivity. }
  destruct (finalize_ok s (map (fun k => nth k (vars s) (0, false)) ks) {| shape := shape (data s); cell := fun i => map (fun k => nth k (cell (data s) i) None) ks |} (mask s)
     (map (fun n => map Z.of_nat (seq 0 n)) (sshape s)) (edges s) (map (fun _ => true) jss) jss
     (fun i => map (fun k => nth k (cell (data s) i) None) ks) (cell (mask s)) W) as (t & E & Wt & T1 & T2 & T3 & T4 & T5 & T6 & T7 & T8).
  - unfold jss. rewrite map_length. exact LS.
  - exact HE.
  - unfold jss. pose proof (wf_bins_shape s W) as WB. clear -WB. induction WB as [|n e sh es H0 H IH]; cbn [map]; constructor; auto. rewrite seq_length. exact H0.
  - clear. induction jss; cbn [map]; constructor; auto; discriminate.
  - rewrite EL. apply (wf_data s W).
  - reflexivity.
  - rewrite EL. apply (wf_mask s W).
  - reflexivity.
  - intros idx. cbn [cell]. rewrite !map_length. reflexivity.
  - exists t. split; [exact E|]. split; [exact Wt|]. split; [exact T1|]. split.
    { rewrite T4, map_map. clear -HF. induction HF as [|x k names ks [b Ek] HF IH]; [reflexivity|]. cbn [map]. rewrite IH, (nth_error_nth _ _ _ Ek). reflexivity. }
    split; [exact T2|]. split; [exact T3|]. split; [exact T5|]. split; [exact T6|]. split; [rewrite T7; exact EC|].
    intros idx HV. rewrite <- EC in HV. destruct (T8 idx HV) as [C1 C2].
    assert (KE : keep (map (fun _ => true) jss) idx = idx).
    { clear -HV. apply valid_length in HV. unfold counts in HV. rewrite map_length in HV. revert idx HV. induction jss as [|js l IH]; intros [|i idx] HV; try discriminate; cbn; [reflexivity|]. rewrite IH by (cbn in HV; lia). reflexivity. }
    rewrite KE in C1, C2. split; [exact C2|]. intros q k Hq. unfold var_at. rewrite C1, T4. split.
    + apply nth_error_nth. rewrite nth_error_map', Hq. reflexivity.
    + rewrite nth_error_map', Hq. cbn [option_map]. symmetry. apply nth_error_nth'.
      assert (exists x b, nth_error (vars s) k = Some (x, b)) as (x & b & Ek).
      { clear -HF Hq. revert q Hq. induction HF as [|x k0 names ks [b Ek] HF IH]; intros [|q] Hq; try discriminate; cbn in Hq; [injection Hq as ->; eauto|apply (IH q Hq)]. }
      apply nth_error_Some. congruence.
Qed.

(* ---- state ---- *)
Lemma state_ok s : wf s -> exists t, from_state (getstate s) = Ok t /\ dims t = dims s /\ edges t = edges s /\ coords t = coords s /\ vars t = vars s /\ attrs t = attrs s /\
  shape (data t) = shape (data s) /\
  forall idx, cell (data t) idx = cell (data s) idx /\ (cell (mask t) idx = true <-> exists k, k < length (vars s) /\ var_at s k idx = None).
Proof.
  intros W. unfold from_state, getstate, init. assert (length (dims s) =? length (edges s) = true) as -> by (rewrite (wf_edges s W); apply Nat.eqb_refl). cbn [negb].
  assert (shape (data s) = map (fun e : list Qc => length e - 1) (edges s)) as ES.
  { rewrite (wf_data s W). pose proof (wf_bins s W) as WB. clear -WB. induction WB as [|c e cs es H0 H IH]; [reflexivity|]. cbn [map]. rewrite IH, H0. f_equal. lia. }
  rewrite ES, shape_eqb_refl. cbn [negb]. eexists. split; [reflexivity|]. cbn [dims edges coords vars attrs data mask]. split; [reflexivity|]. split; [reflexivity|]. split.
  { apply nth_error_ext. intros k. rewrite nth_error_map'. destruct (nth_error (edges s) k) as [e|] eqn:Ee.
    - rewrite (nth_error_combine_seq _ _ _ Ee). cbn [option_map fst snd]. assert (k < length (coords s)) as Hk by (rewrite (wf_coords s W), <- (wf_edges s W); apply nth_error_Some; congruence).
      rewrite (nth_error_nth _ k None (x := Some (nth k (coords s) []))) by (rewrite nth_error_map', (nth_error_nth' (coords s) [] Hk); reflexivity). symmetry. apply nth_error_nth', Hk.
    - apply nth_error_None in Ee. rewrite (proj2 (nth_error_None (combine _ (edges s)) k)) by (rewrite combine_length, seq_length; lia). symmetry. apply nth_error_None. rewrite (wf_coords s W), <- (wf_edges s W). exact Ee. }
  split; [reflexivity|]. split; [reflexivity|]. split; [exact ES|]. intros idx. cbn [cell]. split; [reflexivity|]. rewrite existsb_exists. split.
  - intros (v & Hin & Hv). apply In_nth_error in Hin. destruct Hin as [k Ek]. exists k. split; [rewrite <- (wf_rows s W idx); apply nth_error_Some; congruence|]. unfold var_at. rewrite (nth_error_nth _ _ _ Ek). destruct v; [discriminate|reflexivity].
  - intros (k & Lk & Hk). exists None. split; [|reflexivity]. rewrite <- Hk. apply nth_In. rewrite (wf_rows s W). exact Lk.
Qed.

(* ---- the list argument of reindex ---- *)
Lemma rebin_names s dim spacing w force l l' : (forall x, In x l <-> In x l') -> reindex s dim spacing w force l = reindex s dim spacing w force l'.
Proof.
  intros H. assert (G : forall x, existsb (Nat.eqb x) l = existsb (Nat.eqb x) l').
  { intros x. apply eq_iff_eq_true. rewrite !existsb_exists. split; intros (y & Hy & E); exists y; (split; [apply H, Hy|exact E]). }
  unfold reindex. destruct (position dim (dims s)) as [i|]; [|reflexivity]. destruct (nth i (coords s) []) as [|c0 [|c1 rest]]; try reflexivity.
  destruct (Qc_eq_dec (c1 - c0) 0); [reflexivity|]. destruct (_ =? 0)%Z; [reflexivity|]. destruct (_ =? 1)%Z; [reflexivity|]. destruct (_ && _); [reflexivity|].
  match goal with |- rbind ?a _ = rbind _ _ => destruct a as [w0|e] end; [|reflexivity]. cbn [rbind]. destruct (_ <? 0)%Z; [reflexivity|]. destruct (_ && _); [reflexivity|].
  match goal with |- rbind (rall (map ?f _)) _ = rbind (rall (map ?g _)) _ => assert (forall kv, f kv = g kv) as HE end.
  { intros kv. rewrite G. reflexivity. }
  rewrite (map_ext _ _ HE). reflexivity.
Qed.
(* one call: what happens to the lists, and what it returns *)
Lemma reindex_call_ok h o dim spacing w force arg : In dim (dims (o_stat o)) ->
  let r := match arg with Some r => r | None => 0 end in
  let '(h', out) := reindex_call h o dim spacing w force arg in
  out = reindex (o_stat o) dim spacing w force (nth r h [] ++ nth (o_fts o) h []) /\
  length h' = length h /\
  (forall j, j <> r -> nth j h' [] = nth j h []) /\
  (r < length h -> nth r h' [] = nth r h [] ++ nth (o_fts o) h []).
Proof.
  intros HD. unfold reindex_call. assert (exists i, position dim (dims (o_stat o)) = Some i) as [i ->].
  { unfold position. generalize 0. revert HD. generalize (dims (o_stat o)). clear. induction l as [|y l IH]; intros [] k; subst.
    - rewrite Nat.eqb_refl. eexists. reflexivity.
    - destruct (y =? dim); [eexists; reflexivity|]. apply IH. assumption. }
  split; [reflexivity|]. split; [apply replace_nth_length|]. split; [intros j Hj; apply replace_nth_neq, Hj|]. intros Hr. apply replace_nth_eq, Hr.
Qed.
Lemma replace_same (h : lists) : forall r, r < length h -> replace_nth h r (nth r h [] ++ []) = h.
Proof. induction h as [|l h IH]; intros [|r] H; cbn in *; try lia; [rewrite app_nil_r; reflexivity|]. rewrite IH by lia. reflexivity. Qed.
(* a history of calls on objects without fields to sum of their own leaves every list alone *)
Lemma history_ok calls : forall h, Forall (fun c : call => nth (o_fts (c_obj c)) h [] = [] /\ match c_arg c with Some r => r < length h | None => 0 < length h end) calls ->
  fst (run_calls h calls) = h /\
  snd (run_calls h calls) = map (fun c => reindex (o_stat (c_obj c)) (c_dim c) (c_spacing c) (c_weights c) (c_force c) (match c_arg c with Some r => nth r h [] | None => nth 0 h [] end)) calls.
Proof.
  induction calls as [|c calls IH]; intros h HF; [split; reflexivity|]. inversion HF as [|? ? [H1 H2] HF']; subst. cbn [run_calls map].
  assert (E : reindex_call h (c_obj c) (c_dim c) (c_spacing c) (c_weights c) (c_force c) (c_arg c) = (h, reindex (o_stat (c_obj c)) (c_dim c) (c_spacing c) (c_weights c) (c_force c) (match c_arg c with Some r => nth r h [] | None => nth 0 h [] end))).
  { unfold reindex_call. destruct (position (c_dim c) (dims (o_stat (c_obj c)))) eqn:EP; [|unfold reindex; rewrite EP; reflexivity].
    rewrite H1. destruct (c_arg c) as [r|]; rewrite replace_same by exact H2; rewrite app_nil_r; reflexivity. }
  rewrite E. destruct (IH h HF') as [I1 I2]. destruct (run_calls h calls) as [h' outs]. cbn [fst snd] in *. split; [exact I1|]. rewrite I2. reflexivity.
Qed.

(* ---- sel with one value ---- *)
Lemma chosen_full e n : length e = S n -> chosen_edges e (seq 0 n) = e.
Proof.
  intros H. destruct n as [|n]; [destruct e as [|x [|]]; try discriminate; reflexivity|]. rewrite chosen_contiguous by lia. cbn [skipn]. apply firstn_all2. lia.
Qed.
Lemma argmin_spec l : l <> [] -> argmin l < length l /\ (forall j, j < length l -> (nth (argmin l) l 0 <= nth j l 0)%Qc) /\ (forall j, j < argmin l -> (nth (argmin l) l 0 < nth j l 0)%Qc).
Proof.
  induction l as [|x l IH]; intros H; [congruence|]. cbn [argmin]. destruct l as [|y l]; [|set (l' := y :: l) in *].
  - cbn [length]. split; [lia|]. split; [|lia]. intros j Hj. assert (j = 0) as -> by lia. apply Qcle_refl.
  - assert (l' <> []) as HN by discriminate. destruct (IH HN) as (I1 & I2 & I3). clearbody l'. destruct (Qclt_le_dec (nth (argmin l') l' 0%Qc) x) as [L|L].
    + split; [cbn [length]; lia|]. split; intros [|j] Hj; cbn [nth length] in *.
      * apply Qclt_le_weak, L.
      * apply I2. lia.
      * exact L.
      * apply I3. lia.
    + split; [cbn [length]; lia|]. split; [|lia]. intros [|j] Hj; cbn [nth length] in *; [apply Qcle_refl|]. apply Qcle_trans with (1 := L). apply I2. lia.
Qed.
Lemma get_index_ok c x nearest k : get_index c x nearest = Ok k <-> located c x nearest k.
Proof.
  unfold get_index, located. destruct nearest.
  - destruct c as [|c0 c']; [split; [discriminate|intros [H _]; cbn in H; lia]|]. set (c := c0 :: c') in *. assert (HN : map (fun y => qabs (y - x)%Qc) c <> []) by discriminate.
    destruct (argmin_spec _ HN) as (A1 & A2 & A3). rewrite map_length in *.
    assert (NM : forall j, j < length c -> nth j (map (fun y => qabs (y - x)%Qc) c) 0%Qc = qabs (nth j c 0 - x)%Qc).
    { intros j Hj. apply nth_error_nth. rewrite nth_error_map', (nth_error_nth' c 0%Qc Hj). reflexivity. }
    set (a := argmin _) in *. clearbody c. split.
    + intros H. injection H as <-. split; [exact A1|]. intros j Hj. split; [rewrite <- !NM by assumption; apply A2, Hj|]. intros Lj. rewrite <- !NM by assumption. apply A3, Lj.
    + intros [H1 H2]. f_equal. destruct (lt_eq_lt_dec a k) as [[L| ->]|L]; [|reflexivity|].
      * destruct (H2 a A1) as [_ H3]. specialize (H3 L). specialize (A2 k H1). rewrite !NM in A2 by assumption. exfalso. exact (Qclt_not_le _ _ H3 A2).
      * specialize (A3 k L). rewrite !NM in A3 by assumption. destruct (H2 a A1) as [H3 _]. exfalso. exact (Qclt_not_le _ _ A3 H3).
  - assert (G : forall c k0, (match (fix go l k := match l with [] => None | y :: l => if Qc_eq_dec y x then Some k else go l (S k) end) c k0 with Some k1 => Ok k1 | None => Err IndexError end = Ok k) <->
      k0 <= k /\ nth_error c (k - k0) = Some x /\ forall j, j < k - k0 -> nth_error c j <> Some x).
    { clear. induction c as [|y c IH]; intros k0.
      - split; [discriminate|]. intros (_ & H & _). destruct (k - k0); discriminate.
      - destruct (Qc_eq_dec y x) as [->|N].
        + split; [intros H; injection H as <-; rewrite Nat.sub_diag; split; [lia|]; split; [reflexivity|lia]|]. intros (H1 & H2 & H3). destruct (k - k0) as [|d] eqn:E; [f_equal; lia|]. exfalso. apply (H3 0 ltac:(lia)). reflexivity.
        + rewrite IH. split.
          * intros (H1 & H2 & H3). split; [lia|]. replace (k - k0) with (S (k - S k0)) by lia. split; [exact H2|]. intros [|j] Hj; [cbn; congruence|]. apply H3. lia.
          * intros (H1 & H2 & H3). destruct (k - k0) as [|d] eqn:E; [cbn in H2; congruence|]. split; [lia|]. replace (k - S k0) with d by lia. split; [exact H2|]. intros j Hj. apply (H3 (S j)). lia. }
    rewrite (G c 0). rewrite Nat.sub_0_r. split; [intros (_ & H); exact H|intros H; split; [lia|exact H]].
Qed.
Lemma get_index_lt c x nearest k : get_index c x nearest = Ok k -> k < length c.
Proof.
  intros H. apply get_index_ok in H. unfold located in H. destruct nearest; [apply H|]. destruct H as [H _]. apply nth_error_Some. congruence.
Qed.
Lemma sel_scalar_ok s nearest dim i x k : wf s -> 2 <= length (dims s) -> nth_error (dims s) i = Some dim -> located (nth i (coords s) []) x nearest k ->
  exists t, sel s nearest [(dim, IScalar x)] = Ok t /\ wf t /\ dims t = remove_at i (dims s) /\ vars t = vars s /\ fts t = fts s /\ attrs t = attrs s /\
    edges t = remove_at i (edges s) /\
    forall p r, length p = i -> valid (sshape t) (p ++ r) ->
      cell (data t) (p ++ r) = cell (data s) (p ++ k :: r) /\ cell (mask t) (p ++ r) = cell (mask s) (p ++ k :: r).
Proof.
  intros W H2 Ei HK. apply get_index_ok in HK. pose proof (get_index_lt _ _ _ _ HK) as Lk. assert (Li : i < length (dims s)) by (apply nth_error_Some; congruence).
  unfold sel. cbn [map rall fst snd]. rewrite (position_nth dim (dims s) i (wf_names s W)) by exact Ei. rewrite HK. cbn [rbind rall flat_map app length snd fst].
  destruct (Nat.eqb_spec 1 (length (dims s))) as [|_]; [lia|].
  assert (N1 : nth i (sshape s) 0 = length (nth i (coords s) [])) by (unfold sshape; change 0 with (length (@nil Qc)) at 1; apply map_nth).
  destruct (take_ok s [] [(dim, PIdx [Z.of_nat k])] W) as (u & jss & EU & Wu & LJ & SJ & U1 & U2 & U3 & U4 & U5 & U6 & U7 & U8).
  { intros d p [H|[]]. injection H as <- <-. exists i. split; [exact Ei|]. cbn [pick_ok]. constructor; [lia|constructor]. }
  rewrite EU. cbn [rbind].
  pose proof (sshape_length s W) as LS.
  assert (JI : nth i jss [] = [k]).
  { destruct (SJ i Li) as [S1 S2]. change [k] with (seq k 1). apply sorted_seq; [exact S1|]. intros j. rewrite S2. split.
    - intros (Hj & _ & HP). specialize (HP dim _ (or_introl eq_refl) Ei). cbn [picks] in HP. destruct HP as (z & [<-|[]] & Hz). lia.
    - intros Hj. split; [lia|]. split; [intros m idx []|]. intros d p [Hd|[]] Ed. injection Hd as <- <-. exists (Z.of_nat k). split; [left; reflexivity|]. left. f_equal. lia. }
  assert (JN : forall q, q < length (dims s) -> q <> i -> nth q jss [] = seq 0 (nth q (sshape s) 0)).
  { intros q Hq HN. destruct (SJ q Hq) as [S1 S2]. apply sorted_seq; [exact S1|]. intros j. rewrite S2. split; [intros (Hj & _); lia|]. intros Hj. split; [lia|]. split; [intros m idx []|].
    intros d p [Hd|[]] Ed. injection Hd as <- <-. exfalso. apply HN. pose proof (wf_names s W) as ND. rewrite NoDup_nth_error in ND. apply ND; [exact Hq|congruence]. }
  assert (EDn : forall q, q <> i -> nth q (edges u) [] = nth q (edges s) []).
  { intros q HN. rewrite U5. destruct (Nat.ltb_spec q (length (dims s))) as [Hq|Hq].
    - unfold chosen. pose proof (wf_bins_shape s W) as WB. assert (Hq1 : q < length (edges s)) by (rewrite (wf_edges s W); exact Hq).
      rewrite (nth_error_nth _ q [] (x := chosen_edges (nth q (edges s) []) (nth q jss []))).
      + rewrite (JN q Hq HN). apply chosen_full.
        assert (GG : forall sh es, Forall2 (fun n (e : list Qc) => length e = S n) sh es -> forall q, q < length es -> length (nth q es []) = S (nth q sh 0)).
        { clear. induction 1 as [|n e sh es H0 H IH]; intros [|q] Hq; cbn in *; try lia; auto. apply IH. lia. }
        apply GG; assumption.
      + rewrite nth_error_map'. rewrite (nth_error_nth' (combine (edges s) jss) ([], []) (n := q)) by (rewrite combine_length; lia). rewrite combine_nth by (rewrite (wf_edges s W); lia). reflexivity.
    - rewrite !nth_overflow; [reflexivity|rewrite (wf_edges s W); exact Hq|]. unfold chosen. rewrite map_length, combine_length, (wf_edges s W). lia. }
  assert (Eid : nth_error (dims u) i = Some dim) by (rewrite U1; exact Ei).
  destruct (split_nth _ _ _ Eid) as (P & D & ED & LP).
  destruct (split_nth (edges u) i (nth i (edges u) [])) as (eP & eD & EE & LeP); [apply nth_error_nth'; rewrite (wf_edges u Wu), U1; exact Li|].
  destruct (split_nth (coords u) i (nth i (coords u) [])) as (cP & cD & ECu & LcP); [apply nth_error_nth'; rewrite (wf_coords u Wu), U1; exact Li|].
  assert (Lc1 : length (nth i (coords u) []) = 1).
  { assert (nth i (sshape u) 0 = 1) as Q by (rewrite U7; unfold counts; change 0 with (length (@nil nat)); rewrite map_nth, JI; reflexivity). unfold sshape in Q. change 0 with (length (@nil Qc)) in Q. rewrite map_nth in Q. exact Q. }
  destruct (squeeze_ok u P dim D eP _ eD cP _ cD Wu ED EE ECu ltac:(lia) ltac:(lia) Lc1) as (v & EV & Wv & V1 & V2 & V3 & V4 & V5 & V6 & V7).
  { intros HX. apply (f_equal (@length nat)) in HX. rewrite app_length in HX. rewrite <- U1, ED, app_length in H2. cbn [length] in *. lia. }
  cbn [squeezes]. rewrite EV. cbn [rbind]. exists v. split; [reflexivity|]. split; [exact Wv|]. split; [rewrite V1, <- U1, ED, remove_at_app by auto; reflexivity|]. split; [congruence|]. split; [congruence|]. split; [congruence|]. split.
  { rewrite V2. rewrite <- (remove_at_app eP eD (nth i (edges u) []) i) by auto. rewrite <- EE.
    assert (REM : forall (l1 l2 : list (list Qc)), length l1 = length l2 -> (forall j, j <> i -> nth j l1 [] = nth j l2 []) -> remove_at i l1 = remove_at i l2).
    { clear. induction i as [|i IH]; intros [|x l1] [|y l2] HL HN; try discriminate; cbn [remove_at]; auto.
      - apply (nth_ext _ _ [] []); [cbn in HL; lia|]. intros k _. apply (HN (S k)). lia.
      - f_equal; [apply (HN 0); lia|]. apply IH; [cbn in HL; lia|]. intros k Hk. apply (HN (S k)). lia. }
    apply REM; [rewrite (wf_edges u Wu), (wf_edges s W), U1; reflexivity|exact EDn]. }
  intros p r Hp HV. destruct (V7 p r ltac:(lia)) as [-> ->].
  assert (HV2 : valid (sshape u) (p ++ 0 :: r)).
  { unfold sshape in *. rewrite V3, map_app in HV. rewrite ECu, map_app. cbn [map]. apply Forall2_app_inv_r in HV. destruct HV as (p' & r' & Q1 & Q2 & Q3).
    assert (length p' = length p) by (rewrite (valid_length _ _ Q1), map_length; lia). destruct (app_inj_len _ _ _ _ Q3) as [-> ->]; [congruence|]. apply Forall2_app; [exact Q1|].
    constructor; [rewrite Lc1; lia|exact Q2]. }
  rewrite U7 in HV2. destruct (U8 _ HV2) as [-> ->].
  assert (GG : forall jss' p r i0, length p + i0 = i -> (forall q, q < length jss' -> q + i0 <> i -> exists n, nth q jss' [] = seq 0 n) -> (i0 <= i -> i - i0 < length jss' -> nth (i - i0) jss' [] = [k]) -> valid (counts jss') (p ++ 0 :: r) ->
     map (fun p => nth (fst p) (snd p) 0) (combine (p ++ 0 :: r) jss') = p ++ k :: r).
  { clear. induction jss' as [|js jss' IH]; intros [|a p] r i0 HI HQ HK HV; unfold valid, counts in HV; cbn [map app] in HV; inversion HV as [|? ? ? ? F1 F2]; subst.
    - cbn [app combine map fst snd]. cbn [length] in *. rewrite Nat.add_0_l, Nat.sub_diag in HK. cbn [nth] in HK. rewrite HK by lia. cbn [nth]. f_equal.
      assert (HR : forall jss' r i1, i0 < i1 -> (forall q, q < length jss' -> q + i1 <> i0 -> exists n, nth q jss' [] = seq 0 n) -> Forall2 (fun i n => i < n) r (map (@length nat) jss') -> map (fun p => nth (fst p) (snd p) 0) (combine r jss') = r).
      { clear. induction jss' as [|js jss' IH]; intros r i1 HI HQ HV; cbn [map] in HV; inversion HV as [|? ? ? ? F1 F2]; subst; [reflexivity|]. cbn [combine map fst snd]. f_equal.
        - destruct (HQ 0 ltac:(cbn; lia) ltac:(lia)) as [n Hn]. cbn [nth] in Hn. rewrite Hn, seq_length in F1. rewrite Hn, seq_nth by exact F1. reflexivity.
        - apply (IH _ (S i1)); [lia| |exact F2]. intros q Hq HN. apply (HQ (S q)); cbn [length]; lia. }
      apply (HR _ _ (S i0)); [lia| |exact F2]. intros q Hq HN. apply (HQ (S q)); cbn [length]; lia.
    - cbn [app combine map fst snd length] in *. f_equal.
      + destruct (HQ 0 ltac:(lia) ltac:(lia)) as [n Hn]. cbn [nth] in Hn. rewrite Hn, seq_length in F1. rewrite Hn, seq_nth by exact F1. reflexivity.
      + apply (IH p r (S i0)); [lia| | |exact F2].
        * intros q Hq HN. apply (HQ (S q)); lia.
        * intros H1 H2. rewrite <- HK by lia. replace (S (length p) + i0 - i0) with (S (S (length p) + i0 - S i0)) by lia. reflexivity. }
  rewrite (GG jss p r 0); [split; reflexivity|lia| | |exact HV2].
  - intros q Hq HN. exists (nth q (sshape s) 0). apply JN; lia.
  - intros _ _. rewrite Nat.sub_0_r. exact JI.
Qed.

(* ---- in terms of centres ---- *)
Lemma centres_mid es : Forall (fun e : list Qc => e <> []) es -> Forall2 centres es (map mid es).
Proof. induction 1; cbn; constructor; auto. apply mid_centres. assumption. Qed.
Lemma wf_nonempty t : wf t -> Forall (fun e : list Qc => e <> []) (edges t).
Proof. intros W. pose proof (wf_bins t W) as H. induction H; constructor; auto. intros ->. discriminate. Qed.
Lemma reindex_centres s dim i n e0 h spacing w wt force to_sum m : rebinnable s dim i n e0 h spacing w wt force to_sum m ->
  exists t, reindex s dim spacing w force to_sum = Ok t /\ wf t /\
    dims t = dims s /\ vars t = vars s /\ attrs t = attrs s /\ fts t = fts s /\
    (forall j, j <> i -> nth j (edges t) [] = nth j (edges s) [] /\ nth j (coords t) [] = nth j (coords s) []) /\
    nth i (edges t) [] = map (fun k => nth (k * m) (nth i (edges s) []) 0%Qc) (seq 0 (S (n / m))) /\
    centres (nth i (edges t) []) (nth i (coords t) []) /\
    (forall idx, valid (sshape t) idx ->
       (forall k x int, nth_error (vars s) k = Some (x, int) ->
         exists v, coarse s i m wt (In x to_sum) k idx v /\ (int = false \/ integral v -> var_at t k idx = v)) /\
       (cell (mask t) idx = true <-> exists k, k < length (vars s) /\ var_at t k idx = None)).
Proof.
  intros (W & Ei & HE & HC & Hh & Hm & Hmn & HR & HF & HP & HW & HI).
  destruct (reindex_ok s dim i n e0 h spacing w wt force to_sum m W Ei HE HC Hh Hm Hmn HR HF HP HW HI) as (t & E & Wt & T1 & T2 & T3 & T4 & T5 & T6 & T7 & T8).
  exists t. repeat (split; [assumption|]). split; [|exact T8]. rewrite T7. apply mid_centres. rewrite T6. discriminate.
Qed.
Lemma getitem_centres s ks fl jss : wf s -> wants (sshape s) ks fl jss -> plain ks -> In true fl ->
  exists t, getitem s ks = Ok t /\ wf t /\ dims t = keep fl (dims s) /\ vars t = vars s /\ fts t = fts s /\ attrs t = attrs s /\
    edges t = keep fl (map (fun p => chosen_edges (fst p) (snd p)) (combine (edges s) jss)) /\
    Forall2 centres (edges t) (coords t) /\ sshape t = keep fl (map (@length nat) jss) /\
    forall idx, valid (sshape t) idx ->
      cell (data t) idx = cell (data s) (full fl jss idx) /\ cell (mask t) idx = cell (mask s) (full fl jss idx).
Proof.
  intros W HW HP HT. destruct (getitem_ok s ks fl jss W HW HP HT) as (t & E & Wt & T1 & T2 & T3 & T4 & T5 & T6 & T7 & T8). exists t.
  repeat (split; [assumption|]). split; [rewrite T6; apply centres_mid, wf_nonempty, Wt|]. split; [exact T7|]. intros idx HV. apply T8. rewrite <- T7. exact HV.
Qed.
Lemma take_centres s masks ps : wf s ->
  (forall d p, In (d, p) ps -> exists i, nth_error (dims s) i = Some d /\ pick_ok (nth i (sshape s) 0) p) ->
  exists t jss, take s masks ps = Ok t /\ wf t /\ length jss = length (dims s) /\
    (forall i, i < length (dims s) -> StronglySorted lt (nth i jss []) /\
       forall j, In j (nth i jss []) <-> j < nth i (sshape s) 0 /\
         (forall m idx, In m masks -> valid (sshape s) idx -> nth i idx 0 = j -> m idx = true) /\
         (forall d p, In (d, p) ps -> nth_error (dims s) i = Some d -> picks (nth i (sshape s) 0) p j)) /\
    dims t = dims s /\ vars t = vars s /\ fts t = fts s /\ attrs t = attrs s /\
    edges t = map (fun p => chosen_edges (fst p) (snd p)) (combine (edges s) jss) /\ Forall2 centres (edges t) (coords t) /\
    sshape t = map (@length nat) jss /\
    forall idx, valid (sshape t) idx ->
      cell (data t) idx = cell (data s) (map (fun p => nth (fst p) (snd p) 0) (combine idx jss)) /\
      cell (mask t) idx = cell (mask s) (map (fun p => nth (fst p) (snd p) 0) (combine idx jss)).
Proof.
  intros W HP. destruct (take_ok s masks ps W HP) as (t & jss & E & Wt & L & S & T1 & T2 & T3 & T4 & T5 & T6 & T7 & T8). exists t, jss.
  repeat (split; [assumption|]). split; [rewrite T6; apply centres_mid, wf_nonempty, Wt|]. split; [exact T7|]. intros idx HV. apply T8. rewrite <- T7. exact HV.
Qed.
Lemma getitem_refused s ks : (length (dims s) < length ks \/ (wf s /\ exists l, ks = map KInt l /\ length l = length (dims s))) -> getitem s ks = Err IndexError.
Proof. intros [H|(W & l & -> & H)]; [apply getitem_too_many, H|apply getitem_all_ints; assumption]. Qed.
