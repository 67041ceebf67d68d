From Verif Require Import Base BaseProofs Num BinModel BinSpec BinArr.
Local Open Scope nat_scope.

Lemma rall_map_ok {A B} (f : A -> res B) (P : A -> B -> Prop) l : (forall x, In x l -> exists y, f x = Ok y /\ P x y) ->
  exists ys, rall (map f l) = Ok ys /\ Forall2 P l ys.
Proof.
  induction l as [|x l IH]; intros H; [exists []; split; [reflexivity|constructor]|]. destruct (H x (or_introl eq_refl)) as (y & E & HP).
  destruct IH as (ys & E' & HP'); [intros z Hz; apply H; right; exact Hz|]. exists (y :: ys). cbn [map rall]. rewrite E. cbn [rbind]. rewrite E'. split; [reflexivity|constructor; assumption].
Qed.
Lemma position_nth x l i : NoDup l -> nth_error l i = Some x -> position x l = Some i.
Proof.
  unfold position. intros ND. assert (forall l i k, NoDup l -> nth_error l i = Some x ->
    (fix go l k := match l with [] => None | y :: l => if y =? x then Some k else go l (S k) end) l k = Some (k + i)) as H.
  { clear. induction l as [|y l IH]; intros [|i] k ND E; try discriminate; inversion ND as [|? ? N1 N2]; subst.
    - cbn in E. injection E as ->. rewrite Nat.eqb_refl. f_equal. lia.
    - cbn in E. destruct (Nat.eqb_spec y x) as [->|]; [exfalso; apply N1; eapply nth_error_In, E|]. rewrite (IH i (S k) N2 E). f_equal. lia. }
  intros E. rewrite (H l i 0 ND E). reflexivity.
Qed.
Lemma replace_nth_length {A} (l : list A) : forall i x, length (replace_nth l i x) = length l.
Proof. induction l as [|y l IH]; intros [|i] x; cbn; auto. Qed.
Lemma map_replace_nth {A B} (f : A -> B) (l : list A) : forall i x, map f (replace_nth l i x) = replace_nth (map f l) i (f x).
Proof. induction l as [|y l IH]; intros [|i] x; cbn; auto. rewrite IH. reflexivity. Qed.
Lemma replace_nth_app {A} (a b : list A) y x i : i = length a -> replace_nth (a ++ y :: b) i x = a ++ x :: b.
Proof. intros ->. induction a as [|z a IH]; cbn; [reflexivity|]. rewrite IH. reflexivity. Qed.
Lemma shape_eqb_refl l : shape_eqb l l = true.
Proof. induction l as [|x l IH]; cbn; [reflexivity|]. rewrite Nat.eqb_refl, IH. reflexivity. Qed.
Lemma shape_eqb_eq a : forall b, shape_eqb a b = true -> a = b.
Proof. induction a as [|x a IH]; intros [|y b]; cbn; try discriminate; [reflexivity|]. intros H. apply andb_true_iff in H. destruct H as [H1 H2]. apply Nat.eqb_eq in H1. rewrite H1, (IH b H2). reflexivity. Qed.
Lemma split_nth {A} (l : list A) i x : nth_error l i = Some x -> exists a b, l = a ++ x :: b /\ length a = i.
Proof. apply nth_error_split. Qed.

Lemma replace_nth_neq {A} (l : list A) : forall i j x d, j <> i -> nth j (replace_nth l i x) d = nth j l d.
Proof. induction l as [|y l IH]; intros [|i] [|j] x d H; cbn; auto; congruence. Qed.
Lemma replace_nth_eq {A} (l : list A) : forall i x d, i < length l -> nth i (replace_nth l i x) d = x.
Proof. induction l as [|y l IH]; intros [|i] x d H; cbn in *; try lia; auto. apply IH. lia. Qed.
Lemma bins_replace cs es : Forall2 (fun c e : list Qc => length e = S (length c)) cs es -> forall i c e, length e = S (length c) ->
  Forall2 (fun c e => length e = S (length c)) (replace_nth cs i c) (replace_nth es i e).
Proof. induction 1 as [|c0 e0 cs es H WB IH]; intros [|i] c e HL; cbn [replace_nth]; constructor; auto. Qed.

(* ---- even edges ---- *)
Lemma mid_length e : length (mid e) = length e - 1.
Proof. unfold mid. rewrite map_length, combine_length. destruct e; cbn [tl length]; lia. Qed.
Lemma mid_nth e k a b : nth_error e k = Some a -> nth_error e (S k) = Some b -> nth_error (mid e) k = Some (Q2Qc (1 # 2) * (b + a))%Qc.
Proof.
  unfold mid. revert k. induction e as [|x e IH]; intros [|k] H1 H2; try discriminate; cbn [tl].
  - cbn in H1. injection H1 as ->. destruct e as [|y e]; [discriminate|]. cbn in H2. injection H2 as ->. reflexivity.
  - destruct e as [|y e]; [destruct k; discriminate|]. cbn [combine map nth_error]. apply (IH k); assumption.
Qed.
Lemma half_add x : (Q2Qc (1 # 2) * x + Q2Qc (1 # 2) * x = x)%Qc.
Proof. transitivity ((Q2Qc (1 # 2) + Q2Qc (1 # 2)) * x)%Qc; [ring|]. replace (Q2Qc (1 # 2) + Q2Qc (1 # 2))%Qc with 1%Qc by (apply Qc_is_canon; reflexivity). ring. Qed.
Lemma mid_centres e : e <> [] -> centres e (mid e).
Proof.
  intros H. split; [rewrite mid_length; destruct e; [congruence|cbn; lia]|]. intros k a b Ha Hb. exists (Q2Qc (1 # 2) * (b + a))%Qc.
  split; [apply mid_nth; assumption|]. rewrite half_add. ring.
Qed.
Lemma even_length e e0 h n : even e e0 h n -> length e = S n.
Proof. intros ->. rewrite map_length, seq_length. reflexivity. Qed.
Lemma even_nth e e0 h n k : even e e0 h n -> k <= n -> nth_error e k = Some (e0 + nq k * h)%Qc.
Proof. intros ->. intros H. rewrite nth_error_map', nth_error_seq. destruct (Nat.ltb_spec k (S n)); [reflexivity|lia]. Qed.
Lemma nq_S n : nq (S n) = (nq n + 1)%Qc.
Proof. unfold nq. rewrite Nat2Z.inj_succ. unfold Z.succ. rewrite zq_add. reflexivity. Qed.
Lemma even_mid e e0 h n : even e e0 h n -> 2 <= n -> exists c0 c1 l, mid e = c0 :: c1 :: l /\ (c1 - c0)%Qc = h.
Proof.
  intros HE Hn. pose proof (mid_length e) as L. rewrite (even_length _ _ _ _ HE) in L.
  pose proof (mid_nth e 0 _ _ (even_nth _ _ _ _ 0 HE ltac:(lia)) (even_nth _ _ _ _ 1 HE ltac:(lia))) as M0.
  pose proof (mid_nth e 1 _ _ (even_nth _ _ _ _ 1 HE ltac:(lia)) (even_nth _ _ _ _ 2 HE ltac:(lia))) as M1.
  destruct (mid e) as [|c0 [|c1 l]]; try discriminate. cbn in M0, M1. injection M0 as ->. injection M1 as ->. eexists _, _, _. split; [reflexivity|].
  change (nq 0) with 0%Qc. change (nq 1) with 1%Qc. replace (nq 2) with (1 + 1)%Qc by (apply Qc_is_canon; reflexivity).
  transitivity (Q2Qc (1 # 2) * h + Q2Qc (1 # 2) * h)%Qc; [ring|apply half_add].
Qed.
Lemma nq_add a b : nq (a + b) = (nq a + nq b)%Qc.
Proof. unfold nq. rewrite Nat2Z.inj_add, zq_add. reflexivity. Qed.
Lemma nq_mul a b : nq (a * b) = (nq a * nq b)%Qc.
Proof. unfold nq. rewrite Nat2Z.inj_mul, zq_mul. reflexivity. Qed.
Lemma even_coarse e e0 h n m q : even e e0 h n -> 1 <= q -> q * m <= n ->
  let cut := firstn (S (q * m)) e in
  linspace (hd 0%Qc cut) (last cut 0%Qc) q = map (fun k => nth (k * m) e 0%Qc) (seq 0 (S q)) /\
  even (linspace (hd 0%Qc cut) (last cut 0%Qc) q) e0 (h * nq m) q.
Proof.
  intros HE Hq Hle cut.
  assert (L : length cut = S (q * m)) by (unfold cut; rewrite firstn_length, (even_length _ _ _ _ HE); lia).
  assert (N : forall k, k <= q * m -> nth_error cut k = Some (e0 + nq k * h)%Qc).
  { intros k Hk. unfold cut. rewrite nth_error_firstn. destruct (Nat.ltb_spec k (S (q * m))); [|lia]. apply (even_nth _ _ _ _ k HE). lia. }
  assert (H0 : hd 0%Qc cut = e0).
  { pose proof (N 0 ltac:(lia)) as N0. destruct cut; [discriminate|]. cbn in N0. injection N0 as ->. cbn. change (nq 0) with 0%Qc. ring. }
  assert (H1 : last cut 0%Qc = (e0 + nq (q * m) * h)%Qc).
  { destruct (snoc_split cut _ L) as (l & x & E & EL). rewrite E, last_last. pose proof (N (q * m) ltac:(lia)) as N1. rewrite E, nth_error_app2 in N1 by lia. rewrite EL, Nat.sub_diag in N1. cbn in N1. congruence. }
  rewrite H0, H1. unfold linspace, even.
  assert (Q0 : nq q <> 0%Qc) by (apply nq_neq0; lia).
  assert (E : forall k, (e0 + nq k * ((e0 + nq (q * m) * h - e0) / nq q))%Qc = (e0 + nq k * (h * nq m))%Qc).
  { intros k. rewrite nq_mul. field. exact Q0. }
  split.
  - apply map_ext_in. intros k Hk. apply in_seq in Hk. rewrite E. symmetry. rewrite (nth_error_nth e (k * m) 0%Qc (x := (e0 + nq (k * m) * h)%Qc)).
    + rewrite nq_mul. ring.
    + apply (even_nth _ _ _ _ _ HE). nia.
  - apply map_ext. intros k. apply E.
Qed.

(* ---- one variable ---- *)
Lemma one_axis_app a b m : one_axis (length a) m (map (fun _ : nat => 1) a ++ m :: map (fun _ : nat => 1) b).
Proof.
  induction a as [|x a IH]; cbn; [|auto]. split; [reflexivity|]. induction b as [|y b IH]; constructor; auto.
Qed.
Lemma ratios_one a b n q m : Forall (lt 0) a -> Forall (lt 0) b -> n = q * m -> 0 < q ->
  ratios (a ++ q :: b) (a ++ n :: b) = map (fun _ => 1) a ++ m :: map (fun _ => 1) b.
Proof.
  intros Ha Hb -> Hq. unfold ratios. 
  assert (H : forall l, Forall (lt 0) l -> map (fun p : nat * nat => snd p / fst p) (combine l l) = map (fun _ => 1) l).
  { induction 1 as [|x l Hx HF IH]; [reflexivity|]. cbn [combine map fst snd]. rewrite IH, Nat.div_same by lia. reflexivity. }
  induction Ha as [|x a Hx Ha IH]; cbn [app combine map fst snd].
  - rewrite H by exact Hb. rewrite Nat.mul_comm, Nat.div_mul by lia. reflexivity.
  - rewrite IH, Nat.div_same by lia. reflexivity.
Qed.
Lemma fine_valid a b n q m idx : valid (a ++ q :: b) idx -> q * m <= n -> forall t, In t (fine (length a) m idx) -> valid (a ++ n :: b) t.
Proof.
  intros HV Hn t Ht. unfold fine in Ht. apply in_map_iff in Ht. destruct Ht as (j & <- & Hj). apply in_seq in Hj.
  unfold valid in *. apply Forall2_app_inv_r in HV. destruct HV as (i1 & i2 & H1 & H2 & ->). inversion H2 as [|x ? i2' ? Hx H2']; subst.
  assert (L : length i1 = length a) by (clear -H1; induction H1; cbn; congruence).
  rewrite <- L. rewrite firstn_app, firstn_all, Nat.sub_diag, firstn_O, app_nil_r. rewrite app_nth2, Nat.sub_diag by lia. cbn [nth].
  replace (S (length i1)) with (length (i1 ++ [x])) by (rewrite app_length; cbn; lia).
  change (i1 ++ x :: i2') with (i1 ++ [x] ++ i2'). rewrite app_assoc, skipn_app, skipn_all, Nat.sub_diag. cbn [app skipn].
  apply Forall2_app; [exact H1|]. constructor; [nia|exact H2'].
Qed.

Section Rebin.
Variable a b : list nat.
Variable n q m : nat.
Hypothesis Ha : Forall (lt 0) a.
Hypothesis Hb : Forall (lt 0) b.
Hypothesis Hq : 0 < q.
Notation i := (length a).
Lemma factors c : c = a ++ q * m :: b -> 0 < m -> Forall2 (fun d c => 0 < d /\ c mod d = 0) (a ++ q :: b) c.
Proof.
  intros -> Hm. apply Forall2_app.
  - clear -Ha. induction Ha as [|x l Hx H IH]; constructor; auto. split; [lia|apply Nat.mod_same; lia].
  - constructor; [split; [lia|rewrite Nat.mul_comm; apply Nat.mod_mul; lia]|]. clear -Hb. induction Hb as [|x l Hx H IH]; constructor; auto. split; [lia|apply Nat.mod_same; lia].
Qed.
Lemma bin_axis {V} (op : list V -> V) (d : arr V) : shape d = a ++ q * m :: b -> 0 < m ->
  exists c, bin_ndarray op d (a ++ q :: b) = Ok c /\ shape c = a ++ q :: b /\
    forall idx, valid (a ++ q :: b) idx -> exists rs, one_axis i m rs /\ length idx = length rs /\ cell c idx = blocks op rs idx (cell d).
Proof.
  intros HS Hm. destruct (bin_ndarray_ok op d (a ++ q :: b)) as (c & E & S & _ & HR & C).
  - rewrite HS, !app_length. reflexivity.
  - apply factors; assumption.
  - exists c. split; [exact E|]. split; [exact S|]. intros idx HV. exists (ratios (a ++ q :: b) (shape d)). split.
    + rewrite HS, (ratios_one a b (q * m) q m Ha Hb eq_refl Hq). apply one_axis_app.
    + split; [rewrite (valid_length _ _ HV); congruence|]. apply C, HV.
Qed.
Lemma rebin_ok (d : arr val) int (w : option (bool * arr val)) wt (summed : bool) :
  shape d = a ++ q * m :: b -> 0 < m ->
  match w, wt with
  | None, None => True
  | Some (wi, wa), Some (wi', g) => wi = wi' /\ (forall t, valid (a ++ q * m :: b) t -> cell wa t = Some (g t)) /\ (summed = false -> int && wi = false)
  | _, _ => False
  end ->
  exists c, rebin d int w summed (a ++ q :: b) = Ok c /\ shape c = a ++ q :: b /\
    forall idx, valid (a ++ q :: b) idx ->
      (summed = true -> cell c idx = Some (sum_of (map (cell d) (fine i m idx)))) /\
      (summed = false -> match wt with
                         | None => mean_of (map (cell d) (fine i m idx)) (cell c idx)
                         | Some (_, g) => wmean_of (map (fun t => (cell d t, g t)) (fine i m idx)) (cell c idx)
                         end).
Proof.
  intros HS Hm HW. unfold rebin. destruct summed.
  - destruct (bin_axis nansum d HS Hm) as (c & E & S & C). exists c. split; [exact E|]. split; [exact S|]. intros idx HV. split; [intros _|discriminate].
    destruct (C idx HV) as (rs & R1 & R2 & ->). apply axis_sum; assumption.
  - destruct w as [[wi wa]|], wt as [[wi' g]|]; try contradiction.
    + destruct HW as (-> & HG & HI). rewrite (HI eq_refl). destruct (bin_axis wop (pairs d wa) HS Hm) as (c & E & S & C). rewrite E. cbn [rbind].
      eexists. split; [reflexivity|]. split; [exact S|]. intros idx HV. split; [discriminate|intros _]. cbn [cell].
      destruct (C idx HV) as (rs & R1 & R2 & ->). apply wres_wmean. rewrite map_map. cbn [fst snd].
      replace (map (fun x => (cell d x, Some (g x))) (fine i m idx)) with (map (cell (pairs d wa)) (fine i m idx)); [apply axis_wmean; assumption|].
      apply map_ext_in. intros t Ht. cbn [pairs cell]. rewrite HG; [reflexivity|]. apply (fine_valid a b (q * m) q m idx HV); [lia|exact Ht].
    + destruct (bin_axis nanmean d HS Hm) as (c & E & S & C). exists c. split; [exact E|]. split; [exact S|]. intros idx HV. split; [discriminate|intros _].
      destruct (C idx HV) as (rs & R1 & R2 & ->). apply axis_mean; assumption.
Qed.
End Rebin.

Lemma trunc_integral v : integral v -> trunc v = v.
Proof.
  intros [z ->]. unfold trunc. f_equal. f_equal. unfold zq. cbn [this Q2Qc]. unfold inject_Z.
  assert (Qred (z # 1) = z # 1)%Q as ->.
  { unfold Qred. pose proof (Z.ggcd_gcd z 1) as G. pose proof (Z.ggcd_correct_divisors z 1) as D. destruct (Z.ggcd z 1) as [g [aa bb]]. cbn in *. rewrite Z.gcd_1_r in G. subst g.
    destruct D as [-> D2]. rewrite Z.mul_1_l. assert (bb = 1%Z) as -> by lia. reflexivity. }
  cbn [Qnum Qden]. apply Z.quot_1_r.
Qed.
Lemma nth_error_combine_seq {A} (l : list A) k x : nth_error l k = Some x -> nth_error (combine (seq 0 (length l)) l) k = Some (k, x).
Proof.
  intros H. assert (forall l s k, nth_error l k = Some x -> nth_error (combine (seq s (length l)) l) k = Some (s + k, x)) as G.
  { clear. induction l as [|y l IH]; intros s [|k] H; try discriminate; cbn [length seq combine nth_error].
    - cbn in H. injection H as ->. rewrite Nat.add_0_r. reflexivity.
    - rewrite (IH (S s) k H). f_equal. f_equal. lia. }
  apply (G l 0 k H).
Qed.
Lemma Forall2_nth {A B} (P : A -> B -> Prop) la lb k x : Forall2 P la lb -> nth_error la k = Some x -> exists y, nth_error lb k = Some y /\ P x y.
Proof. intros H. revert k. induction H as [|a0 b0 la lb H0 H IH]; intros [|k] E; try discriminate; cbn in E; [injection E as <-; exists b0; auto|apply IH, E]. Qed.

Lemma reindex_ok s dim i n e0 h spacing w wt force to_sum m :
  wf s -> nth_error (dims s) i = Some dim -> even (nth i (edges s) []) e0 h n -> nth i (coords s) [] = mid (nth i (edges s) []) ->
  h <> 0%Qc -> 2 <= m -> m <= n -> qround (spacing / h)%Qc = Z.of_nat m ->
  (force = true \/ (n mod m = 0 /\ allclose (h * nq m)%Qc spacing = true)) ->
  Forall (lt 0) (sshape s) -> weighted_by s w wt ->
  (forall k x, nth_error (vars s) k = Some (x, true) -> ~ In x to_sum -> match wt with Some (true, _) => False | _ => True end) ->
  exists t, reindex s dim spacing w force to_sum = Ok t /\ wf t /\
    dims t = dims s /\ vars t = vars s /\ attrs t = attrs s /\ fts t = fts s /\
    (forall j, j <> i -> nth j (edges t) [] = nth j (edges s) [] /\ nth j (coords t) [] = nth j (coords s) []) /\
    nth i (edges t) [] = map (fun k => nth (k * m) (nth i (edges s) []) 0%Qc) (seq 0 (S (n / m))) /\
    nth i (coords t) [] = mid (nth i (edges t) []) /\
    (forall idx, valid (sshape t) idx ->
       (forall k x int, nth_error (vars s) k = Some (x, int) ->
         exists v, coarse s i m wt (In x to_sum) k idx v /\ (int = false \/ integral v -> var_at t k idx = v)) /\
       (cell (mask t) idx = true <-> exists k, k < length (vars s) /\ var_at t k idx = None)).
Proof.
  intros W Ei HE HC Hh Hm Hmn HR HF HP HWt HInt. unfold reindex. rewrite (position_nth dim (dims s) i (wf_names s W) Ei). rewrite HC.
  assert (Li : i < length (dims s)) by (apply nth_error_Some; congruence).
  destruct (even_mid _ _ _ _ HE ltac:(lia)) as (c0 & c1 & rest & EM & ED). rewrite EM. rewrite ED.
  destruct (Qc_eq_dec h 0%Qc) as [|_]; [contradiction|]. rewrite HR.
  destruct (Z.eqb_spec (Z.of_nat m) 0) as [|_]; [lia|]. destruct (Z.eqb_spec (Z.of_nat m) 1) as [|_]; [lia|].
  destruct (Z.ltb_spec (Z.of_nat m) 0) as [|_]; [lia|].
  assert (negb (allclose (h * zq (Z.of_nat m)) spacing) && negb force = false) as ->.
  { destruct HF as [->|[_ HA]]; [apply andb_false_r|]. unfold nq in HA. rewrite HA. reflexivity. }
  (* weights *)
  assert (exists w', (match w with
                      | WNone => Ok None
                      | WName x => match var_position x (vars s) with
                                   | Some k => Ok (Some (snd (nth k (vars s) (0, false)), column (data s) k))
                                   | None => Err ValueError
                                   end
                      | WArr b a => if shape_eqb (shape a) (sshape s) then Ok (Some (b, a)) else Err OutOfContract
                      end) = Ok w' /\
     match w', wt with
     | None, None => True
     | Some (wi, wa), Some (wi', g) => wi = wi' /\ (forall t, valid (sshape s) t -> cell wa t = Some (g t))
     | _, _ => False
     end) as (w' & EW & HW).
  { destruct HWt as [|x k int g Ek ND Hg|wa int g ES Hg].
    - exists None. auto.
    - assert (var_position x (vars s) = Some k) as EV.
      { unfold var_position. apply position_nth; [exact ND|]. rewrite nth_error_map'. rewrite Ek. reflexivity. }
      rewrite EV. eexists. split; [reflexivity|]. cbn. rewrite (nth_error_nth _ _ _ Ek). split; [reflexivity|]. intros t Ht. cbn. apply Hg. rewrite (wf_data s W). exact Ht.
    - assert (ES' : shape wa = sshape s) by (rewrite ES; apply (wf_data s W)). exists (Some (int, wa)). split; [cbv beta iota; match goal with |- (if ?c then _ else _) = _ => assert (c = true) as -> by (etransitivity; [apply f_equal2; [exact ES'|reflexivity]|apply shape_eqb_refl]) end; reflexivity|]. split; [reflexivity|].
      intros t Ht. apply Hg. rewrite (wf_data s W). exact Ht. }
  rewrite EW. cbn [rbind]. clear EW.
  (* shapes *)
  pose proof (even_length _ _ _ _ HE) as LE.
  assert (LC : length (nth i (coords s) []) = n) by (rewrite HC, mid_length; lia).
  assert (Eic : nth_error (coords s) i = Some (nth i (coords s) [])) by (apply nth_error_nth'; rewrite (wf_coords s W); exact Li).
  assert (Eie : nth_error (edges s) i = Some (nth i (edges s) [])) by (apply nth_error_nth'; rewrite (wf_edges s W); exact Li).
  destruct (split_nth _ _ _ Eic) as (ca & cb & EC & LCa). 
  assert (ESh : sshape s = map (@length Qc) ca ++ n :: map (@length Qc) cb).
  { unfold sshape. rewrite EC, map_app. cbn [map]. rewrite LC. reflexivity. }
  set (a := map (@length Qc) ca) in *. set (b := map (@length Qc) cb) in *. assert (La : length a = i) by (unfold a; rewrite map_length; exact LCa).
  assert (nth i (sshape s) 0 = n) as EN by (rewrite ESh, app_nth2 by lia; rewrite La, Nat.sub_diag; reflexivity). rewrite EN.
  rewrite Nat2Z.id. set (q := n / m) in *. pose proof (Nat.div_mod n m ltac:(lia)) as DM. fold q in DM.
  assert (n - n mod m = q * m) as EQ by lia. rewrite EQ. rewrite Nat.div_mul by lia.
  assert (Hq : 0 < q) by (unfold q; apply Nat.div_str_pos; lia).
  assert (negb (n mod m =? 0) && negb force = false) as ->.
  { destruct HF as [->|[H0 _]]; [apply andb_false_r|]. rewrite H0. reflexivity. }
  rewrite LE. replace (S n - n mod m) with (S (q * m)) by lia.
  destruct (even_coarse _ _ _ _ m q HE ltac:(lia) ltac:(lia)) as [LS EV2].
  set (ne := linspace _ _ q) in *.
  assert (Lne : length ne = S q) by (apply (even_length _ _ _ _ EV2)).
  rewrite ESh. rewrite !replace_nth_app by (symmetry; exact La).
  rewrite ESh in HP. apply Forall_app in HP. destruct HP as [HPa HPb]. inversion HPb as [|? ? _ HPb']; subst x l. clear HPb.
  set (w2 := match w' with Some (b0, a0) => Some (b0, with_shape a0 (a ++ q * m :: b)) | None => None end).
  destruct (rall_map_ok (fun kv => let! c := rebin (with_shape (column (data s) (fst kv)) (a ++ q * m :: b)) (snd (snd kv)) w2
                                      (existsb (Nat.eqb (fst (snd kv))) to_sum) (a ++ q :: b) in
                      Ok (fun idx => store (snd (snd kv)) (cell c idx)))
     (fun kv f => forall idx, valid (a ++ q :: b) idx -> exists v, coarse s i m wt (In (fst (snd kv)) to_sum) (fst kv) idx v /\ f idx = store (snd (snd kv)) v)
     (combine (seq 0 (length (vars s))) (vars s))) as (cols & ECols & HCols).
  { intros [k [x int]] Hin. cbn [fst snd].
    assert (Ekv : nth_error (vars s) k = Some (x, int)).
    { apply In_nth_error in Hin. destruct Hin as [j Hj]. assert (Hj' := Hj). apply (f_equal (option_map snd)) in Hj. apply (f_equal (option_map fst)) in Hj'.
      assert (LL : length (seq 0 (length (vars s))) = length (vars s)) by apply seq_length.
      assert (G1 : forall (la : list nat) (lb : list (nat * bool)), length la = length lb -> forall j, option_map snd (nth_error (combine la lb) j) = nth_error lb j /\ option_map fst (nth_error (combine la lb) j) = nth_error la j).
      { clear. induction la as [|y la IH]; intros [|z lb] H [|j]; try discriminate; cbn; auto. }
      destruct (G1 _ _ LL j) as [G2 G3]. rewrite G2 in Hj. rewrite G3 in Hj'. cbn in Hj, Hj'. rewrite nth_error_seq in Hj'. destruct (j <? length (vars s)); [|discriminate]. injection Hj' as <-. exact Hj. }
    destruct (rebin_ok a b q m HPa HPb' Hq (with_shape (column (data s) k) (a ++ q * m :: b)) int w2 wt (existsb (Nat.eqb x) to_sum) eq_refl ltac:(lia)) as (c & E & S & C).
    { unfold w2. destruct w' as [[wi wa]|], wt as [[wi' g]|]; try contradiction; auto. destruct HW as [-> HW]. split; [reflexivity|]. split.
      - intros t Ht. cbn [with_shape cell]. apply HW. rewrite ESh. clear -Ht DM Hq. unfold valid in *. apply Forall2_app_inv_r in Ht. destruct Ht as (i1 & i2 & H1 & H2 & ->).
        apply Forall2_app; [exact H1|]. inversion H2; subst. constructor; [lia|assumption].
      - intros HS0. destruct int; [|reflexivity]. specialize (HInt k x Ekv). destruct wi'; [|reflexivity]. exfalso. apply HInt. intros Hin'.
        assert (existsb (Nat.eqb x) to_sum = true) by (apply existsb_exists; exists x; split; [exact Hin'|apply Nat.eqb_refl]). congruence. }
    rewrite E. cbn [rbind]. eexists. split; [reflexivity|]. intros idx HV. exists (cell c idx). split; [|reflexivity].
    destruct (C idx HV) as [C1 C2]. rewrite La in C1, C2. split.
    - intros Hin'. apply C1. apply existsb_exists. exists x. split; [exact Hin'|apply Nat.eqb_refl].
    - intros Hin'. apply C2. apply not_true_is_false. intros HX. apply existsb_exists in HX. destruct HX as (y & Hy & EY). apply Nat.eqb_eq in EY. subst y. exact (Hin' Hy). }
  rewrite ECols. cbn [rbind]. unfold construct_direct.
  assert (ESh2 : map (@length Qc) (replace_nth (coords s) i (mid ne)) = a ++ q :: b).
  { rewrite map_replace_nth. fold (sshape s). rewrite ESh, replace_nth_app by (symmetry; exact La). rewrite mid_length, Lne. f_equal. f_equal. lia. }
  rewrite ESh2. cbn [shape]. rewrite shape_eqb_refl. cbn [rbind].
  eexists. split; [reflexivity|]. cbn [dims vars attrs fts edges coords data mask].
  assert (LCols : length cols = length (vars s)).
  { clear -HCols. assert (length (combine (seq 0 (length (vars s))) (vars s)) = length cols) by (induction HCols; cbn; congruence).
    rewrite combine_length, seq_length in H. lia. }
  split.
  { constructor; cbn [dims edges coords data mask vars shape cell].
    - rewrite replace_nth_length. apply (wf_edges s W).
    - rewrite replace_nth_length. apply (wf_coords s W).
    - apply bins_replace; [apply (wf_bins s W)|]. rewrite mid_length. lia.
    - symmetry. exact ESh2.
    - symmetry. exact ESh2.
    - intros idx. rewrite map_length. exact LCols.
    - apply (wf_names s W). }
  split; [reflexivity|]. split; [reflexivity|]. split; [reflexivity|]. split; [reflexivity|].
  split; [intros j Hj; split; apply replace_nth_neq; exact Hj|].
  split; [rewrite replace_nth_eq by (rewrite (wf_edges s W); exact Li); exact LS|].
  split; [rewrite !replace_nth_eq by (rewrite ?(wf_coords s W), ?(wf_edges s W); exact Li); reflexivity|].
  unfold sshape. cbn [coords]. rewrite ESh2. intros idx HV. split.
  - intros k x int Ek. destruct (Forall2_nth _ _ _ _ _ HCols (nth_error_combine_seq _ _ _ Ek)) as (f & Ef & Hf). cbn [fst snd] in Hf.
    destruct (Hf idx HV) as (v & Hv & EV). exists v. split; [exact Hv|]. intros HInt2. unfold var_at. cbn [data cell].
    rewrite (nth_error_nth _ k None (x := f idx)) by (rewrite nth_error_map', Ef; reflexivity). rewrite EV. unfold store. destruct int; [|reflexivity]. apply trunc_integral. destruct HInt2; [discriminate|assumption].
  - cbn [cell]. rewrite existsb_exists. split.
    + intros (v & Hin & Hv). apply In_nth_error in Hin. destruct Hin as [k Ek]. exists k. split.
      * rewrite <- LCols, <- (map_length (fun f : list nat -> val => f idx) cols). apply nth_error_Some. congruence.
      * unfold var_at. cbn [data cell]. rewrite (nth_error_nth _ _ _ Ek). destruct v; [discriminate|reflexivity].
    + intros (k & Lk & Hk). unfold var_at in Hk. cbn [data cell] in Hk. exists None. split; [|reflexivity]. rewrite <- Hk. apply nth_In. rewrite map_length, LCols. exact Lk.
Qed.
