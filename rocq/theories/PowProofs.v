From Verif Require Import Base BaseProofs Num RanksSpec FiberModel FiberProofs FiberMore CgmLocal CgmGlobal CgmGeom CgmRun PowModel PowSpec.
From Coq Require Import Sorted Permutation.
Local Open Scope nat_scope.

(* ---- sums ---- *)
Lemma qsum_filter : forall (A : Type) (P : A -> bool) (f : A -> Qc) l, qsum (map f (filter P l)) = qsum (map (fun x => if P x then f x else 0%Qc) l).
Proof. intros A P f. induction l as [|x l IH]; [reflexivity|]. cbn [filter map]. destruct (P x); cbn [map]; rewrite ?qsum_cons, IH; [reflexivity|ring]. Qed.
Lemma qsum_prod : forall (A B : Type) (f : A * B -> Qc) la lb, qsum (map f (list_prod la lb)) = qsum (map (fun a => qsum (map (fun b => f (a, b)) lb)) la).
Proof. intros A B f la lb. induction la as [|a la IH]; [reflexivity|]. cbn [list_prod map]. rewrite map_app, qsum_app, qsum_cons, IH, map_map. reflexivity. Qed.
Lemma qsum_map_perm : forall (A : Type) (f : A -> Qc) l l', Permutation l l' -> qsum (map f l) = qsum (map f l').
Proof. intros A f l l' H. apply qsum_perm, Permutation_map, H. Qed.
Lemma qsum_ext' : forall (A : Type) (f g : A -> Qc) l, (forall x, In x l -> f x = g x) -> qsum (map f l) = qsum (map g l).
Proof. intros A f g l H. apply qsum_map_ext. exact H. Qed.
Lemma qsum_ones : forall (A : Type) (l : list A), qsum (map (fun _ => 1%Qc) l) = nq (length l).
Proof. intros A. induction l as [|x l IH]; [reflexivity|]. cbn [map length]. rewrite qsum_cons, IH. unfold nq. rewrite Nat2Z.inj_succ, <- Z.add_1_r, zq_add, zq_1. ring. Qed.
Lemma filter_ext_in' : forall (A : Type) (P Q : A -> bool) l, (forall x, In x l -> P x = Q x) -> filter P l = filter Q l.
Proof. intros A P Q. induction l as [|x l IH]; intros H; [reflexivity|]. cbn [filter]. rewrite (H x (or_introl eq_refl)), IH; [reflexivity|]. intros z Hz. apply H. right. exact Hz. Qed.

(* ---- digitize ---- *)
Lemma nondec_inc : forall l, increasing l -> nondec l = true.
Proof.
  intros l H. induction H as [|x l H IH F]; [reflexivity|]. destruct l as [|y0 l]; [reflexivity|]. cbn [nondec]. cbn [nondec] in IH. rewrite IH, andb_true_r. apply qleb_iff, Qclt_le_weak. inversion F. assumption.
Qed.
Definition dig (edges : list Qc) (x : Qc) : nat := length (filter (fun e => qleb e x) edges).
Lemma digitize_inc : forall edges x, increasing edges -> digitize edges x = Ok (dig edges x).
Proof. intros edges x H. unfold digitize. rewrite (nondec_inc edges H). reflexivity. Qed.
Lemma filter_len_le : forall (A : Type) (P : A -> bool) l, length (filter P l) <= length l.
Proof. intros A P. induction l as [|x l IH]; [reflexivity|]. cbn [filter]. destruct (P x); cbn [length]; lia. Qed.
Lemma dig_le : forall edges x, dig edges x <= length edges. Proof. intros. apply filter_len_le. Qed.
Lemma dig_none : forall edges x, (forall e, In e edges -> (x < e)%Qc) -> dig edges x = 0.
Proof.
  intros edges x H. unfold dig. apply length_zero_filter. intros e He. destruct (qleb e x) eqn:E; [|reflexivity]. apply qleb_iff in E. specialize (H e He). exfalso. apply (Qclt_not_le _ _ H E).
Qed.
Lemma dig_iff : forall edges x k, increasing edges -> dig edges x = S k <-> exists a, nth_error edges k = Some a /\ (a <= x)%Qc /\ forall b, nth_error edges (S k) = Some b -> (x < b)%Qc.
Proof.
  intros edges x k H. revert k. induction H as [|e edges H IH F]; intros k.
  - split; [discriminate|]. intros [a [E _]]. destruct k; discriminate E.
  - rewrite Forall_forall in F. unfold dig. cbn [filter]. destruct (qleb e x) eqn:E; [apply qleb_iff in E|apply qleb_no in E]; cbn [length].
    + fold (dig edges x). destruct k as [|k].
      * cbn [nth_error]. split.
        -- intros Hd. injection Hd as Hd. exists e. split; [reflexivity|]. split; [exact E|]. intros b Hb. destruct (Qclt_le_dec x b) as [L|L]; [exact L|]. exfalso. destruct edges as [|b' edges]; [discriminate Hb|]. injection Hb as ->. unfold dig in Hd. cbn [filter] in Hd. apply qleb_iff in L. rewrite L in Hd. discriminate Hd.
        -- intros [a [Ea [_ Hb]]]. f_equal. destruct edges as [|b edges]; [reflexivity|]. apply dig_none. intros e' He'. specialize (Hb b eq_refl). destruct He' as [<-|He']; [exact Hb|]. inversion H as [|? ? H1 H2]; subst. rewrite Forall_forall in H2. eapply Qclt_trans; [exact Hb|apply H2, He'].
      * cbn [nth_error]. rewrite <- (IH k). lia.
    + fold (dig edges x). assert (D0 : dig edges x = 0) by (apply dig_none; intros b Hb; eapply Qclt_trans; [exact E|apply F, Hb]). rewrite D0. split; [discriminate|].
      intros [a [Ea [La _]]]. exfalso. destruct k as [|k]; cbn [nth_error] in Ea; [injection Ea as <-; apply (Qclt_not_le _ _ E La)|]. apply nth_error_In, F in Ea. apply (Qclt_not_le _ _ (Qclt_trans _ _ _ E Ea) La).
Qed.
Lemma dig_top : forall edges x, increasing edges -> dig edges x = length edges <-> (edges = [] \/ exists a, nth_error edges (length edges - 1) = Some a /\ (a <= x)%Qc).
Proof.
  intros edges x H. destruct edges as [|e0 edges]; [split; [left; reflexivity|reflexivity]|]. cbn [length]. rewrite (dig_iff (e0 :: edges) x (length edges) H). replace (S (length edges) - 1) with (length edges) by lia. split.
  - intros [a [E [L _]]]. right. exists a. auto.
  - intros [D|[a [E L]]]; [discriminate|]. exists a. split; [exact E|]. split; [exact L|]. intros b Hb. cbn [nth_error] in Hb. assert (G : nth_error edges (length edges) = None) by (apply nth_error_None; lia). congruence.
Qed.
Lemma squares_inc : forall l, increasing l -> (forall e, In e l -> (0 <= e)%Qc) -> increasing (map (fun e => (e * e)%Qc) l).
Proof.
  intros l H. induction H as [|x l H IH F]; intros P; cbn [map]; [constructor|]. constructor; [apply IH; intros e He; apply P; right; exact He|]. rewrite Forall_forall in *. intros b Hb. apply in_map_iff in Hb. destruct Hb as [e [<- He]].
  pose proof (P x (or_introl eq_refl)) as Px. pose proof (F e He) as L. apply Qcle_lt_trans with (x * e)%Qc.
  - rewrite (Qcmult_comm x e). apply Qcmult_le_compat_r; [apply Qclt_le_weak; exact L|exact Px].
  - apply Qcmult_lt_compat_r; [eapply Qcle_lt_trans; [exact Px|exact L]|exact L].
Qed.

(* ---- bincount ---- *)
Lemma bincount_nth : forall iw n b, b < n -> nth b (bincount iw n) 0%Qc = qsum (map snd (filter (fun p => fst p =? b) iw)).
Proof.
  intros iw n b H. unfold bincount. apply nth_error_nth. rewrite nth_error_map', nth_error_seq. assert (E : (b <? n) = true) by (apply Nat.ltb_lt; exact H). rewrite E. reflexivity.
Qed.
Lemma bincount_len : forall iw n, length (bincount iw n) = n. Proof. intros. unfold bincount. rewrite map_length, seq_length. reflexivity. Qed.
Lemma ladd_len : forall a b, length a = length b -> length (ladd a b) = length a.
Proof. intros a b H. unfold ladd. rewrite map_length, combine_length. lia. Qed.
Lemma ladd_nth : forall a b i, length a = length b -> nth i (ladd a b) 0%Qc = (nth i a 0 + nth i b 0)%Qc.
Proof. induction a as [|x a IH]; intros [|z b] [|i] H; try discriminate H; cbn [ladd combine map nth fst snd]; try ring. apply IH. cbn [length] in H. lia. Qed.
Lemma combine_map_l : forall (A B C : Type) (f : A -> B) (g : A -> C) l, combine (map f l) (map g l) = map (fun x => (f x, g x)) l.
Proof. intros A B C f g. induction l as [|x l IH]; [reflexivity|]. cbn [map combine]. rewrite IH. reflexivity. Qed.
Lemma filter_map : forall (A B : Type) (P : B -> bool) (f : A -> B) l, filter P (map f l) = map f (filter (fun x => P (f x)) l).
Proof. intros A B P f. induction l as [|x l IH]; [reflexivity|]. cbn [map filter]. destruct (P (f x)); cbn [map]; rewrite IH; reflexivity. Qed.
Lemma rall_oks : forall (A B : Type) (f : A -> B) l, rall (map (fun x => Ok (f x)) l) = Ok (map f l).
Proof. intros A B f. induction l as [|x l IH]; [reflexivity|]. cbn [map rall]. rewrite IH. reflexivity. Qed.

(* ---- the tables hold the sums over the cells ---- *)
Section Tables.
Variables (root : Qc -> Qc) (compressed : bool) (c0 c1 c2 : nat -> Qc) (y : cell3 -> cplx) (los : vec) (xedges muedges : list Qc).
Hypothesis Hx : increasing (map (fun e => (e * e)%Qc) xedges).
Hypothesis Hm : increasing muedges.
Hypothesis Lm : 1 <= length muedges.
Hypothesis Lx : 1 <= length xedges.
Notation n2' := (norm2 c0 c1 c2). Notation mu' := (mu root c0 c1 c2 los).
Notation BN := (bins xedges muedges). Notation NM := (Nmu muedges). Notation NX := (Nx xedges).
Definition bin (m : cell3) : nat := dig (map (fun e => (e * e)%Qc) xedges) (n2' m) * (NM + 2) + dig muedges (mu' m).
Lemma index_ok : forall m, index root c0 c1 c2 los xedges muedges m = Ok (bin m).
Proof using All. intros m. unfold index. rewrite (digitize_inc _ _ Hx). cbn [rbind]. rewrite (digitize_inc _ _ Hm). reflexivity. Qed.
Lemma digx_le : forall m, dig (map (fun e => (e * e)%Qc) xedges) (n2' m) <= NX + 1.
Proof using All. intros m. pose proof (dig_le (map (fun e => (e * e)%Qc) xedges) (n2' m)) as H. rewrite map_length in H. unfold Nx. lia. Qed.
Lemma digm_le : forall m, dig muedges (mu' m) <= NM + 1.
Proof using All. intros m. pose proof (dig_le muedges (mu' m)) as H. unfold Nmu. lia. Qed.
(* t holds the sums of f over the cells *)
Definition holds (t : list Qc) (f : cell3 -> Qc) (cells : list cell3) : Prop :=
  length t = BN /\ forall b, b < BN -> nth b t 0%Qc = qsum (map f (filter (fun m => bin m =? b) cells)).
Lemma holds_zero : forall f, holds (zero xedges muedges) f [].
Proof using All. intros f. split; [unfold zero; apply repeat_length|]. intros b Hb. unfold zero. cbn [filter map]. rewrite qsum_nil. apply nth_repeat. Qed.
Lemma holds_add : forall t f cells more, holds t f cells -> holds (ladd t (bincount (combine (map bin more) (map f more)) BN)) f (cells ++ more).
Proof using All.
  intros t f cells more [H1 H2]. split; [rewrite ladd_len; [exact H1|rewrite bincount_len; exact H1]|]. intros b Hb. rewrite ladd_nth by (rewrite bincount_len; exact H1). rewrite (H2 b Hb), bincount_nth by exact Hb.
  rewrite combine_map_l, filter_map, map_map. cbn [fst snd]. rewrite filter_app, map_app, qsum_app. reflexivity.
Qed.
Lemma holds_plus : forall t t' f cells more, holds t f cells -> holds t' f more -> holds (ladd t t') f (cells ++ more).
Proof using All.
  intros t t' f cells more [H1 H2] [H3 H4]. split; [rewrite ladd_len by lia; exact H1|]. intros b Hb. rewrite ladd_nth by lia. rewrite (H2 b Hb), (H4 b Hb). rewrite filter_app, map_app, qsum_app. reflexivity.
Qed.
Lemma holds_perm : forall t f cells cells', Permutation cells cells' -> holds t f cells -> holds t f cells'.
Proof using All. intros t f cells cells' P [H1 H2]. split; [exact H1|]. intros b Hb. rewrite (H2 b Hb). apply qsum_map_perm, filter_perm, P. Qed.

Notation wt := (weight compressed c2). Notation wy := (weighted root compressed c0 c1 c2 y los).
Record sums_hold (ells : list nat) (s : sums) (cells : list cell3) : Prop := {
  sh_x : holds (s_x s) (fun m => root (n2' m) * wt m)%Qc cells;
  sh_mu : holds (s_mu s) (fun m => mu' m * wt m)%Qc cells;
  sh_n : holds (s_n s) wt cells;
  sh_len : length (s_y s) = length ells;
  sh_y : forall e ell re im, nth_error ells e = Some ell -> nth_error (s_y s) e = Some (re, im) -> holds re (fun m => fst (wy ell m)) cells /\ holds im (fun m => snd (wy ell m)) cells
}.
Lemma sums0_hold : forall ells, sums_hold ells (sums0 xedges muedges ells) [].
Proof using All.
  intros ells. split; try apply holds_zero; [unfold sums0; cbn [s_y]; apply map_length|]. intros e ell re im He Hy. unfold sums0 in Hy. cbn [s_y] in Hy. rewrite nth_error_map', He in Hy. injection Hy as <- <-. split; apply holds_zero.
Qed.
Lemma add_slab_hold : forall ells s cells more, sums_hold ells s cells -> exists s', add_slab root compressed c0 c1 c2 y los xedges muedges ells s more = Ok s' /\ sums_hold ells s' (cells ++ more).
Proof using All.
  intros ells s cells more [H1 H2 H3 H4 H5]. destruct more as [|m0 more].
  - exists s. split; [reflexivity|]. rewrite app_nil_r. split; assumption.
  - unfold add_slab. rewrite (map_ext _ (fun m => Ok (bin m)) index_ok (m0 :: more)), rall_oks. cbn [rbind]. eexists. split; [reflexivity|]. split; cbn [s_x s_mu s_n s_y].
    + apply holds_add, H1.
    + apply holds_add, H2.
    + apply holds_add, H3.
    + rewrite map_length, combine_length, H4. lia.
    + intros e ell re im He Hy. rewrite nth_error_map', combine_nth_error, He in Hy. destruct (nth_error (s_y s) e) as [[re0 im0]|] eqn:E; [|discriminate]. cbn [option_map] in Hy. injection Hy as <- <-. destruct (H5 e ell re0 im0 He E) as [A B]. split; [exact (holds_add _ (fun m => fst (wy ell m)) cells (m0 :: more) A)|exact (holds_add _ (fun m => snd (wy ell m)) cells (m0 :: more) B)].
Qed.
Lemma add_slabs_hold : forall ells slabs s cells, sums_hold ells s cells -> exists s', add_slabs root compressed c0 c1 c2 y los xedges muedges ells s slabs = Ok s' /\ sums_hold ells s' (cells ++ concat slabs).
Proof using All.
  intros ells. induction slabs as [|c slabs IH]; intros s cells H; cbn [add_slabs concat].
  - exists s. rewrite app_nil_r. auto.
  - destruct (add_slab_hold ells s cells c H) as [s' [E1 E2]]. rewrite E1. cbn [rbind]. rewrite app_assoc. apply IH, E2.
Qed.
Lemma slabs_cells : forall b, concat (map (slab b) (b0 b)) = cells3 (b0 b) (b1 b) (b2 b).
Proof using.
  intros b. unfold cells3, slab. induction (b0 b) as [|i l IH]; [reflexivity|]. cbn [map concat list_prod]. rewrite IH.
  assert (A : forall (X Y : Type) (p q : list X) (r : list Y), list_prod (p ++ q) r = list_prod p r ++ list_prod q r). { intros X Y p q r. induction p as [|x p IHp]; [reflexivity|]. cbn [app list_prod]. rewrite IHp, app_assoc. reflexivity. }
  rewrite A. f_equal. generalize (b1 b). induction l0 as [|j l0 IHl]; [reflexivity|]. cbn [map list_prod]. rewrite map_app, IHl, map_map. reflexivity.
Qed.
Lemma local_hold : forall ells b, exists s, local_sums root compressed c0 c1 c2 y los xedges muedges ells b = Ok s /\ sums_hold ells s (cells3 (b0 b) (b1 b) (b2 b)).
Proof using All. intros ells b. unfold local_sums. destruct (add_slabs_hold ells (map (slab b) (b0 b)) _ _ (sums0_hold ells)) as [s [E H]]. exists s. split; [exact E|]. cbn [app] in H. rewrite slabs_cells in H. exact H. Qed.
Lemma add_sums_hold : forall ells a b ca cb, sums_hold ells a ca -> sums_hold ells b cb -> sums_hold ells (add_sums a b) (ca ++ cb).
Proof using All.
  intros ells a b ca cb [A1 A2 A3 A4 A5] [B1 B2 B3 B4 B5]. split; cbn [add_sums s_x s_mu s_n s_y]; try (apply holds_plus; assumption).
  - rewrite map_length, combine_length. lia.
  - intros e ell re im He Hy. rewrite nth_error_map', combine_nth_error in Hy. destruct (nth_error (s_y a) e) as [[ra ia]|] eqn:Ea; [|discriminate]. destruct (nth_error (s_y b) e) as [[rb ib]|] eqn:Eb; [|discriminate].
    cbn [option_map fst snd] in Hy. injection Hy as <- <-. destruct (A5 e ell ra ia He Ea). destruct (B5 e ell rb ib He Eb). split; apply holds_plus; assumption.
Qed.
Lemma total_hold : forall ells l cs, Forall2 (sums_hold ells) l cs -> sums_hold ells (total_sums xedges muedges ells l) (concat cs).
Proof using All.
  intros ells l cs H. unfold total_sums. change (concat cs) with ([] ++ concat cs). generalize (sums0_hold ells). generalize (sums0 xedges muedges ells) (@nil cell3). induction H as [|s c l cs Hs H IH]; intros s0 c0' H0; cbn [fold_left concat].
  - rewrite app_nil_r. exact H0.
  - rewrite app_assoc. apply IH, add_sums_hold; assumption.
Qed.
Lemma all_sums : forall ells blocks cells, Permutation (concat (map (fun b => cells3 (b0 b) (b1 b) (b2 b)) blocks)) cells ->
  exists parts, rall (map (local_sums root compressed c0 c1 c2 y los xedges muedges ells) blocks) = Ok parts /\ sums_hold ells (total_sums xedges muedges ells parts) cells.
Proof using All.
  intros ells blocks cells P.
  assert (H : exists parts, rall (map (local_sums root compressed c0 c1 c2 y los xedges muedges ells) blocks) = Ok parts /\ Forall2 (sums_hold ells) parts (map (fun b => cells3 (b0 b) (b1 b) (b2 b)) blocks)).
  { clear P. induction blocks as [|b blocks [parts [E F]]]; [exists []; split; [reflexivity|constructor]|]. destruct (local_hold ells b) as [s [E1 E2]]. exists (s :: parts). cbn [map rall]. rewrite E1. cbn [rbind]. rewrite E. split; [reflexivity|]. constructor; assumption. }
  destruct H as [parts [E F]]. exists parts. split; [exact E|]. destruct (total_hold ells parts _ F) as [H1 H2 H3 H4 H5]. split; [eapply holds_perm; [exact P|exact H1]|eapply holds_perm; [exact P|exact H2]|eapply holds_perm; [exact P|exact H3]|exact H4|].
  intros e ell re im He Hy. destruct (H5 e ell re im He Hy) as [A B]. split; eapply holds_perm; eassumption.
Qed.

(* the bins *)
Definition in_bin (ix im : nat) (m : cell3) : bool :=
  (dig (map (fun e => (e * e)%Qc) xedges) (n2' m) =? ix) && ((dig muedges (mu' m) =? im) || ((im =? NM) && (dig muedges (mu' m) =? NM + 1))).
Lemma get_holds : forall t f cells ix im, holds t f cells -> ix < NX + 2 -> im < NM + 2 ->
  get muedges t ix im = qsum (map f (filter (fun m => (dig (map (fun e => (e * e)%Qc) xedges) (n2' m) =? ix) && (dig muedges (mu' m) =? im)) cells)).
Proof using All.
  intros t f cells ix im [H1 H2] Hix Him. unfold get. rewrite H2; [|unfold bins; nia]. f_equal. f_equal. apply filter_ext_in'. intros m _. unfold bin. pose proof (digm_le m) as Hd.
  set (a := dig (map (fun e => (e * e)%Qc) xedges) (n2' m)). set (b := dig muedges (mu' m)) in *. destruct (a =? ix) eqn:E1; [apply Nat.eqb_eq in E1|apply Nat.eqb_neq in E1]; cbn [andb].
  - rewrite E1. destruct (b =? im) eqn:E2; [apply Nat.eqb_eq in E2; apply Nat.eqb_eq; lia|apply Nat.eqb_neq in E2; apply Nat.eqb_neq; lia].
  - apply Nat.eqb_neq. intros E. apply E1. assert (a < ix \/ a > ix) as [L|L] by lia; exfalso; nia.
Qed.
Lemma qsum_or : forall (A : Type) (P Q : A -> bool) f l, (forall x, P x = true -> Q x = true -> False) -> (qsum (map f (filter P l)) + qsum (map f (filter Q l)) = qsum (map f (filter (fun x => P x || Q x) l)))%Qc.
Proof using.
  intros A P Q f l H. induction l as [|x l IH]; [cbn; ring|]. cbn [filter]. specialize (H x). destruct (P x), (Q x); cbn [orb map]; rewrite ?qsum_cons; try rewrite <- IH; try ring. exfalso. apply H; reflexivity.
Qed.
Lemma folded_holds : forall t f cells ix im, holds t f cells -> ix < NX + 2 -> im < NM + 1 -> folded muedges t ix im = qsum (map f (filter (in_bin ix im) cells)).
Proof using All.
  intros t f cells ix im H Hix Him. unfold folded, in_bin. destruct (im =? NM) eqn:E.
  - rewrite (get_holds t f cells ix im H Hix) by lia. rewrite (get_holds t f cells ix (NM + 1) H Hix) by lia. apply Nat.eqb_eq in E. rewrite qsum_or.
    + f_equal. f_equal. apply filter_ext_in'. intros m _. cbn [andb]. destruct (_ =? ix); cbn [andb orb]; reflexivity.
    + intros m H1 H2. apply andb_true_iff in H1, H2. destruct H1 as [_ H1]. destruct H2 as [_ H2]. apply Nat.eqb_eq in H1, H2. lia.
  - rewrite (get_holds t f cells ix im H Hix) by lia. f_equal. f_equal. apply filter_ext_in'. intros m _. cbn [andb]. rewrite orb_false_r. reflexivity.
Qed.
Lemma in_bin_iff : forall i im lo hi m, nth_error xedges i = Some lo -> nth_error xedges (S i) = Some hi -> im < NM ->
  in_bin (S i) (S im) m = true <-> ((lo * lo <= n2' m)%Qc /\ (n2' m < hi * hi)%Qc) /\
    exists a b, nth_error muedges im = Some a /\ nth_error muedges (S im) = Some b /\ (a <= mu' m)%Qc /\ ((mu' m < b)%Qc \/ S (S im) = length muedges /\ (b <= mu' m)%Qc).
Proof using All.
  intros i im lo hi m El Eh Him. unfold in_bin. rewrite andb_true_iff, orb_true_iff, andb_true_iff, !Nat.eqb_eq. rewrite (dig_iff _ _ _ Hx).
  assert (Q1 : nth_error (map (fun e => (e * e)%Qc) xedges) i = Some (lo * lo)%Qc) by (rewrite nth_error_map', El; reflexivity). assert (Q2 : nth_error (map (fun e => (e * e)%Qc) xedges) (S i) = Some (hi * hi)%Qc) by (rewrite nth_error_map', Eh; reflexivity). rewrite Q1, Q2.
  assert (A : (exists a, Some (lo * lo)%Qc = Some a /\ (a <= n2' m)%Qc /\ (forall b, Some (hi * hi)%Qc = Some b -> (n2' m < b)%Qc)) <-> (lo * lo <= n2' m)%Qc /\ (n2' m < hi * hi)%Qc).
  { split; [intros [a [E [L H]]]; injection E as <-; auto|]. intros [L H]. exists (lo * lo)%Qc. split; [reflexivity|]. split; [exact L|]. intros b E. injection E as <-. exact H. }
  rewrite A. apply and_iff_compat_l. unfold Nmu in Him.
  destruct (nth_error muedges im) as [a|] eqn:Ea; [|apply nth_error_None in Ea; lia]. destruct (nth_error muedges (S im)) as [b|] eqn:Eb; [|apply nth_error_None in Eb; lia]. split.
  - intros [H|[H1 H2]].
    + apply (dig_iff _ _ _ Hm) in H. rewrite Ea, Eb in H. destruct H as [a' [E [L H]]]. injection E as <-. exists a, b. split; [reflexivity|]. split; [reflexivity|]. split; [exact L|]. left. apply H. reflexivity.
    + unfold Nmu in H1, H2. replace (length muedges - 1 + 1) with (length muedges) in H2 by lia. apply (dig_top _ _ Hm) in H2. destruct H2 as [H2|[c [Ec Lc]]]; [rewrite H2 in Ea; destruct im; discriminate Ea|]. rewrite <- H1, Eb in Ec. injection Ec as <-.
      exists a, b. split; [reflexivity|]. split; [reflexivity|]. split; [|right; split; [lia|exact Lc]]. apply Qcle_trans with b; [|exact Lc]. apply Qclt_le_weak. clear -Hm Ea Eb. revert im Ea Eb. induction Hm as [|e l H IH F]; intros [|im] Ea Eb; try discriminate Ea.
      * injection Ea as ->. cbn [nth_error] in Eb. rewrite Forall_forall in F. apply F. apply (nth_error_In l 0). exact Eb.
      * eapply IH; [inversion Hm; assumption|eassumption|exact Eb].
  - intros [a' [b' [E1 [E2 [L H]]]]]. injection E1 as <-. injection E2 as <-. destruct H as [H|[H1 H2]].
    + left. apply (dig_iff _ _ _ Hm). rewrite Ea, Eb. exists a. split; [reflexivity|]. split; [exact L|]. intros c E. injection E as <-. exact H.
    + right. unfold Nmu. split; [lia|]. replace (length muedges - 1 + 1) with (length muedges) by lia. apply (dig_top _ _ Hm). right. exists b. split; [|exact H2]. rewrite <- Eb. f_equal. lia.
Qed.
(* the sum over all mu bins *)
Lemma over_mu_holds : forall t f cells ix, holds t f cells -> ix < NX + 2 -> 1 <= NM ->
  over_mu muedges t ix = qsum (map f (filter (fun m => (dig (map (fun e => (e * e)%Qc) xedges) (n2' m) =? ix) && (1 <=? dig muedges (mu' m))) cells)).
Proof using All.
  intros t f cells ix H Hix HN. unfold over_mu. rewrite (qsum_ext' _ _ (fun im => qsum (map (fun m => if in_bin ix (S im) m then f m else 0%Qc) cells))).
  - rewrite qsum_swap, qsum_filter. apply qsum_ext'. intros m _. unfold in_bin. destruct (_ =? ix); cbn [andb]; [|apply qsum_map_zero]. pose proof (digm_le m) as D. set (d := dig muedges (mu' m)) in *.
    assert (G : forall n k, qsum (map (fun im => if (d =? S im) || ((S im =? NM) && (d =? NM + 1)) then f m else 0%Qc) (seq k n)) = (if (S k <=? d) && (d <=? k + n) || (S k <=? NM) && (NM <=? k + n) && (d =? NM + 1) then f m else 0%Qc) \/ NM + 1 <= k + n).
    { induction n as [|n IHn]; intros k.
      - left. cbn [seq map]. rewrite qsum_nil. replace ((S k <=? d) && (d <=? k + 0)) with false; [|symmetry; apply andb_false_iff; destruct (Nat.le_gt_cases (S k) d); [right; apply Nat.leb_gt; lia|left; apply Nat.leb_gt; lia]].
        replace ((S k <=? NM) && (NM <=? k + 0)) with false; [reflexivity|]. symmetry; apply andb_false_iff; destruct (Nat.le_gt_cases (S k) NM); [right; apply Nat.leb_gt; lia|left; apply Nat.leb_gt; lia].
      - destruct (Nat.le_gt_cases (NM + 1) (k + S n)) as [L|L]; [right; exact L|left]. destruct (IHn (S k)) as [E|E]; [|lia]. cbn [seq map]. rewrite qsum_cons, E. clear E IHn.
        destruct (d =? S k) eqn:E1; [apply Nat.eqb_eq in E1|apply Nat.eqb_neq in E1]; destruct (S k =? NM) eqn:E2; [apply Nat.eqb_eq in E2|apply Nat.eqb_neq in E2|apply Nat.eqb_eq in E2|apply Nat.eqb_neq in E2]; destruct (d =? NM + 1) eqn:E3; [apply Nat.eqb_eq in E3|apply Nat.eqb_neq in E3|apply Nat.eqb_eq in E3|apply Nat.eqb_neq in E3|apply Nat.eqb_eq in E3|apply Nat.eqb_neq in E3|apply Nat.eqb_eq in E3|apply Nat.eqb_neq in E3]; cbn [orb andb];
        repeat match goal with |- context [?a <=? ?b] => let E := fresh in destruct (a <=? b) eqn:E; [apply Nat.leb_le in E|apply Nat.leb_gt in E] end; cbn [orb andb]; try ring; exfalso; lia. }
    destruct (G NM 0) as [E|E]; [|exfalso; lia]. rewrite E. cbn [Nat.add]. destruct (1 <=? d) eqn:E1; [apply Nat.leb_le in E1|apply Nat.leb_gt in E1]; repeat match goal with |- context [?a <=? ?b] => let E := fresh in destruct (a <=? b) eqn:E; [apply Nat.leb_le in E|apply Nat.leb_gt in E] end; destruct (d =? NM + 1) eqn:E3; [apply Nat.eqb_eq in E3|apply Nat.eqb_neq in E3|apply Nat.eqb_eq in E3|apply Nat.eqb_neq in E3|apply Nat.eqb_eq in E3|apply Nat.eqb_neq in E3|apply Nat.eqb_eq in E3|apply Nat.eqb_neq in E3|..]; cbn [orb andb]; try reflexivity; exfalso; lia.
  - intros im Him. apply in_seq in Him. rewrite (folded_holds t f cells ix (S im) H Hix) by lia. apply qsum_filter.
Qed.
Lemma dig_first : forall m e0, nth_error muedges 0 = Some e0 -> (1 <=? dig muedges (mu' m)) = true <-> (e0 <= mu' m)%Qc.
Proof using All.
  intros m e0 E. rewrite Nat.leb_le. destruct muedges as [|e l] eqn:EE; [discriminate|]. cbn [nth_error] in E. injection E as ->. split.
  - intros H. destruct (Qclt_le_dec (mu' m) e0) as [L|L]; [|exact L]. exfalso. rewrite dig_none in H; [lia|]. intros b Hb. destruct Hb as [<-|Hb]; [exact L|]. inversion Hm as [|? ? H1 H2]; subst. rewrite Forall_forall in H2. eapply Qclt_trans; [exact L|apply H2, Hb].
  - intros H. unfold dig. cbn [filter]. apply qleb_iff in H. rewrite H. cbn [length]. lia.
Qed.
End Tables.
