From Verif Require Import Base.
From Coq Require Import Reals Sorted Permutation Lra Lia.
From Verif Require Import RandModel RandProofs ThreeModel ThreeSpec.
Local Open Scope nat_scope.

(* ---- sums ---- *)
Lemma rsum_perm : forall a b, Permutation a b -> rsum a = rsum b.
Proof. induction 1; cbn [rsum]; lra. Qed.
Lemma rsum_ext' {A} (f g : A -> R) : forall l, (forall x, In x l -> f x = g x) -> rsum (map f l) = rsum (map g l).
Proof. induction l as [|x l IH]; intros H; cbn [map rsum]; [reflexivity|]. rewrite H by (left; reflexivity). rewrite IH by (intros; apply H; right; assumption). reflexivity. Qed.
Lemma rsum_filter {A} (f : A -> R) P : forall l, rsum (map f (filter P l)) = rsum (map (fun x => if P x then f x else 0%R) l).
Proof. induction l as [|x l IH]; cbn [filter map rsum]; [reflexivity|]. destruct (P x); cbn [map rsum]; rewrite IH; lra. Qed.
Lemma rsum_plus {A} (f g : A -> R) : forall l, (rsum (map (fun x => f x + g x) l) = rsum (map f l) + rsum (map g l))%R.
Proof. induction l as [|x l IH]; cbn [map rsum]; [lra|]. rewrite IH. lra. Qed.
Lemma rsum_scl {A} (c : R) (f : A -> R) : forall l, (rsum (map (fun x => c * f x) l) = c * rsum (map f l))%R.
Proof. induction l as [|x l IH]; cbn [map rsum]; [lra|]. rewrite IH. lra. Qed.
Lemma rsum_scr {A} (c : R) (f : A -> R) : forall l, (rsum (map (fun x => f x * c) l) = rsum (map f l) * c)%R.
Proof. induction l as [|x l IH]; cbn [map rsum]; [lra|]. rewrite IH. lra. Qed.
Lemma rsum_zero {A} (f : A -> R) l : (forall x, In x l -> f x = 0%R) -> rsum (map f l) = 0%R.
Proof. induction l as [|x l IH]; intros H; cbn [map rsum]; [reflexivity|]. rewrite H by (left; reflexivity). rewrite IH by (intros; apply H; right; assumption). lra. Qed.
Lemma rsum_swap {A B} (f : A -> B -> R) : forall l k, rsum (map (fun x => rsum (map (f x) k)) l) = rsum (map (fun y => rsum (map (fun x => f x y) l)) k).
Proof.
  induction l as [|x l IH]; intros k; cbn [map rsum].
  - symmetry. apply rsum_zero. reflexivity.
  - rewrite IH, <- rsum_plus. reflexivity.
Qed.
Lemma rsum_flat {A B} (f : B -> R) (g : A -> list B) : forall l, rsum (map f (flat_map g l)) = rsum (map (fun x => rsum (map f (g x))) l).
Proof. induction l as [|x l IH]; cbn [flat_map map rsum]; [reflexivity|]. rewrite map_app, rsum_app, IH. reflexivity. Qed.
Lemma rsum_prod {A B} (f : A -> R) (g : B -> R) l k : (rsum (map f l) * rsum (map g k) = rsum (map (fun x => rsum (map (fun y => f x * g y) k)) l))%R.
Proof. rewrite <- rsum_scr. apply rsum_ext'. intros x _. rewrite rsum_scl. reflexivity. Qed.
Lemma rsum_one {A} (eqb : A -> A -> bool) (f : A -> R) a : (forall x y, eqb x y = true <-> x = y) -> forall l, NoDup l -> In a l -> rsum (map (fun x => if eqb x a then f x else 0%R) l) = f a.
Proof.
  intros E. induction l as [|x l IH]; intros N I; [destruct I|]. cbn [map rsum]. inversion N as [|? ? NI N']; subst.
  destruct (eqb x a) eqn:e.
  - apply E in e. subst. rewrite rsum_zero; [lra|]. intros y Iy. destruct (eqb y a) eqn:e'; [|reflexivity]. apply E in e'. subst. contradiction.
  - destruct I as [->|I]; [|rewrite IH by assumption; lra]. rewrite (proj2 (E a a) eq_refl) in e. discriminate.
Qed.

Lemma rltb_iff a b : rltb a b = true <-> (a < b)%R.
Proof. unfold rltb. destruct (Rlt_dec a b); split; intros; try assumption; try reflexivity; try discriminate; contradiction. Qed.
Lemma rleb_iff a b : rleb a b = true <-> (a <= b)%R.
Proof. unfold rleb. destruct (Rle_dec a b); split; intros; try assumption; try reflexivity; try discriminate; contradiction. Qed.

(* ---- periodic image ---- *)
Lemma ceil_uniq x k : (IZR k - 1 < x <= IZR k)%R -> ceil x = k.
Proof.
  intros [A B]. unfold ceil. destruct (base_Int_part (- x)) as [C D].
  assert (Int_part (- x) = (- k)%Z); [|lia].
  assert (E : (IZR (Int_part (- x)) < IZR (- k + 1))%R) by (rewrite plus_IZR, opp_IZR; lra).
  assert (F : (IZR (- k - 1) < IZR (Int_part (- x)))%R) by (rewrite minus_IZR, opp_IZR; lra).
  apply lt_IZR in E. apply lt_IZR in F. lia.
Qed.
Lemma wrap_image L x : (0 < L)%R -> (- L < x < L)%R -> wrap L x = image L x.
Proof.
  intros P [A B]. unfold wrap, image.
  assert (I : forall y, (y = x / L)%R -> (x = y * L)%R) by (intros y ->; field; lra).
  specialize (I _ eq_refl). set (y := (x / L)%R) in *.
  destruct (rltb (L * / 2) x) eqn:h.
  - apply rltb_iff in h. rewrite (ceil_uniq (y - / 2) 1).
    + destruct (rleb (x - L) (- L * / 2)) eqn:g; [apply rleb_iff in g; lra|ring].
    + simpl IZR. nra.
  - assert (h' : (x <= L * / 2)%R) by (destruct (Rle_lt_dec x (L * / 2)) as [|c]; [assumption|apply rltb_iff in c; congruence]).
    destruct (rleb x (- L * / 2)) eqn:g.
    + apply rleb_iff in g. rewrite (ceil_uniq (y - / 2) (-1)); [simpl IZR; ring|]. simpl IZR. nra.
    + assert (g' : (- L * / 2 < x)%R) by (destruct (Rlt_le_dec (- L * / 2) x) as [|c]; [assumption|apply rleb_iff in c; congruence]).
      rewrite (ceil_uniq (y - / 2) 0); [simpl IZR; ring|]. simpl IZR. nra.
Qed.
Lemma dpos_sep box p s : in_box box p -> in_box box s -> dpos box s p = separation box p s.
Proof.
  destruct p as [[p0 p1] p2], s as [[s0 s1] s2], box as [[[L0 L1] L2]|]; cbn; [|reflexivity].
  intros (A & B & C) (D & E & F). rewrite !wrap_image by lra. reflexivity.
Qed.

(* ---- bins ---- *)
Lemma dig_lt : forall edges r, StronglySorted Rle edges -> forall k, k < length edges -> (k < dig edges r <-> (nth k edges 0 < r)%R).
Proof.
  induction edges as [|e edges IH]; intros r S k K; cbn [length] in K; [lia|]. inversion S as [|? ? S' F]; subst. unfold dig. cbn [filter].
  destruct (rltb e r) eqn:h.
  - apply rltb_iff in h. cbn [length]. destruct k as [|k]; cbn [nth]; [split; [intros; assumption|lia]|]. specialize (IH r S' k ltac:(lia)). unfold dig in IH. rewrite <- IH. lia.
  - assert (h' : (r <= e)%R) by (destruct (Rle_lt_dec r e) as [|c]; [assumption|apply rltb_iff in c; congruence]).
    assert (Z : filter (fun e => rltb e r) edges = []).
    { clear - F h'. induction F as [|x l H F IH]; [reflexivity|]. cbn [filter]. destruct (rltb x r) eqn:g; [apply rltb_iff in g; lra|exact IH]. }
    rewrite Z. cbn [length]. split; [lia|]. destruct k as [|k]; cbn [nth]; intros C; [lra|].
    assert (In (nth k edges 0%R) edges) by (apply nth_In; lia). rewrite Forall_forall in F. specialize (F _ H). lra.
Qed.
Lemma dig_bin edges r a : StronglySorted Rle edges -> a < nbins edges -> (dig edges r =? S a) = rltb (nth a edges 0%R) r && rleb r (nth (S a) edges 0%R).
Proof.
  intros S A. unfold nbins in A. pose proof (dig_lt edges r S a ltac:(lia)) as H. pose proof (dig_lt edges r S (Datatypes.S a) ltac:(lia)) as G.
  destruct (dig edges r =? Datatypes.S a) eqn:e; symmetry.
  - apply Nat.eqb_eq in e. apply andb_true_intro. split; [apply rltb_iff, H; lia|]. apply rleb_iff. destruct (Rle_lt_dec r (nth (Datatypes.S a) edges 0%R)) as [|c]; [assumption|]. apply G in c. lia.
  - apply Nat.eqb_neq in e. apply andb_false_iff. destruct (rltb (nth a edges 0%R) r) eqn:h; [right|left; reflexivity]. apply rltb_iff, H in h.
    destruct (rleb r (nth (Datatypes.S a) edges 0%R)) eqn:g; [|reflexivity]. apply rleb_iff in g.
    destruct (Nat.lt_ge_cases (Datatypes.S a) (dig edges r)) as [c|c]; [apply G in c; lra|lia].
Qed.
Lemma edge_rmax edges k : StronglySorted Rle edges -> k < length edges -> (nth k edges 0 <= rmax edges)%R.
Proof.
  unfold rmax. revert k. induction edges as [|e edges IH]; intros k S K; cbn [length] in K; [lia|]. inversion S as [|? ? S' F]; subst.
  destruct edges as [|e' edges]; [destruct k; [cbn; lra|cbn in K; lia]|].
  change (last (e :: e' :: edges) 0%R) with (last (e' :: edges) 0%R).
  destruct k as [|k]; [|apply (IH k S'); lia]. cbn [nth]. apply Rle_trans with e'; [inversion F; assumption|]. apply (IH 0 S'). cbn. lia.
Qed.

(* ---- dictionary ---- *)
Lemma keyb_iff k k' : keyb k k' = true <-> k = k'.
Proof. destruct k, k'. unfold keyb. cbn. rewrite andb_true_iff, !Nat.eqb_eq. split; [intros [-> ->]; reflexivity|intros e; inversion e; split; reflexivity]. Qed.
Lemma update_new dflt f : forall d k, ~ In k (map fst d) -> update d k dflt f = d ++ [(k, f dflt)].
Proof.
  induction d as [|[k' v] d IH]; intros k N; cbn [update app]; [reflexivity|]. destruct (keyb k k') eqn:e.
  - apply keyb_iff in e. subst. exfalso. apply N. left. reflexivity.
  - f_equal. apply IH. intros I. apply N. right. exact I.
Qed.
Lemma update_at dflt f : forall d k v d', ~ In k (map fst d) -> update (d ++ (k, v) :: d') k dflt f = d ++ (k, f v) :: d'.
Proof.
  induction d as [|[k' v'] d IH]; intros k v d' N; cbn [update app].
  - rewrite (proj2 (keyb_iff k k) eq_refl). reflexivity.
  - destruct (keyb k k') eqn:e; [apply keyb_iff in e; subst; exfalso; apply N; left; reflexivity|]. f_equal. apply IH. intros I. apply N. right. exact I.
Qed.
Notation val := (list comp * list comp)%type.
Lemma fst_tag (G : nat * nat -> val) l : map fst (map (fun k => (k, G k)) l) = l.
Proof. rewrite map_map. cbn. apply map_id. Qed.
Lemma fold_new dflt (f : nat * nat -> val -> val) : forall l2 l1, NoDup (l1 ++ l2) ->
  fold_left (fun d k => update d k dflt (f k)) l2 (map (fun k => (k, f k dflt)) l1) = map (fun k => (k, f k dflt)) (l1 ++ l2).
Proof.
  induction l2 as [|k l2 IH]; intros l1 N; cbn [fold_left]; [rewrite app_nil_r; reflexivity|].
  rewrite update_new.
  - change ([(k, f k dflt)]) with (map (fun k => (k, f k dflt)) [k]). rewrite <- map_app. rewrite IH; rewrite <- app_assoc; [reflexivity|exact N].
  - rewrite (fst_tag (fun k => f k dflt)). apply NoDup_remove_2 in N. intros I. apply N. apply in_or_app. left. exact I.
Qed.
Lemma fold_old dflt (f : nat * nat -> val -> val) (G : nat * nat -> val) : forall l2 l1, NoDup (l1 ++ l2) ->
  fold_left (fun d k => update d k dflt (f k)) l2 (map (fun k => (k, f k (G k))) l1 ++ map (fun k => (k, G k)) l2) = map (fun k => (k, f k (G k))) (l1 ++ l2).
Proof.
  induction l2 as [|k l2 IH]; intros l1 N; cbn [fold_left map]; [rewrite !app_nil_r; reflexivity|].
  rewrite update_at.
  - replace (map (fun k => (k, f k (G k))) l1 ++ (k, f k (G k)) :: map (fun k => (k, G k)) l2) with (map (fun k => (k, f k (G k))) (l1 ++ [k]) ++ map (fun k => (k, G k)) l2).
    + rewrite IH; rewrite <- app_assoc; [reflexivity|exact N].
    + rewrite map_app, <- app_assoc. reflexivity.
  - rewrite (fst_tag (fun k => f k (G k))). apply NoDup_remove_2 in N. intros I. apply N. apply in_or_app. left. exact I.
Qed.
Lemma fold_ext {A B} (f g : A -> B -> A) : (forall a b, f a b = g a b) -> forall l a, fold_left f l a = fold_left g l a.
Proof. intros E. induction l as [|x l IH]; intros a; cbn [fold_left]; [reflexivity|]. rewrite E. apply IH. Qed.

Lemma vadd_map (f g : nat -> comp) l : vadd (map f l) (map g l) = map (fun a => cadd (f a) (g a)) l.
Proof. unfold vadd. induction l as [|x l IH]; cbn [map combine]; [reflexivity|]. f_equal. exact IH. Qed.

Section One.
Variable edges : list R.
Variable poles : list nat.
Variable box : option point.
Variable Y : nat -> nat -> point -> comp.
Variable p : point.
Variable w0 : R.
Variable sc : list (point * R).
Let nb := nbins edges.
Let D (ri : R * nat) := over (dpos box (fst (nth (snd ri) sc (0, 0, 0, 0)%R)) p) (fst ri).
Let ws (ri : R * nat) := snd (nth (snd ri) sc (0, 0, 0, 0)%R).
Definition sumre lm (prs : list (R * nat)) a : R := rsum (map (fun ri => if rltb 0 (fst ri) && (dig edges (fst ri) =? S a) then (fst (Y (fst lm) (snd lm) (D ri)) * ws ri)%R else 0%R) prs).
Definition sumim (lm : nat * nat) (prs : list (R * nat)) a : R :=
  if snd lm =? 0 then 0%R else rsum (map (fun ri => if rltb 0 (fst ri) && (dig edges (fst ri) =? S a) then (snd (Y (fst lm) (snd lm) (D ri)) * ws ri)%R else 0%R) prs).
Definition almof lm prs : val :=
  (map (fun a => (sumre lm prs a, sumim lm prs a)) (seq 0 nb), map (fun a => (w0 * sumre lm prs a, w0 * sumim lm prs a)%R) (seq 0 nb)).

Lemma binned_sum (V : R * nat -> R) prs a :
  binned (map (fun ri => (dig edges (fst ri), V ri)) (filter (fun ri => rltb 0 (fst ri)) prs)) a = rsum (map (fun ri => if rltb 0 (fst ri) && (dig edges (fst ri) =? S a) then V ri else 0%R) prs).
Proof using Type.
  unfold binned. induction prs as [|x prs IH]; cbn [filter map rsum]; [reflexivity|]. destruct (rltb 0 (fst x)); cbn [andb map filter fst].
  - destruct (dig edges (fst x) =? S a); cbn [map rsum snd]; rewrite IH; lra.
  - rewrite IH. lra.
Qed.

Definition addin (lm : nat * nat) (bunch : list (R * nat)) (v : val) : val := (vadd (fst v) (fst (almof lm bunch)), vadd (snd v) (snd (almof lm bunch))).
Lemma callback_eq d bunch : callback edges poles box Y p w0 sc d bunch = fold_left (fun d lm => update d lm (zeros edges, zeros edges) (addin lm bunch)) (lms poles) d.
Proof using Type.
  unfold callback. cbn zeta. apply fold_ext. intros d' lm.
  assert (E : forall k dflt (f g : val -> val), (forall v, f v = g v) -> forall dd, update dd k dflt f = update dd k dflt g).
  { intros k dflt f g H. induction dd as [|[k' v] dd IH]; cbn [update]; [rewrite H; reflexivity|]. rewrite H, IH. reflexivity. }
  apply E. intros v. unfold addin, almof. cbn [fst snd]. f_equal; f_equal; apply map_ext; intros a; unfold sumre, sumim; rewrite !binned_sum; destruct (snd lm =? 0); rewrite ?Rmult_0_r; reflexivity.
Qed.
Lemma addin_sum lm x y : addin lm y (almof lm x) = almof lm (x ++ y).
Proof using Type.
  unfold addin, almof. cbn [fst snd]. rewrite !vadd_map. f_equal; apply map_ext; intros a; unfold cadd, sumre, sumim; cbn [fst snd]; rewrite !map_app, !rsum_app; destruct (snd lm =? 0); f_equal; lra.
Qed.
Lemma addin_zero lm y : addin lm y (zeros edges, zeros edges) = almof lm y.
Proof using Type.
  unfold addin, almof, zeros. cbn [fst snd]. fold nb. rewrite !vadd_map. f_equal; apply map_ext; intros a; unfold cadd; cbn [fst snd]; f_equal; lra.
Qed.
Hypothesis N : NoDup (lms poles).
Lemma alms_from : forall bs x, fold_left (callback edges poles box Y p w0 sc) bs (map (fun lm => (lm, almof lm x)) (lms poles)) = map (fun lm => (lm, almof lm (x ++ concat bs))) (lms poles).
Proof using N.
  induction bs as [|b bs IH]; intros x; cbn [fold_left concat]; [rewrite app_nil_r; reflexivity|].
  rewrite callback_eq.
  pose proof (fold_old (zeros edges, zeros edges) (fun lm => addin lm b) (fun lm => almof lm x) (lms poles) [] N) as H. cbn [app map] in H. rewrite H.
  assert (E : map (fun k => (k, addin k b (almof k x))) (lms poles) = map (fun lm => (lm, almof lm (x ++ b))) (lms poles)) by (apply map_ext; intros k; rewrite addin_sum; reflexivity).
  rewrite E, IH, <- app_assoc. reflexivity.
Qed.
Lemma alms_all bs : bs <> [] -> fold_left (callback edges poles box Y p w0 sc) bs [] = map (fun lm => (lm, almof lm (concat bs))) (lms poles).
Proof using N.
  destruct bs as [|b bs]; [contradiction|]. intros _. cbn [fold_left concat]. rewrite callback_eq.
  pose proof (fold_new (zeros edges, zeros edges) (fun lm => addin lm b) (lms poles) [] N) as H. cbn [app map] in H. rewrite H.
  rewrite <- alms_from. f_equal. apply map_ext. intros k. rewrite addin_zero. reflexivity.
Qed.

(* the contribution of one entry of the dictionary *)
Definition contrib (e : (nat * nat) * val) (q a b : nat) : R :=
  let '((l, m), (alm, walm)) := e in
  let outer a b := (fst (nth a walm (0, 0)%R) * fst (nth b alm (0, 0)%R) + snd (nth a walm (0, 0)%R) * snd (nth b alm (0, 0)%R))%R in
  if q =? iell poles l then (if m =? 0 then outer a b else (outer a b + outer b a)%R) else 0%R.
Lemma combine_sum : forall d z q a b, (fold_left (combine_alm poles) d z q a b = z q a b + rsum (map (fun e => contrib e q a b) d))%R.
Proof using Type.
  induction d as [|e d IH]; intros z q a b; cbn [fold_left map rsum]; [lra|]. rewrite IH. destruct e as [[l m] [alm walm]]. cbn. ring.
Qed.
Lemma nth_seq_map {B} (f : nat -> B) dflt a n : a < n -> nth a (map f (seq 0 n)) dflt = f a.
Proof using Type. intros H. rewrite (nth_indep _ dflt (f 0)) by (rewrite map_length, seq_length; exact H). rewrite map_nth, seq_nth by exact H. reflexivity. Qed.
Definition term (lm : nat * nat) prs a b : R := (w0 * ((if snd lm =? 0 then 1 else 2) * (sumre lm prs a * sumre lm prs b + sumim lm prs a * sumim lm prs b)))%R.
Lemma contrib_alm lm prs q a b : a < nb -> b < nb -> contrib (lm, almof lm prs) q a b = if q =? iell poles (fst lm) then term lm prs a b else 0%R.
Proof using Type.
  intros A B. destruct lm as [l m]. unfold contrib, almof, term. cbn [fst snd]. rewrite !nth_seq_map by assumption. cbn [fst snd].
  destruct (q =? iell poles l); [|reflexivity]. destruct (m =? 0); ring.
Qed.
End One.

(* ---- indices of the poles ---- *)
Lemma iell_notin l : forall poles k acc, ~ In l poles -> fold_left (fun acc p => if snd p =? l then fst p else acc) (combine (seq k (length poles)) poles) acc = acc.
Proof.
  induction poles as [|x poles IH]; intros k acc N; [reflexivity|]. cbn [length seq combine fold_left fst snd].
  destruct (x =? l) eqn:e; [apply Nat.eqb_eq in e; subst; exfalso; apply N; left; reflexivity|]. apply IH. intros I. apply N. right. exact I.
Qed.
Lemma iell_nth : forall poles q l, NoDup poles -> nth_error poles q = Some l -> iell poles l = q.
Proof.
  unfold iell. intros poles q l.
  assert (G : forall poles k q acc, NoDup poles -> nth_error poles q = Some l -> fold_left (fun acc p => if snd p =? l then fst p else acc) (combine (seq k (length poles)) poles) acc = k + q).
  { clear. induction poles as [|x poles IH]; intros k q acc N H; [destruct q; discriminate|]. inversion N; subst. cbn [length seq combine fold_left fst snd].
    destruct q as [|q]; cbn in H.
    - injection H as ->. rewrite Nat.eqb_refl, iell_notin by assumption. lia.
    - rewrite (IH (S k) q) by assumption. lia. }
  intros N H. rewrite (G poles 0 q 0 N H). reflexivity.
Qed.
Lemma iell_inj poles q l l' : NoDup poles -> nth_error poles q = Some l -> In l' poles -> (q =? iell poles l') = (l' =? l).
Proof.
  intros N H I. apply In_nth_error in I. destruct I as [q' H']. rewrite (iell_nth poles q' l' N H').
  destruct (l' =? l) eqn:e.
  - apply Nat.eqb_eq in e. subst. apply Nat.eqb_eq. rewrite <- (iell_nth poles q l N H). apply iell_nth; assumption.
  - apply Nat.eqb_neq in e. apply Nat.eqb_neq. intros ->. rewrite H in H'. injection H' as ->. contradiction.
Qed.
Lemma lms_nodup poles : NoDup poles -> NoDup (lms poles).
Proof.
  unfold lms. induction 1 as [|l poles NI N IH]; cbn [flat_map]; [constructor|].
  assert (M : NoDup (map (fun m => (l, m)) (seq 0 (S l)))).
  { apply FinFun.Injective_map_NoDup; [intros a b E; inversion E; reflexivity|apply seq_NoDup]. }
  assert (DJ : forall x, In x (map (fun m => (l, m)) (seq 0 (S l))) -> ~ In x (flat_map (fun l => map (fun m => (l, m)) (seq 0 (S l))) poles)).
  { intros x I J. apply in_map_iff in I. destruct I as (m & <- & _). apply in_flat_map in J. destruct J as (l' & I' & J). apply in_map_iff in J. destruct J as (m' & E & _). inversion E; subst. contradiction. }
  revert M DJ. generalize (map (fun m => (l, m)) (seq 0 (S l))). intros x M. induction M as [|y x NY M IHx]; intros DJ; cbn [app]; [exact IH|].
  constructor; [|apply IHx; intros z I; apply DJ; right; exact I]. intros I. apply in_app_or in I. destruct I as [I|I]; [contradiction|]. apply (DJ y); [left; reflexivity|exact I].
Qed.
Lemma sum_lms poles (F : nat * nat -> R) q l : NoDup poles -> nth_error poles q = Some l ->
  rsum (map (fun lm => if q =? iell poles (fst lm) then F lm else 0%R) (lms poles)) = rsum (map (fun m => F (l, m)) (seq 0 (S l))).
Proof.
  intros N H. unfold lms. rewrite rsum_flat.
  rewrite (rsum_ext' _ (fun l' => if l' =? l then rsum (map (fun m => F (l', m)) (seq 0 (S l'))) else 0%R)).
  - rewrite (rsum_one Nat.eqb (fun l' => rsum (map (fun m => F (l', m)) (seq 0 (S l')))) l Nat.eqb_eq poles N (nth_error_In _ _ H)). reflexivity.
  - intros l' I. rewrite map_map. cbn [fst]. rewrite (iell_inj poles q l l' N H I). destruct (l' =? l); [reflexivity|]. apply rsum_zero. reflexivity.
Qed.
