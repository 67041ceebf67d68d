From Verif Require Import Base.
From Coq Require Import Reals Sorted Permutation Lra Lia.
From Verif Require Import BaseProofs RandModel RandProofs ThreeModel ThreeSpec ThreeProofs.
Local Open Scope nat_scope.

Lemma dot_over d r : (r <> 0)%R -> dot3 (over d r) (over d r) = (dot3 d d / (r * r))%R.
Proof. destruct d as [[x y] z]. intros. cbn. field. assumption. Qed.
Lemma dot_pos d : (0 <= dot3 d d)%R.
Proof. destruct d as [[x y] z]. cbn. nra. Qed.
Lemma direction_unit box p s : (0 < distance box p s)%R -> unit3 (direction box p s).
Proof.
  intros H. unfold unit3, direction. rewrite dot_over by lra. unfold distance in *. rewrite sqrt_sqrt by apply dot_pos.
  field. intros E. rewrite E, sqrt_0 in H. lra.
Qed.
Lemma filter_perm' {A} (P : A -> bool) : forall l l', Permutation l l' -> Permutation (filter P l) (filter P l').
Proof.
  induction 1 as [|x l l' H IH|x y l|l m n H1 IH1 H2 IH2]; cbn [filter]; [constructor| | |eapply Permutation_trans; eassumption].
  - destruct (P x); [constructor|]; exact IH.
  - destruct (P x), (P y); try apply Permutation_refl. constructor.
Qed.
Lemma tag_sum {A} (f : nat * A -> R) (g : A -> R) (sc : list A) dflt : (forall j s, nth j sc dflt = s -> In s sc -> f (j, s) = g s) ->
  rsum (map f (combine (seq 0 (length sc)) sc)) = rsum (map g sc).
Proof.
  intros H.
  assert (G : forall l k, (forall j, j < length l -> nth (k + j) sc dflt = nth j l dflt) -> (forall s, In s l -> In s sc) -> rsum (map f (combine (seq k (length l)) l)) = rsum (map g l)).
  { induction l as [|x l IH]; intros k E I; [reflexivity|]. cbn [length seq combine map rsum]. rewrite H.
    - rewrite IH; [reflexivity| |intros; apply I; right; assumption]. intros j J. replace (S k + j) with (k + S j) by lia. rewrite E by (cbn; lia). reflexivity.
    - specialize (E 0 ltac:(cbn; lia)). rewrite Nat.add_0_r in E. exact E.
    - apply I. left. reflexivity. }
  apply G; [reflexivity|trivial].
Qed.

Lemma match_ne {A B} (l : list A) (x y : B) : l <> [] -> match l with [] => x | _ :: _ => y end = y.
Proof. destruct l; [contradiction|reflexivity]. Qed.

Section Prim.
Variable edges : list R.
Variable poles : list nat.
Variable box : option point.
Variable Y : nat -> nat -> point -> comp.
Variable catalog : list (point * R).
Hypothesis Sr : StronglySorted Rle edges.
Hypothesis NP : NoDup poles.
Hypothesis AD : forall l, In l poles -> addition Y l.
Hypothesis IB : forall s, In s catalog -> in_box box (fst s).
Variable p : point.
Variable w0 : R.
Variable sc : list (point * R).
Variable bs : list (list (R * nat)).
Hypothesis Ip : in_box box p.
Hypothesis EN : Permutation (concat bs) (filter (fun ri => rleb (fst ri) (rmax edges)) (map (fun js => (distance box p (fst (snd js)), fst js)) (combine (seq 0 (length sc)) sc))).
Hypothesis CV : Permutation (filter (fun s => rleb (distance box p (fst s)) (rmax edges)) sc) (filter (fun s => rleb (distance box p (fst s)) (rmax edges)) catalog).
Notation nb := (nbins edges).

Lemma sum_pairs (V : point -> R) a : a < nb ->
  rsum (map (fun ri => if rltb 0 (fst ri) && (dig edges (fst ri) =? S a) then (V (over (dpos box (fst (nth (snd ri) sc (0, 0, 0, 0)%R)) p) (fst ri)) * snd (nth (snd ri) sc (0, 0, 0, 0)%R))%R else 0%R) (concat bs)) =
  rsum (map (fun s => (V (direction box p (fst s)) * snd s)%R) (filter (in_bin edges box p a) catalog)).
Proof using All.
  intros A. rewrite (rsum_perm _ _ (Permutation_map _ EN)), rsum_filter, map_map. cbn [fst snd].
  set (g := fun s : point * R => if rleb (distance box p (fst s)) (rmax edges) then if in_bin edges box p a s then (V (direction box p (fst s)) * snd s)%R else 0%R else 0%R).
  rewrite (tag_sum _ g sc (0, 0, 0, 0)%R).
  - subst g. cbn beta. rewrite <- (rsum_filter (fun s => if in_bin edges box p a s then (V (direction box p (fst s)) * snd s)%R else 0%R)).
    rewrite (rsum_perm _ _ (Permutation_map _ CV)), !rsum_filter. apply rsum_ext'. intros s _.
    destruct (in_bin edges box p a s) eqn:e; [|destruct (rleb _ _); reflexivity].
    assert (R : rleb (distance box p (fst s)) (rmax edges) = true); [|rewrite R; reflexivity].
    unfold in_bin in e. apply andb_true_iff in e. destruct e as [_ e]. apply rleb_iff in e. apply rleb_iff.
    pose proof (edge_rmax edges (S a) Sr) as M. unfold nbins in A. specialize (M ltac:(lia)). lra.
  - intros j s E I. subst g. cbn [fst snd]. rewrite E. destruct (rleb (distance box p (fst s)) (rmax edges)) eqn:e; [|reflexivity].
    rewrite dig_bin by assumption. unfold in_bin. rewrite andb_assoc.
    rewrite dpos_sep; [reflexivity|exact Ip|]. apply IB.
    assert (J : In s (filter (fun s => rleb (distance box p (fst s)) (rmax edges)) catalog)); [|apply filter_In in J; tauto].
    eapply Permutation_in; [exact CV|]. apply filter_In. split; assumption.
Qed.

Definition pair_sum (l a b : nat) : R :=
  rsum (map (fun s => rsum (map (fun t => (snd s * snd t * rlegendre l (dot3 (direction box p (fst s)) (direction box p (fst t))))%R)
    (filter (in_bin edges box p b) catalog))) (filter (in_bin edges box p a) catalog)).

Lemma terms_sum q l a b : nth_error poles q = Some l -> a < nb -> b < nb ->
  (rsum (map (fun e => contrib poles e q a b) (fold_left (callback edges poles box Y p w0 sc) bs [])) = w0 * (INR (2 * l + 1) / (4 * PI) * pair_sum l a b))%R.
Proof using All.
  intros H A B.
  assert (U : rsum (map (fun e => contrib poles e q a b) (fold_left (callback edges poles box Y p w0 sc) bs [])) = rsum (map (fun m => term edges box Y p w0 sc (l, m) (concat bs) a b) (seq 0 (S l)))).
  { destruct bs as [|b0 bs'] eqn:Eb.
    - cbn [fold_left map rsum concat]. symmetry. apply rsum_zero. intros m _. unfold term, sumre, sumim. cbn [map rsum]. destruct (snd (l, m) =? 0); ring.
    - rewrite alms_all by (try discriminate; apply lms_nodup; exact NP). rewrite map_map.
      rewrite <- (sum_lms poles (fun lm => term edges box Y p w0 sc lm (concat (b0 :: bs')) a b) q l NP H). apply rsum_ext'. intros lm _. apply contrib_alm; assumption. }
  rewrite U. clear U. cbn [seq map rsum].
  assert (RE : forall m c, c < nb -> sumre edges box Y p sc (l, m) (concat bs) c = rsum (map (fun s => (fst (Y l m (direction box p (fst s))) * snd s)%R) (filter (in_bin edges box p c) catalog))).
  { intros m c C. unfold sumre. cbn [fst snd]. apply (sum_pairs (fun d => fst (Y l m d)) c C). }
  assert (IM : forall m c, c < nb -> sumim edges box Y p sc (l, S m) (concat bs) c = rsum (map (fun s => (snd (Y l (S m) (direction box p (fst s))) * snd s)%R) (filter (in_bin edges box p c) catalog))).
  { intros m c C. unfold sumim. cbn [fst snd Nat.eqb]. apply (sum_pairs (fun d => snd (Y l (S m) d)) c C). }
  set (Sa := filter (in_bin edges box p a) catalog) in *. set (Sb := filter (in_bin edges box p b) catalog) in *.
  assert (T0 : (term edges box Y p w0 sc (l, O) (concat bs) a b = w0 * rsum (map (fun s => rsum (map (fun t => snd s * snd t * (fst (Y l O (direction box p (fst s))) * fst (Y l O (direction box p (fst t))))) Sb)) Sa))%R).
  { unfold term. rewrite !RE by assumption. unfold sumim. cbn [fst snd Nat.eqb]. fold Sa Sb. rewrite rsum_prod.
    rewrite (rsum_ext' (fun s => rsum (map (fun t => (snd s * snd t * (fst (Y l O (direction box p (fst s))) * fst (Y l O (direction box p (fst t)))))%R) Sb)) (fun x => rsum (map (fun y => (fst (Y l O (direction box p (fst x))) * snd x * (fst (Y l O (direction box p (fst y))) * snd y))%R) Sb))); [ring|].
    intros s _. apply rsum_ext'. intros t _. ring. }
  assert (T1 : forall m, (term edges box Y p w0 sc (l, S m) (concat bs) a b = w0 * rsum (map (fun s => rsum (map (fun t => snd s * snd t * (2 * re_prod (Y l (S m) (direction box p (fst s))) (Y l (S m) (direction box p (fst t))))) Sb)) Sa))%R).
  { intros m. unfold term. rewrite !RE, !IM by assumption. fold Sa Sb. cbn [snd Nat.eqb]. rewrite !rsum_prod, <- rsum_plus, <- rsum_scl. f_equal. apply rsum_ext'. intros s _. rewrite <- rsum_plus, <- rsum_scl. apply rsum_ext'. intros t _. unfold re_prod. ring. }
  rewrite T0. rewrite (rsum_ext' _ (fun m => (w0 * rsum (map (fun s => rsum (map (fun t => snd s * snd t * (2 * re_prod (Y l m (direction box p (fst s))) (Y l m (direction box p (fst t))))) Sb)) Sa))%R) (seq 1 l)).
  2:{ intros m I. apply in_seq in I. destruct m as [|m]; [lia|]. apply T1. }
  rewrite rsum_scl, <- Rmult_plus_distr_l. f_equal. rewrite (rsum_swap _ (seq 1 l) Sa), <- rsum_plus. unfold pair_sum. fold Sa Sb. rewrite <- rsum_scl.
  apply rsum_ext'. intros s Is. rewrite (rsum_swap _ (seq 1 l) Sb), <- rsum_plus, <- rsum_scl. apply rsum_ext'. intros t It.
  assert (PO : forall c s, In s (filter (in_bin edges box p c) catalog) -> unit3 (direction box p (fst s))).
  { intros c s' I. apply filter_In in I. destruct I as [_ I]. unfold in_bin in I. apply andb_true_iff in I. destruct I as [I _]. apply andb_true_iff in I. destruct I as [I _]. apply rltb_iff in I. apply direction_unit. exact I. }
  pose proof (AD l (nth_error_In _ _ H) _ _ (PO a s Is) (PO b t It)) as AT.
  rewrite rsum_scl. rewrite (rsum_scl 2).
  transitivity (snd s * snd t * (fst (Y l O (direction box p (fst s))) * fst (Y l O (direction box p (fst t))) + 2 * rsum (map (fun m => re_prod (Y l m (direction box p (fst s))) (Y l m (direction box p (fst t)))) (seq 1 l))))%R; [ring|].
  rewrite AT. ring.
Qed.
End Prim.

Section All.
Variable edges : list R.
Variable poles : list nat.
Variable box : option point.
Variable Y : nat -> nat -> point -> comp.
Variable catalog : list (point * R).
Variable ranks : list rank.
Hypothesis Sr : StronglySorted Rle edges.
Hypothesis NP : NoDup poles.
Hypothesis NE : poles <> [].
Hypothesis AD : forall l, In l poles -> addition Y l.
Hypothesis IB : forall s, In s catalog -> in_box box (fst s).
Hypothesis EN : forall k, In k ranks -> enum_ok edges box k.
Hypothesis DC : decomposed edges box catalog ranks.
Hypothesis ML : 10 <= maxload ranks.
Notation nb := (nbins edges).
Definition share (l a b : nat) (pr : point * R) : R := (snd pr * (INR (2 * l + 1) / (4 * PI) * pair_sum edges box catalog (fst pr) l a b))%R.

Lemma primaries_ok big chunk sc : chunk <> 0 -> forall prs bss z,
  length bss = length prs ->
  (forall i p w bs, nth_error prs i = Some (p, w) -> nth_error bss i = Some bs ->
    in_box box p /\ Permutation (concat bs) (filter (fun ri => rleb (fst ri) (rmax edges)) (map (fun js => (distance box p (fst (snd js)), fst js)) (combine (seq 0 (length sc)) sc))) /\
    Permutation (filter (fun s => rleb (distance box p (fst s)) (rmax edges)) sc) (filter (fun s => rleb (distance box p (fst s)) (rmax edges)) catalog)) ->
  exists z', primaries edges poles box Y big chunk sc z (combine prs bss) = Ok z' /\
    forall q l a b, nth_error poles q = Some l -> a < nb -> b < nb -> (z' q a b = z q a b + rsum (map (share l a b) prs))%R.
Proof using All.
  intros CH. induction prs as [|[p w] prs IH]; intros bss z L H.
  - exists z. split; [reflexivity|]. intros. cbn. lra.
  - destruct bss as [|bs bss]; [discriminate|]. cbn [combine primaries]. apply Nat.eqb_neq in CH. rewrite CH, andb_false_r. apply Nat.eqb_neq in CH.
    destruct (IH bss (fold_left (combine_alm poles) (fold_left (callback edges poles box Y p w sc) bs []) z)) as (z' & E & G).
    + cbn in L. lia.
    + intros i. apply (H (S i)).
    + exists z'. split; [exact E|]. intros q l a b Q A B. rewrite (G q l a b Q A B), combine_sum.
      destruct (H 0 p w bs eq_refl eq_refl) as (Ip & En & Cv). rewrite (terms_sum edges poles box Y catalog Sr NP AD IB p w sc bs Ip En Cv q l a b Q A B).
      cbn [map rsum]. unfold share at 2. cbn [fst snd]. lra.
Qed.

Lemma rall_ex {A B} (f : A -> res B) (Q : A -> B -> Prop) : forall l, (forall x, In x l -> exists y, f x = Ok y /\ Q x y) -> exists ys, rall (map f l) = Ok ys /\ Forall2 Q l ys.
Proof using Type.
  induction l as [|x l IH]; intros H; [exists []; split; [reflexivity|constructor]|].
  destruct (H x (or_introl eq_refl)) as (y & E & Qy). destruct (IH (fun x' I => H x' (or_intror I))) as (ys & Es & F).
  exists (y :: ys). split; [cbn [map rall]; rewrite E; cbn; rewrite Es; reflexivity|constructor; assumption].
Qed.

Theorem run_triplets : exists out, run edges poles box Y ranks = Ok out /\
  length out = length poles /\
  forall q l a b, nth_error poles q = Some l -> a < nb -> b < nb ->
    at3 out q a b = Some (INR (2 * l + 1) / ((4 * PI) * (4 * PI)) * triplets edges box l catalog a b)%R.
Proof using All.
  unfold run. rewrite match_ne by exact NE. cbn zeta.
  set (big := argmax _ _). destruct DC as [PM CV].
  destruct (rall_ex (fun ik => primaries edges poles box Y (fst ik =? big) (maxload ranks / 10) (sec (snd ik)) (fun _ _ _ => 0%R) (combine (prim (snd ik)) (bunches (snd ik))))
    (fun ik z' => forall q l a b, nth_error poles q = Some l -> a < nb -> b < nb -> z' q a b = rsum (map (share l a b) (prim (snd ik)))) (combine (seq 0 (length ranks)) ranks)) as (zs & E & F).
  { intros [i k] I. apply in_combine_r in I. cbn [fst snd]. destruct (EN k I) as [L EN'].
    destruct (primaries_ok (i =? big) (maxload ranks / 10) (sec k)) with (prs := prim k) (bss := bunches k) (z := fun _ _ _ : nat => 0%R) as (z' & E & G).
    - assert (1 <= maxload ranks / 10) by (apply Nat.div_le_lower_bound; lia). lia.
    - exact L.
    - intros j p w bs Hp Hb. split; [|split; [apply (EN' j p w bs Hp Hb)|apply (CV k (p, w) I (nth_error_In _ _ Hp))]].
      apply (IB (p, w)). eapply Permutation_in; [exact PM|]. apply in_concat. exists (prim k). split; [apply in_map; exact I|exact (nth_error_In _ _ Hp)].
    - exists z'. split; [exact E|]. intros q l a b Q A B. rewrite (G q l a b Q A B). lra. }
  rewrite E. cbn [rbind].
  assert (X : existsb (fun l => 1 <? count_occ Nat.eq_dec poles l) poles = false).
  { destruct (existsb _ poles) eqn:X; [|reflexivity]. apply existsb_exists in X. destruct X as (x & _ & X). apply Nat.ltb_lt in X. pose proof (proj1 (NoDup_count_occ Nat.eq_dec poles) NP x). lia. }
  rewrite X. eexists. split; [reflexivity|]. split; [rewrite map_length, seq_length; reflexivity|].
  intros q l a b Q A B. unfold at3. assert (Lq : q < length poles) by (apply nth_error_Some; congruence).
  rewrite !nth_error_map', !nth_error_seq. rewrite (proj2 (Nat.ltb_lt _ _) Lq). cbn [option_map]. rewrite nth_error_map', nth_error_seq, (proj2 (Nat.ltb_lt _ _) A). cbn [option_map]. rewrite nth_error_map', nth_error_seq, (proj2 (Nat.ltb_lt _ _) B). cbn [option_map]. f_equal.
  rewrite !Nat.add_0_l.
  assert (SUM : rsum (map (fun z : nat -> nat -> nat -> R => z q a b) zs) = rsum (map (share l a b) catalog)).
  { rewrite <- (rsum_perm _ _ (Permutation_map _ PM)). rewrite concat_map, map_map.
    assert (C : forall L : list (list R), rsum (concat L) = rsum (map rsum L)) by (induction L as [|x L IHL]; cbn [concat map rsum]; [reflexivity|rewrite rsum_app, IHL; reflexivity]).
    rewrite C, map_map.
    assert (RK : map snd (combine (seq 0 (length ranks)) ranks) = ranks) by (clear; generalize 0; induction ranks as [|x r IHr]; intros n; cbn; [reflexivity|f_equal; apply IHr]).
    rewrite <- RK at 1. rewrite map_map.
    clear E RK. induction F as [|ik z iks zs' Hz F IHF]; cbn [map rsum]; [reflexivity|]. rewrite IHF, (Hz q l a b Q A B). reflexivity. }
  rewrite SUM. unfold triplets. unfold share.
  rewrite (rsum_ext' _ (fun pr => (INR (2 * l + 1) / (4 * PI) * (snd pr * pair_sum edges box catalog (fst pr) l a b))%R) catalog) by (intros; ring).
  rewrite rsum_scl. unfold pair_sum. field. apply PI_neq0.
Qed.
End All.
