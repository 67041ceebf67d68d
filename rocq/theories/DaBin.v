From Verif Require Import Base BaseProofs RanksSpec DaModel DaSpec DaProofs.
From Coq Require Import Sorted Permutation.
Local Open Scope Z_scope.

Section Bin.
Context {W : Type}.
Variable zero : W.
Variable add : W -> W -> W.
Hypothesis add_0 : forall x, add x zero = x.
Hypothesis add_comm : forall x y, add x y = add y x.
Hypothesis add_assoc : forall x y z, add x (add y z) = add (add x y) z.
Notation total := (total zero add).
Notation counted := (counted zero add).

Lemma wsum_app a b : wsum zero add (a ++ b) = add (wsum zero add a) (wsum zero add b).
Proof. induction a as [|x a IH]; cbn; [now rewrite add_comm, add_0|]. change (fold_right add zero (a ++ b)) with (wsum zero add (a ++ b)). rewrite IH. now rewrite add_assoc. Qed.
Lemma total_app v a b : total v (a ++ b) = add (total v a) (total v b).
Proof. unfold DaSpec.total. rewrite filter_app, map_app. apply wsum_app. Qed.
Lemma total_none v (a : list (Z * W)) : (forall x, In x (map fst a) -> x <> v) -> total v a = zero.
Proof.
  intros H. unfold DaSpec.total. induction a as [|[x w] a IH]; [reflexivity|]. cbn [filter fst]. destruct (Z.eqb_spec x v) as [->|N]; [exfalso; apply (H v); [left; reflexivity|reflexivity]|].
  apply IH. intros y Hy. apply H. now right.
Qed.
Lemma add_0l x : add zero x = x.
Proof. rewrite add_comm. apply add_0. Qed.

Lemma counted_length all a b : length (counted all a b) = Z.to_nat (b - a).
Proof. unfold DaSpec.counted. now rewrite map_length, seq_length. Qed.
Lemma counted_nil all a b : b <= a -> counted all a b = [].
Proof. intros H. unfold DaSpec.counted. now replace (Z.to_nat (b - a)) with O by lia. Qed.
Lemma counted_app all a b c : a <= b -> b <= c -> counted all a b ++ counted all b c = counted all a c.
Proof.
  intros H1 H2. apply nth_error_ext. intros i. unfold DaSpec.counted. destruct (Nat.ltb_spec i (Z.to_nat (b - a))) as [L|L].
  - rewrite nth_error_app1 by (rewrite map_length, seq_length; lia). rewrite !nth_error_map', !nth_error_seq.
    destruct (Nat.ltb_spec i (Z.to_nat (b - a))); [|lia]. destruct (Nat.ltb_spec i (Z.to_nat (c - a))); [|lia]. reflexivity.
  - rewrite nth_error_app2 by (rewrite map_length, seq_length; lia). rewrite map_length, seq_length, !nth_error_map', !nth_error_seq.
    destruct (Nat.ltb_spec (i - Z.to_nat (b - a)) (Z.to_nat (c - b))), (Nat.ltb_spec i (Z.to_nat (c - a))); try lia; [|reflexivity]. cbn [option_map]. do 2 f_equal. lia.
Qed.
Lemma counted_first all a b : a < b -> hd_error (counted all a b) = Some (total a all).
Proof. intros H. unfold DaSpec.counted. replace (Z.to_nat (b - a)) with (S (Z.to_nat (b - a) - 1)) by lia. cbn. do 2 f_equal. lia. Qed.
Lemma counted_last all a b : a < b -> last_error (counted all a b) = Some (total (b - 1) all).
Proof.
  intros H. rewrite <- (counted_app all a (b - 1) b) by lia. rewrite last_error_app. unfold DaSpec.counted. replace (Z.to_nat (b - (b - 1))) with 1%nat by lia.
  cbn. do 2 f_equal. lia.
Qed.

(* numpy.bincount of a sorted array *)
Lemma zmax_upper l m : (forall a, In a l -> a <= m) -> -1 <= m -> zmax l <= m.
Proof. induction l as [|x l IH]; cbn; intros H L; [assumption|]. change (fold_right Z.max (-1) l) with (zmax l). pose proof (H x (or_introl eq_refl)). assert (zmax l <= m) by (apply IH; auto). lia. Qed.
Lemma zmax_ge l a : In a l -> a <= zmax l.
Proof. induction l as [|x l IH]; cbn; intros []; change (fold_right Z.max (-1) l) with (zmax l); [subst; lia|]. specialize (IH H). lia. Qed.
Lemma zmax_last l x o : StronglySorted Z.le l -> last_error l = Some x -> (forall a, In a l -> o <= a) -> zmax (map (fun y => y - o) l) = x - o.
Proof.
  intros S E H. destruct (sorted_last l x S E) as [I L]. assert (x - o <= zmax (map (fun y => y - o) l)).
  { apply zmax_ge. apply in_map_iff. exists x. auto. }
  assert (zmax (map (fun y => y - o) l) <= x - o); [|lia]. apply zmax_upper; [|specialize (H x I); lia]. intros a Ha. apply in_map_iff in Ha. destruct Ha as (y & <- & Hy). specialize (L y Hy). lia.
Qed.
Lemma combine_shift (l : list Z) (w : list W) o b : map snd (filter (fun xw => fst xw =? b) (combine (map (fun x => x - o) l) w)) = map snd (filter (fun xw => fst xw =? o + b) (combine l w)).
Proof.
  revert w. induction l as [|x l IH]; intros [|u w]; cbn [map combine]; try reflexivity. cbn [filter fst]. destruct (Z.eqb_spec (x - o) b), (Z.eqb_spec x (o + b)); try lia; [cbn; f_equal|]; apply IH.
Qed.
Lemma np_bincount_ok l w x o : StronglySorted Z.le l -> length w = length l -> last_error l = Some x -> (forall a, In a l -> o <= a) ->
  np_bincount zero add (map (fun y => y - o) l) w = Ok (counted (combine l w) o (x + 1)).
Proof.
  intros S LW E H. unfold np_bincount. rewrite map_length, LW, Nat.eqb_refl. cbn [negb]. destruct (existsb _ _) eqn:EX.
  - exfalso. apply existsb_exists in EX. destruct EX as (y & Hy & N). apply in_map_iff in Hy. destruct Hy as (z & <- & Hz). specialize (H z Hz). lia.
  - f_equal. rewrite (zmax_last l x o S E H). unfold DaSpec.counted. replace (x - o + 1) with (x + 1 - o) by lia. apply map_ext. intros b. unfold wsum, DaSpec.total. now rewrite combine_shift.
Qed.
Lemma np_bincount_nil w o : length w = O -> np_bincount zero add (map (fun y => y - o) []) w = Ok [].
Proof. destruct w; [reflexivity|discriminate]. Qed.

(* ---- the whole array ---- *)
Variable parts : list (list Z).
Variable ws : list (list W).
Hypothesis sorted : globally_sorted parts.
Hypothesis nonneg : forall x, In x (global parts) -> 0 <= x.
Hypothesis aligned : map (@length Z) parts = map (@length W) ws.
Hypothesis nonempty : global parts <> [].

Definition off (r : nat) : Z := bin_offset (prev parts r) (nth r parts []).
Definition endd (r : nat) : Z := match last_error (concat (firstn r parts)) with Some p => p + 1 | None => 0 end.
Definition xw (r : nat) : list (Z * W) := combine (nth r parts []) (nth r ws []).
Definition all : list (Z * W) := concat (map xw (seq 0 (length parts))).
Definition local_counts (r : nat) : list W := match last_error (nth r parts []) with Some x => counted (xw r) (off r) (x + 1) | None => [] end.

Lemma part_ws r : length (nth r ws []) = length (nth r parts []).
Proof. rewrite <- !(map_nth (@length _)). cbn. now rewrite aligned. Qed.
Lemma xw_fst r : map fst (xw r) = nth r parts [].
Proof.
  unfold xw. pose proof (part_ws r) as H. revert H. generalize (nth r parts []) (nth r ws []). intros l. induction l as [|x l IH]; intros [|w m] H; cbn in *; try discriminate; [reflexivity|]. f_equal. apply IH. lia.
Qed.

(* everything sorted around rank r *)
Lemma around r : (r < length parts)%nat -> global parts = concat (firstn r parts) ++ nth r parts [] ++ concat (skipn (S r) parts) /\
  StronglySorted Z.le (nth r parts []) /\ (forall a b, In a (concat (firstn r parts)) -> In b (nth r parts []) -> a <= b) /\
  (forall a b, In a (nth r parts []) -> In b (concat (skipn (S r) parts)) -> a <= b) /\ StronglySorted Z.le (concat (firstn r parts)) /\ StronglySorted Z.le (concat (skipn (S r) parts)).
Proof.
  intros L. destruct (nth_error parts r) as [p|] eqn:E; [|apply nth_error_None in E; lia]. rewrite (nth_error_nth parts r [] E). pose proof (global_split parts r p E) as G. split; [exact G|].
  unfold globally_sorted in sorted. rewrite G in sorted. destruct (sorted_app_inv _ _ sorted) as (A & B & C). destruct (sorted_app_inv _ _ B) as (D & F & H).
  split; [exact D|]. split; [intros a b Ha Hb; apply C; [assumption|apply in_or_app; auto]|]. split; [exact H|]. auto.
Qed.
Lemma off_le r x : (r < length parts)%nat -> In x (nth r parts []) -> off r <= x.
Proof.
  intros L I. destruct (around r L) as (G & S & B & _ & Sb & _). unfold off. rewrite prev_eq. unfold bin_offset. destruct (last_error (concat (firstn r parts))) as [p|] eqn:E.
  - destruct (nth r parts []) as [|h l] eqn:EP; [contradiction|]. destruct (sorted_last _ p Sb E) as [Ip _]. pose proof (B p h Ip (or_introl eq_refl)). destruct (sorted_head (h :: l) h S eq_refl) as [_ Lh].
    specialize (Lh x I). destruct (Z.eqb_spec p h); lia.
  - apply nonneg. rewrite G. apply in_or_app. right. apply in_or_app. auto.
Qed.
Lemma off_cases r h : (r < length parts)%nat -> hd_error (nth r parts []) = Some h ->
  (endd r <= h /\ off r = endd r) \/ (endd r = h + 1 /\ off r = h /\ last_error (concat (firstn r parts)) = Some h).
Proof.
  intros L E. destruct (around r L) as (G & S & B & _ & Sb & _). unfold off, endd. rewrite prev_eq. unfold bin_offset. destruct (nth r parts []) as [|h' l] eqn:EP; [discriminate|]. injection E as ->.
  destruct (last_error (concat (firstn r parts))) as [p|] eqn:E.
  - destruct (sorted_last _ p Sb E) as [Ip _]. pose proof (B p h Ip (or_introl eq_refl)). destruct (Z.eqb_spec p h); [right|left]; [subst; auto|lia].
  - left. split; [|reflexivity]. apply nonneg. rewrite G. apply in_or_app. right. left. reflexivity.
Qed.

Lemma bincount_local_ok : bincount_local zero add parts ws = Ok (map local_counts (seq 0 (length parts))).
Proof.
  unfold bincount_local. rewrite <- rall_ok. f_equal. rewrite map_map. apply map_ext_in. intros r Hr. apply in_seq in Hr. cbv zeta. fold (off r). unfold local_counts.
  destruct (last_error (nth r parts [])) as [x|] eqn:E.
  - apply np_bincount_ok; [apply around; lia|apply part_ws|assumption|]. intros a Ha. apply off_le; [lia|assumption].
  - apply last_error_none in E. pose proof (part_ws r) as P. rewrite E in *. apply np_bincount_nil. exact P.
Qed.

(* the loops *)
Definition contrib (x : Z) (tc : option Z * option W) : W := match tc with (t, Some c) => if opt_eqb t x then c else zero | _ => zero end.
Definition hit (x : Z) (tc : option Z * option W) : bool := match tc with (t, Some _) => opt_eqb t x | _ => false end.
Lemma add_first_0 n : add_first add zero n = n.
Proof. destruct n; cbn; [reflexivity|now rewrite add_0]. Qed.
Lemma add_last_0 n : add_last add zero n = n.
Proof. induction n as [|x [|y n] IH]; cbn in *; [reflexivity|now rewrite add_0|]. f_equal. exact IH. Qed.
Lemma add_first_first a b n : add_first add a (add_first add b n) = add_first add (add a b) n.
Proof. destruct n; cbn; [reflexivity|]. f_equal. rewrite <- add_assoc. f_equal. apply add_comm. Qed.
Lemma add_last_snoc a n x : add_last add a (n ++ [x]) = n ++ [add x a].
Proof. induction n as [|y [|z n] IH]; cbn in *; [reflexivity|reflexivity|]. f_equal. exact IH. Qed.
Lemma add_last_last a b n : add_last add a (add_last add b n) = add_last add (add a b) n.
Proof.
  destruct (last_error n) as [x|] eqn:E; [|apply last_error_none in E; subst; reflexivity]. apply last_error_some in E. destruct E as (m & ->).
  rewrite !add_last_snoc. do 2 f_equal. rewrite <- add_assoc. f_equal. apply add_comm.
Qed.
Lemma add_lower_ok x tl : forall n, add_lower add x tl n = (add_first add (wsum zero add (map (contrib x) tl)) n, existsb (hit x) tl).
Proof.
  induction tl as [|[t [c|]] tl IH]; intros n; cbn [add_lower map wsum fold_right existsb contrib hit]; [now rewrite add_first_0| |]; change (fold_right add zero (map (contrib x) tl)) with (wsum zero add (map (contrib x) tl)).
  - destruct (opt_eqb t x); rewrite IH; cbn [orb]; [rewrite add_first_first; f_equal; f_equal; apply add_comm|now rewrite add_0l].
  - destruct (opt_eqb t x); rewrite IH; now rewrite add_0l.
Qed.
Lemma add_higher_ok x hd : forall n, add_higher add x hd n = add_last add (wsum zero add (map (contrib x) hd)) n.
Proof.
  induction hd as [|[t [c|]] hd IH]; intros n; cbn [add_higher map wsum fold_right contrib]; [now rewrite add_last_0| |]; change (fold_right add zero (map (contrib x) hd)) with (wsum zero add (map (contrib x) hd)).
  - destruct (opt_eqb t x); rewrite IH; [rewrite add_last_last; f_equal; apply add_comm|now rewrite add_0l].
  - destruct (opt_eqb t x); rewrite IH; now rewrite add_0l.
Qed.
Lemma add_both a b c f t : f < t -> (forall v, f < v -> v < t - 1 -> total v a = total v b) ->
  (f < t - 1 -> total f b = add (total f a) c) ->
  forall d, (f < t - 1 -> total (t - 1) b = add (total (t - 1) a) d) -> (f = t - 1 -> total f b = add (add (total f a) c) d) ->
  add_last add d (add_first add c (counted a f t)) = counted b f t.
Proof.
  intros L M F d E O.
  assert (counted a f t = match t - f with 1 => [total f a] | _ => total f a :: counted a (f + 1) (t - 1) ++ [total (t - 1) a] end) as CA.
  { destruct (Z.eq_dec (t - f) 1) as [H|H].
    - rewrite H. replace t with (f + 1) by lia. unfold DaSpec.counted. replace (Z.to_nat (f + 1 - f)) with 1%nat by lia. cbn. do 2 f_equal; lia.
    - rewrite <- (counted_app a f (f + 1) t), <- (counted_app a (f + 1) (t - 1) t) by lia.
      assert (forall v, counted a v (v + 1) = [total v a]) as one. { intros v. unfold DaSpec.counted. replace (Z.to_nat (v + 1 - v)) with 1%nat by lia. cbn. do 2 f_equal; lia. }
      rewrite one. replace (counted a (t - 1) t) with [total (t - 1) a] by (rewrite <- one; f_equal; lia). cbn [app]. destruct (t - f) as [|[| |]|] eqn:X; try reflexivity; lia. }
  assert (counted b f t = match t - f with 1 => [total f b] | _ => total f b :: counted b (f + 1) (t - 1) ++ [total (t - 1) b] end) as CB.
  { destruct (Z.eq_dec (t - f) 1) as [H|H].
    - rewrite H. replace t with (f + 1) by lia. unfold DaSpec.counted. replace (Z.to_nat (f + 1 - f)) with 1%nat by lia. cbn. do 2 f_equal; lia.
    - rewrite <- (counted_app b f (f + 1) t), <- (counted_app b (f + 1) (t - 1) t) by lia.
      assert (forall v, counted b v (v + 1) = [total v b]) as one. { intros v. unfold DaSpec.counted. replace (Z.to_nat (v + 1 - v)) with 1%nat by lia. cbn. do 2 f_equal; lia. }
      rewrite one. replace (counted b (t - 1) t) with [total (t - 1) b] by (rewrite <- one; f_equal; lia). cbn [app]. destruct (t - f) as [|[| |]|] eqn:X; try reflexivity; lia. }
  rewrite CA, CB. destruct (Z.eq_dec (t - f) 1) as [H|H].
  - rewrite H. cbn. f_equal. rewrite <- O by lia. reflexivity.
  - assert (X : forall P Q : list W, match t - f with 1 => P | _ => Q end = Q) by (intros; destruct (t - f) as [|[| |]|] eqn:X; try reflexivity; lia).
    rewrite !X. cbn [add_first]. change (add (total f a) c :: counted a (f + 1) (t - 1) ++ [total (t - 1) a]) with ((add (total f a) c :: counted a (f + 1) (t - 1)) ++ [total (t - 1) a]).
    rewrite add_last_snoc. cbn [app]. rewrite <- F, <- E by lia. do 2 f_equal. unfold DaSpec.counted. apply map_ext_in. intros i Hi. apply in_seq in Hi. apply M; lia.
Qed.

Lemma total_concat v ls : total v (concat ls) = wsum zero add (map (total v) ls).
Proof. induction ls as [|l ls IH]; [reflexivity|]. cbn [concat map wsum fold_right]. rewrite total_app, IH. reflexivity. Qed.
Lemma wsum_zero {A} (f : A -> W) l : (forall x, In x l -> f x = zero) -> wsum zero add (map f l) = zero.
Proof. induction l as [|x l IH]; intros H; [reflexivity|]. cbn. change (fold_right add zero (map f l)) with (wsum zero add (map f l)). rewrite IH, (H x); [apply add_0|left; reflexivity|intros; apply H; now right]. Qed.
Lemma wsum_rev l : wsum zero add (rev l) = wsum zero add l.
Proof. induction l as [|x l IH]; [reflexivity|]. cbn [rev]. rewrite wsum_app, IH. cbn. rewrite add_0. apply add_comm. Qed.
Definition lower (v : Z) (r : nat) : W := wsum zero add (map (fun i => total v (xw i)) (seq 0 r)).
Definition higher (v : Z) (r : nat) : W := wsum zero add (map (fun i => total v (xw i)) (seq (S r) (length parts - S r))).
Lemma total_all v r : (r < length parts)%nat -> total v all = add (add (lower v r) (total v (xw r))) (higher v r).
Proof.
  intros L. unfold all, lower, higher. replace (length parts) with (r + (1 + (length parts - S r)))%nat at 1 by lia. rewrite !seq_app, !map_app, !concat_app, !total_app. cbn [seq map concat].
  rewrite app_nil_r, !total_concat, !map_map. rewrite <- add_assoc. do 2 f_equal. rewrite Nat.add_1_r. reflexivity.
Qed.
Lemma in_before i r x : (i < r)%nat -> (r <= length parts)%nat -> In x (nth i parts []) -> In x (concat (firstn r parts)).
Proof.
  intros L L2 H. apply in_concat. exists (nth i parts []). split; [|assumption]. apply (nth_error_In _ i). rewrite nth_error_firstn. destruct (Nat.ltb_spec i r); [|lia]. apply nth_error_nth'. lia.
Qed.
Lemma in_after i r x : (r < i)%nat -> (i < length parts)%nat -> In x (nth i parts []) -> In x (concat (skipn (S r) parts)).
Proof.
  intros L L2 H. apply in_concat. exists (nth i parts []). split; [|assumption]. apply (nth_error_In _ (i - S r)). rewrite nth_error_skipn. replace (S r + (i - S r))%nat with i by lia. apply nth_error_nth'. lia.
Qed.
Lemma lower_zero v r : (r <= length parts)%nat -> (forall x, In x (concat (firstn r parts)) -> x <> v) -> lower v r = zero.
Proof. intros L H. apply wsum_zero. intros i Hi. apply in_seq in Hi. apply total_none. rewrite xw_fst. intros x Hx. apply H. apply (in_before i); [lia|lia|assumption]. Qed.
Lemma higher_zero v r : (r < length parts)%nat -> (forall x, In x (concat (skipn (S r) parts)) -> x <> v) -> higher v r = zero.
Proof. intros L H. apply wsum_zero. intros i Hi. apply in_seq in Hi. apply total_none. rewrite xw_fst. intros x Hx. apply H. apply (in_after i); [lia|lia|assumption]. Qed.

Definition ns : list (list W) := map local_counts (seq 0 (length parts)).
Lemma ns_nth r : (r < length parts)%nat -> nth r ns [] = local_counts r.
Proof. intros L. unfold ns. rewrite (nth_indep _ [] (local_counts 0)) by (rewrite map_length, seq_length; lia). rewrite map_nth, seq_nth by lia. reflexivity. Qed.
Lemma pairs_eq {B C} (f : list Z -> B) (g : list W -> C) : combine (map f parts) (map g ns) = map (fun i => (f (nth i parts []), g (local_counts i))) (seq 0 (length parts)).
Proof.
  unfold ns. rewrite map_map. assert (map f parts = map (fun i => f (nth i parts [])) (seq 0 (length parts))) as ->.
  { apply nth_error_ext. intros i. rewrite !nth_error_map', nth_error_seq. destruct (Nat.ltb_spec i (length parts)); cbn [option_map]; [|now rewrite (proj2 (nth_error_None parts i)) by lia]. rewrite (nth_error_nth' parts [] H). reflexivity. }
  generalize (seq 0 (length parts)). intros l. induction l; cbn; congruence.
Qed.
Lemma firstn_seq a n k : firstn k (seq a n) = seq a (Nat.min k n).
Proof. revert a n. induction k as [|k IH]; intros a [|n]; cbn; auto. now rewrite IH. Qed.
Lemma skipn_seq a n k : skipn k (seq a n) = seq (a + k) (n - k).
Proof. revert a n. induction k as [|k IH]; intros a [|n]; cbn [skipn Nat.sub seq]; rewrite ?Nat.add_0_r; auto. rewrite IH. f_equal; lia. Qed.

Lemma lower_contrib r x0 : (r < length parts)%nat -> hd_error (nth r parts []) = Some x0 ->
  wsum zero add (map (contrib x0) (rev (firstn r (combine (tails parts) (tails ns))))) = lower x0 r.
Proof.
  intros L E. rewrite map_rev, wsum_rev. unfold tails. rewrite pairs_eq, firstn_map, firstn_seq, map_map, Nat.min_l by lia. unfold lower. f_equal. apply map_ext_in. intros i Hi. apply in_seq in Hi.
  destruct (around r L) as (_ & _ & B & _). destruct (nth r parts []) as [|h l] eqn:EP; [discriminate|]. injection E as ->.
  destruct (around i ltac:(lia)) as (_ & Si & _).
  unfold local_counts. destruct (last_error (nth i parts [])) as [t|] eqn:ET.
  - destruct (sorted_last _ t Si ET) as [It Lt]. rewrite counted_last by (pose proof (off_le i t ltac:(lia) It); lia). cbn [contrib opt_eqb]. replace (t + 1 - 1) with t by lia. destruct (Z.eqb_spec t x0) as [->|N]; [reflexivity|].
    symmetry. apply total_none. rewrite xw_fst. intros x Hx. pose proof (B t x0 (in_before i r t ltac:(lia) ltac:(lia) It) (or_introl eq_refl)). specialize (Lt x Hx). lia.
  - apply last_error_none in ET. cbn. unfold xw. now rewrite ET.
Qed.
Lemma higher_contrib r x1 : (r < length parts)%nat -> last_error (nth r parts []) = Some x1 ->
  wsum zero add (map (contrib x1) (skipn (S r) (combine (heads parts) (heads ns)))) = higher x1 r.
Proof.
  intros L E. unfold heads. rewrite pairs_eq, skipn_map, skipn_seq, map_map. unfold higher. f_equal. apply map_ext_in. intros i Hi. apply in_seq in Hi.
  destruct (around r L) as (_ & Sr & _ & A & _). destruct (sorted_last _ x1 Sr E) as [I1 _]. destruct (around i ltac:(lia)) as (_ & Si & Bi & _ & Sb & _).
  unfold local_counts. destruct (last_error (nth i parts [])) as [t|] eqn:ET.
  - destruct (nth i parts []) as [|h l] eqn:EP; [discriminate|]. destruct (sorted_last _ t Si ET) as [It Lt]. destruct (sorted_head _ h Si eq_refl) as [Ih Lh].
    rewrite counted_first by (pose proof (off_le i h ltac:(lia) ltac:(rewrite EP; left; reflexivity)); specialize (Lt h Ih); lia).
    cbn [hd_error contrib opt_eqb]. destruct (Z.eqb_spec h x1) as [->|N].
    + destruct (off_cases i x1 ltac:(lia) ltac:(rewrite EP; reflexivity)) as [[C1 C2]|[C1 [C2 C3]]]; [|now rewrite C2].
      exfalso. unfold endd in C1. pose proof (in_before r i x1 ltac:(lia) ltac:(lia) I1) as Ib. destruct (last_error (concat (firstn i parts))) as [p|] eqn:EL.
      * destruct (sorted_last _ p Sb EL) as [_ Lp]. specialize (Lp x1 Ib). lia.
      * apply last_error_none in EL. rewrite EL in Ib. contradiction.
    + symmetry. apply total_none. rewrite xw_fst, EP. intros x Hx. pose proof (A x1 h I1 (in_after i r h ltac:(lia) ltac:(lia) ltac:(rewrite EP; exact Ih))). specialize (Lh x Hx). lia.
  - apply last_error_none in ET. rewrite ET. cbn. unfold xw. now rewrite ET.
Qed.

Lemma before_le_off r h : (r < length parts)%nat -> hd_error (nth r parts []) = Some h -> forall x, In x (concat (firstn r parts)) -> x < endd r /\ x <= off r.
Proof.
  intros L E x Hx. destruct (around r L) as (_ & _ & _ & _ & Sb & _). pose proof (off_cases r h L E) as C. unfold endd in *. destruct (last_error (concat (firstn r parts))) as [p|] eqn:EL.
  - destruct (sorted_last _ p Sb EL) as [_ Lp]. specialize (Lp x Hx). destruct C as [[C1 C2]|[C1 [C2 C3]]]; lia.
  - apply last_error_none in EL. rewrite EL in Hx. contradiction.
Qed.
Lemma rank_counts r x0 x1 : (r < length parts)%nat -> hd_error (nth r parts []) = Some x0 -> last_error (nth r parts []) = Some x1 ->
  add_last add (higher x1 r) (add_first add (lower x0 r) (local_counts r)) = counted all (off r) (x1 + 1).
Proof.
  intros L E0 E1. unfold local_counts. rewrite E1. destruct (around r L) as (_ & S & B & A & Sb & _). destruct (sorted_last _ x1 S E1) as [I1 L1]. destruct (sorted_head _ x0 S E0) as [I0 L0].
  pose proof (off_le r x0 L I0) as O0. pose proof (L0 x1 I1) as O1. pose proof (before_le_off r x0 L E0) as BO. replace (x1 + 1 - 1) with x1 by lia.
  assert (lower (off r) r = lower x0 r) as LO.
  { destruct (off_cases r x0 L E0) as [[C1 C2]|[C1 [C2 C3]]]; [|now rewrite C2]. transitivity zero; [|symmetry]; (apply lower_zero; [lia|]; intros x Hx; destruct (BO x Hx); lia). }
  assert (forall v, v < x1 -> higher v r = zero) as HZ. { intros v Hv. apply higher_zero; [assumption|]. intros x Hx. pose proof (A x1 x I1 Hx). lia. }
  assert (forall v, off r < v -> lower v r = zero) as LZ. { intros v Hv. apply lower_zero; [lia|]. intros x Hx. destruct (BO x Hx). lia. }
  apply add_both; replace (x1 + 1 - 1) with x1 by lia; try lia.
  - intros v V1 V2. rewrite (total_all v r L), HZ, LZ by lia. now rewrite add_0, add_0l.
  - intros F. rewrite (total_all (off r) r L), HZ, LO by lia. rewrite add_0. apply add_comm.
  - intros F. rewrite (total_all x1 r L), LZ by lia. now rewrite add_0l.
  - intros F. rewrite (total_all (off r) r L), LO. rewrite (add_comm (lower x0 r)). do 2 f_equal. now rewrite F.
Qed.
Lemma shared_iff r x0 : (r < length parts)%nat -> hd_error (nth r parts []) = Some x0 ->
  (existsb (hit x0) (rev (firstn r (combine (tails parts) (tails ns)))) = true <-> endd r = x0 + 1).
Proof.
  intros L E. unfold tails. rewrite pairs_eq, firstn_map, firstn_seq, Nat.min_l by lia. rewrite existsb_exists. split.
  - intros (tc & I & H). rewrite <- in_rev in I. apply in_map_iff in I. destruct I as (i & <- & Hi). apply in_seq in Hi. unfold hit in H. destruct (last_error (local_counts i)); [|discriminate].
    destruct (last_error (nth i parts [])) as [t|] eqn:ET; [|discriminate]. cbn in H. assert (t = x0) by lia. subst t. destruct (last_error_some _ _ ET) as (m & Em).
    assert (In x0 (concat (firstn r parts))) as Ib by (apply (in_before i); [lia|lia|rewrite Em; apply in_or_app; right; left; reflexivity]).
    destruct (before_le_off r x0 L E x0 Ib) as [H1 H2]. destruct (off_cases r x0 L E) as [[C1 C2]|[C1 _]]; lia.
  - intros H. destruct (off_cases r x0 L E) as [[C1 C2]|[C1 [C2 C3]]]; [lia|]. rewrite <- prev_eq in C3. unfold prev, tails in C3.
    assert (forall l : list (option Z), first_some l = Some x0 -> In (Some x0) l) as FS. { induction l as [|[u|] l IH]; cbn; intros Q; [discriminate|injection Q as ->; auto|auto]. }
    apply FS in C3. rewrite <- in_rev in C3. rewrite firstn_map in C3. apply in_map_iff in C3. destruct C3 as (p & Ep & Ip). apply In_nth_error in Ip. destruct Ip as (i & Ei). rewrite nth_error_firstn in Ei.
    destruct (Nat.ltb_spec i r) as [Li|Li]; [|discriminate]. pose proof (nth_error_nth parts i [] Ei) as En. exists (last_error (nth i parts []), last_error (local_counts i)).
    split; [rewrite <- in_rev; apply in_map_iff; exists i; split; [reflexivity|apply in_seq; lia]|]. unfold hit, local_counts. rewrite En, Ep.
    destruct (last_error_some _ _ Ep) as (m & Em). rewrite counted_last; [cbn; lia|]. pose proof (off_le i x0 ltac:(lia) ltac:(rewrite En, Em; apply in_or_app; right; left; reflexivity)). lia.
Qed.

(* the counts of rank r: from its offset, or from the end of the lower ranks *)
Definition result (shared : bool) (r : nat) : list W :=
  match last_error (nth r parts []) with Some x1 => counted all (if shared then off r else endd r) (x1 + 1) | None => [] end.
Lemma rank_ok shared r : (r < length parts)%nat ->
  (let n := nth r ns [] in
       match hd_error (nth r parts []), last_error (nth r parts []) with
       | Some x0, Some x1 =>
           let '(n, anyshared) := add_lower add x0 (rev (firstn r (combine (tails parts) (tails ns)))) n in
           let n := add_higher add x1 (skipn (S r) (combine (heads parts) (heads ns))) n in
           if negb shared && anyshared then skipn 1 n else n
       | _, _ => n
       end) = result shared r.
Proof.
  intros L. cbv zeta. rewrite (ns_nth r L). unfold result. destruct (hd_error (nth r parts [])) as [x0|] eqn:E0.
  - destruct (last_error (nth r parts [])) as [x1|] eqn:E1; [|apply last_error_none in E1; rewrite E1 in E0; discriminate].
    rewrite add_lower_ok, add_higher_ok, (lower_contrib r x0 L E0), (higher_contrib r x1 L E1), (rank_counts r x0 x1 L E0 E1).
    destruct shared; [reflexivity|]. cbn [negb andb]. pose proof (shared_iff r x0 L E0) as SI. destruct (existsb _ _) eqn:EX.
    + pose proof (proj1 SI eq_refl) as H. destruct (off_cases r x0 L E0) as [[C1 C2]|[C1 [C2 C3]]]; [lia|]. rewrite H, C2. destruct (around r L) as (_ & S & _). destruct (sorted_last _ x1 S E1) as [_ L1]. destruct (sorted_head _ x0 S E0) as [I0 _]. specialize (L1 x0 I0).
      rewrite <- (counted_app all x0 (x0 + 1) (x1 + 1)) by lia. assert (length (counted all x0 (x0 + 1)) = 1%nat) as Len by (rewrite counted_length; lia).
      destruct (counted all x0 (x0 + 1)) as [|w [|w' l]]; try discriminate. reflexivity.
    + destruct (off_cases r x0 L E0) as [[C1 C2]|[C1 [C2 C3]]]; [now rewrite C2|]. rewrite C1 in SI. assert (false = true) by (apply SI; reflexivity). discriminate.
  - assert (nth r parts [] = []) as EP by (destruct (nth r parts []); [reflexivity|discriminate]). unfold local_counts. rewrite EP. reflexivity.
Qed.
Lemma endd_step r : (r < length parts)%nat -> endd (S r) = match last_error (nth r parts []) with Some x => x + 1 | None => endd r end.
Proof.
  intros L. unfold endd. assert (firstn (S r) parts = firstn r parts ++ [nth r parts []]) as ->.
  { clear -L. revert r L. induction parts as [|p ps IH]; intros [|r] L; cbn in *; try lia; [reflexivity|]. f_equal. apply IH. lia. }
  rewrite concat_app, last_error_app. cbn [concat]. rewrite app_nil_r. destruct (last_error (nth r parts [])); reflexivity.
Qed.
Lemma endd_nonneg r : (r <= length parts)%nat -> 0 <= endd r.
Proof.
  intros L. unfold endd. destruct (last_error (concat (firstn r parts))) as [p|] eqn:E; [|lia]. apply last_error_some in E. destruct E as (m & E).
  assert (0 <= p); [|lia]. apply nonneg. unfold global. rewrite <- (firstn_skipn r parts), concat_app, E. apply in_or_app. left. apply in_or_app. right. left. reflexivity.
Qed.
Lemma results_prefix k : (k <= length parts)%nat -> concat (map (result false) (seq 0 k)) = counted all 0 (endd k).
Proof.
  induction k as [|k IH]; intros L; [reflexivity|]. rewrite seq_S, map_app, concat_app, IH by lia. cbn [map concat]. rewrite app_nil_r. cbn [Nat.add]. rewrite (endd_step k) by lia. unfold result.
  destruct (last_error (nth k parts [])) as [x|] eqn:E; [|apply app_nil_r]. apply counted_app; [apply endd_nonneg; lia|].
  destruct (around k ltac:(lia)) as (G & S & B & _ & Sb & _). destruct (sorted_last _ x S E) as [Ix _]. unfold endd. destruct (last_error (concat (firstn k parts))) as [p|] eqn:EP.
  - destruct (sorted_last _ p Sb EP) as [Ip _]. specialize (B p x Ip Ix). lia.
  - assert (0 <= x); [|lia]. apply nonneg. rewrite G. apply in_or_app. right. apply in_or_app. auto.
Qed.
Lemma some_rank : exists r x, (r < length parts)%nat /\ last_error (nth r parts []) = Some x.
Proof.
  destruct (global parts) as [|g gs] eqn:E; [contradiction|]. assert (In g (global parts)) as I by (rewrite E; left; reflexivity). unfold global in I. apply in_concat in I. destruct I as (p & Ip & Ig).
  apply (In_nth _ _ []) in Ip. destruct Ip as (r & L & E2). exists r. destruct (last_error (nth r parts [])) as [x|] eqn:EL; [exists x; auto|]. apply last_error_none in EL. subst p. rewrite EL in Ig. contradiction.
Qed.
Lemma bincount_ok_aux shared : bincount zero add shared parts ws = da_init (map (result shared) (seq 0 (length parts))).
Proof.
  unfold bincount. rewrite bincount_local_ok. cbn [rbind]. fold ns. rewrite da_init_ok.
  - cbn [rbind]. f_equal. apply map_ext_in. intros r Hr. apply in_seq in Hr. apply rank_ok. lia.
  - destruct some_rank as (r & x & L & E). intros H. assert (local_counts r = []) as Z.
    { rewrite <- (ns_nth r L). unfold global in H. destruct (nth r ns []) as [|w l] eqn:EN; [reflexivity|]. exfalso. assert (In w (concat ns)); [|rewrite H in *; contradiction]. apply in_concat. exists (nth r ns []). rewrite EN.
      split; [|left; reflexivity]. rewrite <- EN. apply nth_In. unfold ns. rewrite map_length, seq_length. exact L. }
    unfold local_counts in Z. rewrite E in Z. apply (f_equal (@length W)) in Z. rewrite counted_length in Z. cbn in Z. destruct (last_error_some _ _ E) as (m & Em). pose proof (off_le r x L ltac:(rewrite Em; apply in_or_app; right; left; reflexivity)). lia.
Qed.
Lemma bincount_shared_ok : bincount zero add true parts ws = Ok (map (result true) (seq 0 (length parts))).
Proof.
  rewrite bincount_ok_aux. apply da_init_ok. destruct some_rank as (r & x & L & E). unfold global. intros H. assert (result true r = []) as Z.
  { destruct (result true r) as [|w l] eqn:EN; [reflexivity|]. exfalso. assert (In w (concat (map (result true) (seq 0 (length parts))))); [|rewrite H in *; contradiction]. apply in_concat. exists (result true r). rewrite EN.
    split; [|left; reflexivity]. rewrite <- EN. apply in_map, in_seq. lia. }
  unfold result in Z. rewrite E in Z. apply (f_equal (@length W)) in Z. rewrite counted_length in Z. cbn in Z. destruct (last_error_some _ _ E) as (m & Em). pose proof (off_le r x L ltac:(rewrite Em; apply in_or_app; right; left; reflexivity)). lia.
Qed.
Lemma bincount_unshared_ok : exists out, bincount zero add false parts ws = Ok out /\ global out = counted all 0 (zmax (global parts) + 1).
Proof.
  assert (endd (length parts) = zmax (global parts) + 1) as EE.
  { unfold endd. rewrite firstn_all. change (concat parts) with (global parts). destruct (last_error (global parts)) as [x|] eqn:E; [|apply last_error_none in E; contradiction].
    rewrite <- (map_id (global parts)) at 1. rewrite (map_ext (fun y : Z => y) (fun y => y - 0)) by (intros; lia). rewrite (zmax_last (global parts) x 0 sorted E nonneg). lia. }
  assert (0 <= zmax (global parts)) as P. { destruct (global parts) as [|g gs] eqn:E; [contradiction|]. pose proof (zmax_ge (g :: gs) g (or_introl eq_refl)). assert (0 <= g) by (apply nonneg; left; reflexivity). lia. }
  exists (map (result false) (seq 0 (length parts))). rewrite bincount_ok_aux. unfold global at 1. rewrite results_prefix, EE by lia. split; [|reflexivity]. apply da_init_ok. unfold global at 1. rewrite results_prefix, EE by lia.
  intros H. apply (f_equal (@length W)) in H. rewrite counted_length in H. cbn in H. lia.
Qed.
End Bin.
