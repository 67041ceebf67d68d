(* Lemmas about the shared vocabulary of Base.v. *)
From Verif Require Import Base.

Lemma nth_error_ext {A} (l l' : list A) :
  (forall i, nth_error l i = nth_error l' i) -> l = l'.
Proof.
  revert l'; induction l as [|x l IH]; intros [|y l'] H.
  - reflexivity.
  - specialize (H 0%nat); discriminate.
  - specialize (H 0%nat); discriminate.
  - f_equal; [specialize (H 0%nat); simpl in H; congruence|].
    apply IH; intros i; exact (H (S i)).
Qed.

Lemma nth_error_skipn {A} (l : list A) n i :
  nth_error (skipn n l) i = nth_error l (n + i).
Proof.
  revert l; induction n as [|n IH]; intros l; [reflexivity|].
  destruct l as [|x l]; simpl; [destruct i; reflexivity|apply IH].
Qed.

Lemma nth_error_firstn {A} (l : list A) n i :
  nth_error (firstn n l) i = if Nat.ltb i n then nth_error l i else None.
Proof.
  revert l i; induction n as [|n IH]; intros l i.
  - simpl. destruct i; reflexivity.
  - destruct l as [|x l]; simpl.
    + destruct i; simpl; [reflexivity|]. destruct (Nat.ltb _ _); reflexivity.
    + destruct i as [|i]; simpl; [reflexivity|]. rewrite IH.
      change (Nat.ltb (S i) (S n)) with (Nat.ltb i n). reflexivity.
Qed.

Lemma nth_error_map' {A B} (f : A -> B) l i :
  nth_error (map f l) i = option_map f (nth_error l i).
Proof. revert i; induction l as [|x l IH]; intros [|i]; simpl; auto. Qed.

Lemma nth_error_seq a n i :
  nth_error (seq a n) i = if Nat.ltb i n then Some (a + i)%nat else None.
Proof.
  revert a i; induction n as [|n IH]; intros a i; simpl.
  - destruct i; reflexivity.
  - destruct i as [|i]; simpl; [f_equal; lia|].
    rewrite IH. change (Nat.ltb (S i) (S n)) with (Nat.ltb i n).
    destruct (Nat.ltb i n); [f_equal; lia|reflexivity].
Qed.

Lemma nth_error_repeat {A} (x : A) n i :
  nth_error (repeat x n) i = if Nat.ltb i n then Some x else None.
Proof.
  revert i; induction n as [|n IH]; intros i; simpl; [destruct i; reflexivity|].
  destruct i; simpl; [reflexivity|]. rewrite IH. reflexivity.
Qed.

Lemma zlen_app {A} (l l' : list A) : zlen (l ++ l') = zlen l + zlen l'.
Proof. unfold zlen; rewrite app_length; lia. Qed.
Lemma zlen_cons {A} (x : A) l : zlen (x :: l) = 1 + zlen l.
Proof. unfold zlen; simpl length; lia. Qed.
Lemma zlen_nonneg {A} (l : list A) : 0 <= zlen l.
Proof. unfold zlen; lia. Qed.
Lemma zlen_map {A B} (f : A -> B) l : zlen (map f l) = zlen l.
Proof. unfold zlen; rewrite map_length; reflexivity. Qed.

Lemma range_len_nonneg a b s : 0 <= range_len a b s.
Proof.
  unfold range_len.
  destruct (0 <? s) eqn:E; [destruct (a <? b) eqn:F|destruct (s <? 0) eqn:G; [destruct (b <? a) eqn:F|]]; try lia.
  - assert (0 <= (b - a - 1) / s) by (apply Z.div_pos; lia). lia.
  - assert (0 <= (a - b - 1) / (- s)) by (apply Z.div_pos; lia). lia.
Qed.

Lemma py_range_length a b s : zlen (py_range a b s) = range_len a b s.
Proof.
  unfold py_range, zlen. rewrite map_length, seq_length.
  pose proof (range_len_nonneg a b s). lia.
Qed.

(* positions in a range with positive step: exactly those below the stop *)
Lemma range_len_pos_lt a b s i :
  0 < s -> 0 <= i -> (i < range_len a b s <-> a + i * s < b).
Proof.
  intros Hs Hi. unfold range_len.
  rewrite (proj2 (Z.ltb_lt 0 s) Hs).
  destruct (a <? b) eqn:F.
  - apply Z.ltb_lt in F. split; intros H.
    + assert (i <= (b - a - 1) / s) by lia.
      assert (i * s <= (b - a - 1) / s * s) by nia.
      assert ((b - a - 1) / s * s <= b - a - 1).
      { pose proof (Z.mul_div_le (b - a - 1) s Hs). lia. }
      lia.
    + assert (i <= (b - a - 1) / s); [|lia].
      apply Z.div_le_lower_bound; lia.
  - apply Z.ltb_ge in F. split; intros H; [lia|]. nia.
Qed.

Lemma range_len_neg_gt a b s i :
  s < 0 -> 0 <= i -> (i < range_len a b s <-> b < a + i * s).
Proof.
  intros Hs Hi. unfold range_len.
  rewrite (proj2 (Z.ltb_ge 0 s)) by lia. rewrite (proj2 (Z.ltb_lt s 0)) by lia.
  destruct (b <? a) eqn:F.
  - apply Z.ltb_lt in F. split; intros H.
    + assert (i <= (a - b - 1) / (- s)) by lia.
      assert ((a - b - 1) / (- s) * (- s) <= a - b - 1).
      { pose proof (Z.mul_div_le (a - b - 1) (- s)). lia. }
      nia.
    + assert (i <= (a - b - 1) / (- s)); [|lia].
      apply Z.div_le_lower_bound; lia.
  - apply Z.ltb_ge in F. split; intros H; [lia|]. nia.
Qed.

Lemma py_range_nth a b s i :
  nth_error (py_range a b s) i =
  if (Z.of_nat i <? range_len a b s) then Some (a + Z.of_nat i * s) else None.
Proof.
  unfold py_range. rewrite nth_error_map', nth_error_seq.
  destruct (Nat.ltb_spec i (Z.to_nat (range_len a b s)));
  destruct (Z.ltb_spec (Z.of_nat i) (range_len a b s)); simpl; try lia; [f_equal; lia|reflexivity].
Qed.

Lemma in_py_range a b s x :
  In x (py_range a b s) <-> exists i, 0 <= i < range_len a b s /\ x = a + i * s.
Proof.
  unfold py_range. rewrite in_map_iff. split.
  - intros (i & H1 & H2). apply in_seq in H2. exists (Z.of_nat i). lia.
  - intros (i & H1 & ->). exists (Z.to_nat i). split; [rewrite Z2Nat.id by lia; reflexivity|].
    apply in_seq. lia.
Qed.

(* a range with positive step inside [0,n] only holds indices in [0,n) *)
Lemma in_py_range_pos a b s x :
  0 < s -> In x (py_range a b s) -> a <= x < b.
Proof.
  intros Hs H. apply in_py_range in H. destruct H as (i & Hi & ->).
  assert (a + i * s < b) by (apply range_len_pos_lt; lia). nia.
Qed.
Lemma in_py_range_neg a b s x :
  s < 0 -> In x (py_range a b s) -> b < x <= a.
Proof.
  intros Hs H. apply in_py_range in H. destruct H as (i & Hi & ->).
  assert (b < a + i * s) by (apply range_len_neg_gt; lia). nia.
Qed.

Lemma select_app {A} (l : list A) i j : select l (i ++ j) = select l i ++ select l j.
Proof. unfold select. apply flat_map_app. Qed.

Lemma select_nil {A} (l : list A) : select l [] = [].
Proof. reflexivity. Qed.

Lemma znth_some {A} (l : list A) i :
  0 <= i < zlen l -> exists x, znth l i = Some x.
Proof.
  intros H. unfold znth, zlen in *. rewrite (proj2 (Z.ltb_ge i 0)) by lia.
  destruct (nth_error l (Z.to_nat i)) eqn:E; [eauto|].
  apply nth_error_None in E. lia.
Qed.

Lemma znth_none {A} (l : list A) i : i < 0 \/ zlen l <= i -> znth l i = None.
Proof.
  intros H. unfold znth, zlen in *. destruct (Z.ltb_spec i 0); [reflexivity|].
  apply nth_error_None. lia.
Qed.

Definition in_range {A} (l : list A) (i : Z) : Prop := 0 <= i < zlen l.

(* for in-range indices, selection is pointwise: the i-th result is the row
   with the i-th index *)
Lemma select_nth {A} (l : list A) idx k :
  Forall (in_range l) idx ->
  nth_error (select l idx) k =
  match nth_error idx k with Some i => znth l i | None => None end.
Proof.
  intros H. revert k. induction H as [|i idx Hi _ IH]; intros k.
  - destruct k; reflexivity.
  - cbn [select flat_map]. destruct (znth_some l i Hi) as [x Hx]. rewrite Hx.
    destruct k as [|k]; simpl; [auto|]. apply IH.
Qed.

Lemma select_length {A} (l : list A) idx :
  Forall (in_range l) idx -> length (select l idx) = length idx.
Proof.
  intros H. induction H as [|i idx Hi _ IH]; [reflexivity|].
  cbn [select flat_map]. destruct (znth_some l i Hi) as [x Hx]. rewrite Hx.
  simpl. f_equal. exact IH.
Qed.

Lemma every_from_nth {A} (l : list A) step skip i :
  (1 <= step)%nat ->
  nth_error (every_from skip step l) i = nth_error l (skip + i * step).
Proof.
  intros Hs. revert skip i. induction l as [|x l IH]; intros skip i.
  - simpl. destruct i, (skip + _)%nat; reflexivity.
  - destruct skip as [|skip]; cbn [every_from].
    + destruct i as [|i]; [reflexivity|]. cbn [nth_error]. rewrite IH.
      replace (0 + S i * step)%nat with (S ((step - 1) + i * step)) by lia. reflexivity.
    + rewrite IH. reflexivity.
Qed.

Lemma every_nth {A} (l : list A) step i :
  (1 <= step)%nat -> nth_error (every step l) i = nth_error l (i * step).
Proof. intros H. unfold every. rewrite every_from_nth by exact H. reflexivity. Qed.

Lemma every_1 {A} (l : list A) : every 1 l = l.
Proof. apply nth_error_ext; intros i. rewrite every_nth by lia. f_equal; lia. Qed.

Lemma sub_length {A} (l : list A) a b :
  0 <= a <= b -> b <= zlen l -> zlen (sub l a b) = b - a.
Proof.
  intros H1 H2. unfold sub, zlen in *. rewrite firstn_length, skipn_length. lia.
Qed.

Lemma sub_nth {A} (l : list A) a b i :
  0 <= a <= b ->
  nth_error (sub l a b) i =
  if (a + Z.of_nat i <? b) then nth_error l (Z.to_nat a + i) else None.
Proof.
  intros H. unfold sub. rewrite nth_error_firstn, nth_error_skipn.
  destruct (Nat.ltb_spec i (Z.to_nat (b - a)));
  destruct (Z.ltb_spec (a + Z.of_nat i) b); try lia; reflexivity.
Qed.

Lemma range_in_range {A} (l : list A) a b s :
  0 <= a -> b <= zlen l -> 0 < s -> Forall (in_range l) (py_range a b s).
Proof.
  intros Ha Hb Hs. apply Forall_forall. intros x Hx.
  apply in_py_range_pos in Hx; [|exact Hs]. unfold in_range. lia.
Qed.

(* reading a contiguous block and striding it = selecting the strided range *)
Lemma every_sub_select {A} (l : list A) a b s :
  0 <= a <= b -> b <= zlen l -> 0 < s ->
  every (Z.to_nat s) (sub l a b) = select l (py_range a b s).
Proof.
  intros Hab Hb Hs. apply nth_error_ext; intros i.
  rewrite every_nth by lia. rewrite sub_nth by exact Hab.
  rewrite select_nth by (apply range_in_range; lia).
  rewrite py_range_nth.
  replace (Z.of_nat (i * Z.to_nat s)) with (Z.of_nat i * s) by nia.
  pose proof (range_len_pos_lt a b s (Z.of_nat i) Hs ltac:(lia)) as R.
  destruct (Z.ltb_spec (a + Z.of_nat i * s) b);
  destruct (Z.ltb_spec (Z.of_nat i) (range_len a b s)); try tauto; try lia.
  unfold znth. rewrite (proj2 (Z.ltb_ge _ 0)) by nia.
  f_equal. nia.
Qed.

Lemma sub_select {A} (l : list A) a b :
  0 <= a <= b -> b <= zlen l -> sub l a b = select l (py_range a b 1).
Proof.
  intros H1 H2. rewrite <- every_sub_select by lia. change (Z.to_nat 1) with 1%nat.
  symmetry; apply every_1.
Qed.

Lemma sub_empty {A} (l : list A) a : sub l a a = [].
Proof. unfold sub. rewrite Z.sub_diag. reflexivity. Qed.

Lemma sub_full {A} (l : list A) : sub l 0 (zlen l) = l.
Proof.
  unfold sub, zlen. change (Z.to_nat 0) with 0%nat. simpl skipn.
  rewrite Z.sub_0_r, Nat2Z.id. apply firstn_all.
Qed.

Lemma sub_app_split {A} (l : list A) a b c :
  0 <= a <= b -> b <= c -> sub l a b ++ sub l b c = sub l a c.
Proof.
  intros H1 H2. unfold sub.
  replace (Z.to_nat (c - a)) with (Z.to_nat (b - a) + Z.to_nat (c - b))%nat by lia.
  replace (Z.to_nat b) with (Z.to_nat (b - a) + Z.to_nat a)%nat by lia.
  generalize (Z.to_nat (b - a)) (Z.to_nat (c - b)); intros n m.
  rewrite (Nat.add_comm n (Z.to_nat a)).
  generalize (Z.to_nat a); intros k. clear.
  revert l n; induction k as [|k IH]; intros l n; simpl.
  - revert n; induction l as [|x l IH]; intros n.
    + now rewrite !firstn_nil, skipn_nil, firstn_nil.
    + destruct n; simpl; [reflexivity|]. f_equal. apply IH.
  - destruct l; simpl; [now rewrite !firstn_nil|]. apply IH.
Qed.

Lemma sub_app_l {A} (l l' : list A) a b :
  0 <= a <= b -> b <= zlen l -> sub (l ++ l') a b = sub l a b.
Proof.
  intros H1 H2. apply nth_error_ext; intros i. rewrite !sub_nth by lia.
  destruct (Z.ltb_spec (a + Z.of_nat i) b); [|reflexivity].
  apply nth_error_app1. unfold zlen in *; lia.
Qed.

Lemma sub_app_r {A} (l l' : list A) a b :
  0 <= a <= b -> sub (l ++ l') (zlen l + a) (zlen l + b) = sub l' a b.
Proof.
  intros H1. pose proof (zlen_nonneg l). apply nth_error_ext; intros i. rewrite !sub_nth by lia.
  destruct (Z.ltb_spec (zlen l + a + Z.of_nat i) (zlen l + b));
  destruct (Z.ltb_spec (a + Z.of_nat i) b); try lia; [|reflexivity].
  rewrite nth_error_app2 by (unfold zlen in *; lia). f_equal. unfold zlen in *; lia.
Qed.

Lemma cumsum_from_length a l : length (cumsum_from a l) = length l.
Proof. revert a; induction l; intros; simpl; auto. Qed.

Lemma zsum_app l l' : zsum (l ++ l') = zsum l + zsum l'.
Proof. induction l; simpl; lia. Qed.

Lemma zsum_nonneg l : Forall (fun x => 0 <= x) l -> 0 <= zsum l.
Proof. intros H; induction H; simpl; lia. Qed.

Lemma zlen_concat {A} (ll : list (list A)) : zlen (concat ll) = zsum (map zlen ll).
Proof. induction ll; simpl; [reflexivity|]. rewrite zlen_app, IHll. reflexivity. Qed.

Lemma rall_ok {A} (l : list A) : rall (map Ok l) = Ok l.
Proof. induction l; simpl; [reflexivity|]. rewrite IHl. reflexivity. Qed.

Lemma slice_indices_spec start stop step n a b s :
  0 <= n -> slice_indices start stop step n = Ok (a, b, s) ->
  s <> 0 /\
  (0 < s -> 0 <= a <= n /\ 0 <= b <= n) /\
  (s < 0 -> -1 <= a <= n - 1 /\ -1 <= b <= n - 1).
Proof.
  intros Hn H. unfold slice_indices in H.
  set (st := match step with None => 1 | Some v => v end) in *.
  destruct (Z.eqb_spec st 0) as [|Hst]; [discriminate|].
  destruct (Z.ltb_spec 0 st); injection H as <- <- <-; (split; [exact Hst|]);
  split; intros ?; try lia; unfold clip_start; destruct start, stop;
  repeat match goal with |- context [?x <? 0] => destruct (Z.ltb_spec x 0) end; lia.
Qed.

(* every Python slice only touches existing rows, so its length is the range length *)
Lemma py_slice_in_range {A} (l : list A) start stop step a b s :
  slice_indices start stop step (zlen l) = Ok (a, b, s) ->
  Forall (in_range l) (py_range a b s).
Proof.
  intros H. apply slice_indices_spec in H; [|apply zlen_nonneg].
  destruct H as (H0 & Hp & Hm). apply Forall_forall; intros x Hx.
  destruct (Z.ltb_spec 0 s) as [Hs|Hs].
  - apply in_py_range_pos in Hx; [|exact Hs]. unfold in_range. specialize (Hp Hs). lia.
  - assert (s < 0) as Hs' by lia. apply in_py_range_neg in Hx; [|exact Hs'].
    unfold in_range. specialize (Hm Hs'). lia.
Qed.

Lemma skipn_plus {A} (l : list A) x y : skipn (x + y) l = skipn y (skipn x l).
Proof. revert l; induction x as [|x IH]; intros [|a l]; simpl; auto; rewrite skipn_nil; reflexivity. Qed.

Lemma firstn_plus {A} (l : list A) x y : firstn (x + y) l = firstn x l ++ firstn y (skipn x l).
Proof. revert l; induction x as [|x IH]; intros [|a l]; simpl; auto; [rewrite firstn_nil; reflexivity|f_equal; apply IH]. Qed.
