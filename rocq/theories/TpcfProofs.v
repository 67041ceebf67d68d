From Verif Require Import Base Num PairModel TpcfModel.
From Coq Require Import String.
Local Open Scope Z_scope.
Local Notation length := List.length.

(* ---- numbers ---- *)
Lemma nsum_some l : nsum (map Some l) = Some (qsum l).
Proof. induction l as [|x l IH]; [reflexivity|]. cbn [map]. unfold nsum in *. cbn [fold_right]. rewrite IH. reflexivity. Qed.
Lemma nsum_none l : In None l -> nsum l = None.
Proof. induction l as [|x l IH]; intros H; [destruct H|]. unfold nsum in *. cbn [fold_right]. destruct H as [ -> |H]; [reflexivity|]. rewrite (IH H). destruct x; reflexivity. Qed.
Lemma nsum_app a b : nsum (a ++ b) = nlift Qcplus (nsum a) (nsum b).
Proof.
  induction a as [|x a IH].
  - cbn [app]. change (nsum []) with (Some 0%Qc). destruct (nsum b) as [y|]; [|reflexivity]. cbn [nlift]. f_equal. ring.
  - cbn [app]. unfold nsum in *. cbn [fold_right]. rewrite IH. destruct x as [x|], (fold_right _ _ a) as [y|], (fold_right _ _ b) as [z|]; try reflexivity. cbn [nlift]. f_equal. ring.
Qed.
Lemma diff_cons x y l : diff (x :: y :: l) = (y - x)%Qc :: diff (y :: l). Proof. reflexivity. Qed.
Lemma diff_length : forall l, length (diff l) = (length l - 1)%nat.
Proof. intros l. unfold diff. rewrite map_length, combine_length. destruct l; cbn [tl length]; lia. Qed.
Lemma diff_app : forall a m b, diff (a ++ m :: b) = diff (a ++ [m]) ++ diff (m :: b).
Proof.
  induction a as [|x a IH]; intros m b; [reflexivity|]. destruct a as [|y a]; [reflexivity|]. cbn [app] in *. rewrite !diff_cons, IH. reflexivity.
Qed.
Lemma diff_sum : forall l x, qsum (diff (x :: l)) = (last (x :: l) x - x)%Qc.
Proof.
  induction l as [|y l IH]; intros x; [cbn [last]; change (qsum (diff [x])) with 0%Qc; ring|]. rewrite diff_cons, qsum_cons, IH. cbn [last].
  assert (E : forall k (d e : Qc), last (y :: k) d = last (y :: k) e) by (intros k; generalize y; induction k as [|z k IK]; intros w d e; [reflexivity|]; cbn [last]; apply IK).
  destruct l as [|z l]; [ring|]. change (last (z :: l) x) with (last (y :: z :: l) x). change (last (z :: l) y) with (last (y :: z :: l) y). rewrite (E (z :: l) x y). ring.
Qed.
Lemma combine_app_eq {A B} : forall (a : list A) (b : list B) a' b', length a = length b -> combine (a ++ a') (b ++ b') = combine a b ++ combine a' b'.
Proof. induction a as [|x a IH]; intros [|y b] a' b' E; try discriminate; [reflexivity|]. cbn [app combine]. f_equal. apply IH. injection E. auto. Qed.

(* ---- wp ---- *)
Lemma wp_app (l r : list Qc) m (c1 c2 : list num) : length c1 = length l -> length c2 = length r ->
  wp_row (l ++ m :: r) (c1 ++ c2) = nlift Qcplus (wp_row (l ++ [m]) c1) (wp_row (m :: r) c2).
Proof.
  intros A B. unfold wp_row. rewrite diff_app, combine_app_eq, map_app, nsum_app; [reflexivity|]. rewrite diff_length, app_length. cbn [length]. lia.
Qed.
Lemma combine_repeat {A B} (a : A) : forall (l : list B), combine (repeat a (length l)) l = map (fun x => (a, x)) l.
Proof. induction l as [|x l IH]; [reflexivity|]. cbn [length repeat combine map]. rewrite IH. reflexivity. Qed.
Lemma wp_const l x c : wp_row (x :: l) (repeat (Some c) (length l)) = Some (Q2Qc 2 * c * (last (x :: l) x - x))%Qc.
Proof.
  unfold wp_row. assert (E : length l = length (diff (x :: l))) by (rewrite diff_length; cbn [length]; lia). rewrite E, combine_repeat, map_map. cbn [fst snd option_map].
  rewrite <- (map_map (fun d => Q2Qc 2 * c * d)%Qc Some), nsum_some. f_equal. rewrite qsum_map_scale, map_id, diff_sum. reflexivity.
Qed.
Lemma in_combine_l_ex {A B} : forall (a : list A) (b : list B) x, length a = length b -> In x a -> exists y, In (x, y) (combine a b).
Proof. induction a as [|z a IH]; intros [|y b] x E H; try discriminate; [destruct H|]. destruct H as [ -> |H]; [exists y; left; reflexivity|]. destruct (IH b x) as [y' Y]; [injection E; auto|exact H|]. exists y'. right. exact Y. Qed.
Lemma wp_nan edges corr : length corr = (length edges - 1)%nat -> (wp_row edges corr = None <-> In None corr).
Proof.
  intros E. unfold wp_row. split; intros H.
  - destruct (existsb (fun x : num => match x with None => true | _ => false end) corr) eqn:X; [apply existsb_exists in X; destruct X as ([x|] & I & X); [discriminate|exact I]|exfalso].
    assert (N : ~ In None corr) by (intros I; assert (Y : existsb (fun x : num => match x with None => true | _ => false end) corr = true) by (apply existsb_exists; exists None; auto); congruence).
    assert (Q : forall l d, ~ In None l -> exists k, map (fun t : num * Qc => option_map (fun c => Q2Qc 2 * c * snd t)%Qc (fst t)) (combine l d) = map Some k).
    { induction l as [|x l IH]; intros d NI; [exists []; reflexivity|]. destruct d as [|y d]; [exists []; reflexivity|]. destruct x as [x|]; [|exfalso; apply NI; left; reflexivity]. destruct (IH d) as [k K]; [intros I; apply NI; right; exact I|].
      exists ((Q2Qc 2 * x * y)%Qc :: k). cbn [combine map fst snd option_map]. rewrite K. reflexivity. }
    destruct (Q corr (diff edges) N) as [k K]. assert (Z : nsum (map Some k) = None) by (rewrite <- K; exact H). rewrite nsum_some in Z. discriminate.
  - apply nsum_none. destruct (in_combine_l_ex corr (diff edges) None) as [y Y]; [rewrite diff_length; exact E|exact H|]. apply in_map_iff. exists (None, y). split; [reflexivity|exact Y].
Qed.

(* ---- multipoles ---- *)
Lemma pole_some edges ell vals : length vals = (length edges - 1)%nat ->
  pole edges ell (map Some vals) = Some (qsum (map (fun t => fst t * (zq (2 * Z.of_nat ell + 1) * legendre ell (fst (snd t))) * snd (snd t))%Qc (combine vals (combine (mids edges) (diff edges)))) / qsum (diff edges))%Qc.
Proof.
  intros E. unfold pole.
  assert (M : forall (v : list Qc) (d : list (Qc * Qc)), map (fun t => let '(c, (m, d)) := t in option_map (fun c => c * (zq (2 * Z.of_nat ell + 1) * legendre ell m) * d)%Qc c) (combine (map Some v) d)
      = map Some (map (fun t => fst t * (zq (2 * Z.of_nat ell + 1) * legendre ell (fst (snd t))) * snd (snd t))%Qc (combine v d))).
  { induction v as [|x v IH]; intros [|[m y] d]; try reflexivity. cbn [map combine option_map fst snd]. rewrite IH. reflexivity. }
  rewrite M, nsum_some. reflexivity.
Qed.

Lemma mids_length l : length (mids l) = (length l - 1)%nat.
Proof. unfold mids. rewrite map_length, combine_length. destruct l; cbn [tl length]; lia. Qed.
Lemma map_snd_combine {A B C} (f : B -> C) : forall (a : list A) (b : list B), length a = length b -> map (fun t => f (snd t)) (combine a b) = map f b.
Proof. induction a as [|x a IH]; intros [|y b] E; try discriminate; [reflexivity|]. cbn [combine map snd]. f_equal. apply IH. injection E. auto. Qed.
Lemma drop_mid {A B} : forall (v : list A) (d : list B) (m : list B), length v = length d -> length m = length d -> forall g : A -> B -> Qc, map (fun t => g (fst t) (snd (snd t))) (combine v (combine m d)) = map (fun t => g (fst t) (snd t)) (combine v d).
Proof. induction v as [|x v IH]; intros [|y d] [|z m] E F g; try discriminate; [reflexivity|]. cbn [combine map fst snd]. f_equal. apply (IH d m); [injection E; auto|injection F; auto]. Qed.
Lemma combine_nth_sum : forall (v e : list Qc), length v = (length e - 1)%nat ->
  map (fun t => fst t * snd t)%Qc (combine v (diff e)) = map (fun j => nth j v 0 * (nth (S j) e 0 - nth j e 0))%Qc (seq 0 (length v)).
Proof.
  induction v as [|x v IH]; intros [|a [|b e]] E; try reflexivity; try discriminate. rewrite diff_cons. cbn [combine map fst snd length seq nth]. f_equal.
  rewrite <- seq_shift, map_map. rewrite IH by (cbn [length] in *; lia). reflexivity.
Qed.
Lemma monopole_ok edges vals : length vals = (length edges - 1)%nat -> edges <> [] -> (last edges 0 - hd 0 edges <> 0)%Qc ->
  pole edges 0 (map Some vals) = Some (qsum (map (fun j => nth j vals 0 * (nth (S j) edges 0 - nth j edges 0)) (seq 0 (length vals))) / (last edges 0 - hd 0 edges))%Qc.
Proof.
  intros E NE NZ. rewrite (pole_some edges 0 vals E). do 2 f_equal.
  - f_equal. rewrite <- combine_nth_sum by exact E.
    rewrite <- (drop_mid vals (diff edges) (mids edges)) by (rewrite ?mids_length, ?diff_length; auto). apply map_ext. intros [x [m d]]. cbn [fst snd]. unfold legendre. cbn [legendre2 fst]. change (zq (2 * Z.of_nat 0 + 1)) with 1%Qc. ring.
  - f_equal. destruct edges as [|x l]; [contradiction|]. rewrite diff_sum. cbn [hd].
    assert (LD : forall k (y d e : Qc), last (y :: k) d = last (y :: k) e) by (induction k as [|z k IK]; intros w d e; [reflexivity|]; cbn [last]; apply IK). rewrite (LD l x x 0%Qc). reflexivity.
Qed.

(* equal wedges over [0, 1] *)
Lemma diff_map (f : nat -> Qc) : forall n k, diff (map f (seq k (S n))) = map (fun i => f (S i) - f i)%Qc (seq k n).
Proof. induction n as [|n IH]; intros k; [reflexivity|]. change (seq k (S (S n))) with (k :: S k :: seq (S (S k)) n). cbn [map]. rewrite diff_cons. cbn [seq map]. f_equal. exact (IH (S k)). Qed.
Lemma mids_map (f : nat -> Qc) : forall n k, mids (map f (seq k (S n))) = map (fun i => (f (S i) + f i) / Q2Qc 2)%Qc (seq k n).
Proof.
  assert (C : forall x y l, mids (x :: y :: l) = ((y + x) / Q2Qc 2)%Qc :: mids (y :: l)) by reflexivity.
  induction n as [|n IH]; intros k; [reflexivity|]. change (seq k (S (S n))) with (k :: S k :: seq (S (S k)) n). cbn [map]. rewrite C. cbn [seq map]. f_equal. exact (IH (S k)).
Qed.
Lemma odd_squares n : qsum (map (fun j => zq (2 * Z.of_nat j + 1) * zq (2 * Z.of_nat j + 1))%Qc (seq 0 n)) = (zq (Z.of_nat n) * (zq 4 * zq (Z.of_nat n) * zq (Z.of_nat n) - 1) / zq 3)%Qc.
Proof.
  induction n as [|n IH]; [change (zq (Z.of_nat 0)) with 0%Qc; cbn [seq map qsum fold_right]; field; discriminate|].
  rewrite seq_S, map_app, qsum_app, IH. cbn [map plus]. rewrite qsum_cons, qsum_nil. rewrite Nat2Z.inj_succ. unfold Z.succ. rewrite !zq_add, !zq_mul. change (zq 1) with 1%Qc. change (zq 2) with (1 + 1)%Qc. change (zq 3) with (1 + 1 + 1)%Qc. change (zq 4) with (1 + 1 + 1 + 1)%Qc. field. discriminate.
Qed.
Lemma zq_pos_ne n : (0 < n)%nat -> zq (Z.of_nat n) <> 0%Qc.
Proof. intros H E. change 0%Qc with (zq 0) in E. apply zq_inj in E. lia. Qed.
Lemma legendre_2 x : legendre 2 x = ((zq 3 * x * x - 1) / zq 2)%Qc.
Proof. unfold legendre. cbn [legendre2 fst snd]. change (Z.of_nat 0) with 0.  change (zq (2 * 0 + 3)) with (zq 3). change (zq (0 + 1)) with 1%Qc. change (zq (0 + 2)) with (zq 2). field. discriminate. Qed.
Lemma combine_map_same {A B C} (f : A -> B) (g : A -> C) : forall l, combine (map f l) (map g l) = map (fun x => (f x, g x)) l.
Proof. induction l as [|x l IH]; [reflexivity|]. cbn [map combine]. rewrite IH. reflexivity. Qed.
Lemma quadrupole_const N c : (0 < N)%nat -> pole (linspace 0 1 (N + 1)) 2 (repeat (Some c) N) = Some (- (zq 5 * c / (zq 8 * zq (Z.of_nat N) * zq (Z.of_nat N))))%Qc.
Proof.
  intros HN. pose proof (zq_pos_ne N HN) as NZ. replace (repeat (Some c) N) with (map Some (repeat c N)) by (clear; induction N as [|N IH]; [reflexivity|]; cbn [repeat map]; rewrite IH; reflexivity).
  rewrite pole_some by (unfold linspace; rewrite repeat_length, map_length, seq_length; lia). f_equal. unfold linspace. replace (N + 1)%nat with (S N) by lia. replace (S N - 1)%nat with N by lia.
  rewrite diff_map, mids_map. set (n := zq (Z.of_nat N)) in *.
  rewrite combine_map_same.
  rewrite (map_ext _ (fun i => (zq (2 * Z.of_nat i + 1) / (zq 2 * n), 1 / n))%Qc).
  2:{ intros i. rewrite Nat2Z.inj_succ. unfold Z.succ. rewrite !zq_add, !zq_mul. change (zq 1) with 1%Qc. change (Q2Qc 2) with (1 + 1)%Qc. change (zq 2) with (1 + 1)%Qc. f_equal; field; (split; [exact NZ|discriminate]) || exact NZ. }
  assert (R : forall (l : list (Qc * Qc)), length l = N -> combine (repeat c N) l = map (fun x => (c, x)) l) by (intros l <-; apply combine_repeat).
  rewrite R by (rewrite map_length, seq_length; reflexivity). rewrite !map_map. cbn [fst snd].
  rewrite (qsum_map_ext _ (fun i => zq 5 * c * zq 3 / (zq 2 * n * (zq 2 * n) * zq 2 * n) * (zq (2 * Z.of_nat i + 1) * zq (2 * Z.of_nat i + 1)) + - (zq 5 * c / (zq 2 * n)))%Qc).
  2:{ intros i _. rewrite legendre_2. change (zq (2 * Z.of_nat 2 + 1)) with (zq 5). field. split; [exact NZ|discriminate]. }
  rewrite qsum_map_add, qsum_map_scale, odd_squares. fold n.
  assert (K : forall (x : Qc) k, qsum (map (fun _ : nat => x) (seq k N)) = (n * x)%Qc) by (intros x k; replace (map (fun _ : nat => x) (seq k N)) with (repeat x N) by (rewrite <- (seq_length N k) at 1; induction (seq k N) as [|z l IL]; [reflexivity|]; cbn [length repeat map]; rewrite IL; reflexivity); apply qsum_repeat).
  rewrite K.
  assert (D : qsum (map (fun x : nat => (0 + zq (Z.of_nat (S x)) * ((1 - 0) / n) - (0 + zq (Z.of_nat x) * ((1 - 0) / n)))%Qc) (seq 0 N)) = 1%Qc).
  { rewrite (qsum_map_ext _ (fun _ => (1 / n)%Qc)); [rewrite K; field; exact NZ|]. intros i _. rewrite Nat2Z.inj_succ. unfold Z.succ. rewrite zq_add. change (zq 1) with 1%Qc. field. exact NZ. }
  rewrite D. change (zq 8) with (zq 2 * zq 2 * zq 2)%Qc. change (zq 4) with (zq 2 * zq 2)%Qc. field. repeat split; try exact NZ; discriminate.
Qed.
