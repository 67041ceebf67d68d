From Verif Require Import Base BaseProofs.
From Coq Require Import Reals Lra.
From Verif Require Import RandModel RandProofs ThreeModel ThreeProofs SkyModel ConvModel MockModel MockSpec MockProofs MockMean DftModel DftSpec DftProofs DftMain UniqModel PrjModel PrjSpec PrjProofs.
Local Open Scope R_scope.
Local Notation length := List.length.

(* the other half of the modes *)
Lemma seq_flip (h : nat -> R) : forall k a b, rsum (map h (seq a k)) = rsum (map (fun j => h (a + b + k - 1 - j)%nat) (seq b k)).
Proof.
  induction k as [|k IH]; intros a b; [reflexivity|].
  rewrite (seq_S k b), map_app, rsum_app. cbn [map seq]. unfold rsum at 1. cbn [fold_right]. fold (rsum (map h (seq (S a) k))).
  unfold rsum at 3. cbn [fold_right]. rewrite (IH (S a) b).
  replace (a + b + S k - 1 - (b + k))%nat with a by lia.
  rewrite (rsum_ext' (fun j => h (S a + b + k - 1 - j)%nat) (fun j => h (a + b + S k - 1 - j)%nat)).
  - ring.
  - intros j _. f_equal. lia.
Qed.
Definition Wj (n j : nat) : R := if (j =? n / 2)%nat then 1 else if (j =? 0)%nat then 1 else 2.
Lemma half_sum n (h : nat -> R) : n = 1%nat \/ Nat.even n = true -> (0 < n)%nat -> (forall j, (j < n)%nat -> h ((n - j) mod n)%nat = h j) ->
  rsum (map (fun j => Wj n j * h j) (seq 0 (n / 2 + 1))) = rsum (map h (seq 0 n)).
Proof.
  intros HE Hn HS. destruct HE as [->|HE].
  - change (seq 0 (1 / 2 + 1)) with [0%nat]. change (seq 0 1) with [0%nat]. unfold rsum. cbn [map fold_right]. unfold Wj. cbn. ring.
  - apply Nat.even_spec in HE. destruct HE as [p ->]. destruct p as [|p]; [lia|].
    assert (E2 : (2 * S p / 2 = S p)%nat) by (rewrite Nat.mul_comm, Nat.div_mul; lia). rewrite E2.
    assert (S1 : seq 0 (S p + 1) = [0%nat] ++ seq 1 p ++ [S p]) by (rewrite (seq_app (S p) 1 0); reflexivity).
    assert (S2 : seq 0 (2 * S p) = ([0%nat] ++ seq 1 p ++ [S p]) ++ seq (S (S p)) p) by (replace (2 * S p)%nat with ((S p + 1) + p)%nat by lia; rewrite (seq_app (S p + 1) p 0), S1; do 2 f_equal; lia).
    rewrite S1, S2, !map_app, !rsum_app. unfold Wj at 1 3. rewrite E2.
    unfold rsum at 1 3 4 6. cbn [map fold_right]. rewrite Nat.eqb_refl. change (0 =? S p)%nat with false. cbn [Nat.eqb].
    rewrite (seq_flip h p (S (S p)) 1).
    rewrite (rsum_ext' (fun j => h (S (S p) + 1 + p - 1 - j)%nat) h).
    + rewrite (rsum_ext' (fun j => Wj (2 * S p) j * h j) (fun j => h j * 2)).
      * rewrite rsum_scr, Nat.eqb_refl. ring.
      * intros j J. apply in_seq in J. unfold Wj. rewrite E2. destruct (j =? S p)%nat eqn:A; [apply Nat.eqb_eq in A; lia|]. destruct (j =? 0)%nat eqn:B; [apply Nat.eqb_eq in B; lia|]. ring.
    + intros j J. apply in_seq in J. rewrite <- (HS j) by lia. f_equal. rewrite Nat.mod_small by lia. lia.
Qed.
(* the mode with the opposite wave vector *)
Fixpoint flipped (s c : list nat) : list nat := match s, c with n :: s, i :: c => ((n - i) mod n)%nat :: flipped s c | _, _ => [] end.
Lemma axis_flip n (h : nat -> R) : rsum (map h (seq 0 n)) = rsum (map (fun i => h ((n - i) mod n)%nat) (seq 0 n)).
Proof.
  destruct n as [|n]; [reflexivity|]. cbn [seq map]. unfold rsum. cbn [fold_right]. fold (rsum (map h (seq 1 n))). fold (rsum (map (fun i => h ((S n - i) mod S n)%nat) (seq 1 n))).
  rewrite Nat.sub_0_r, Nat.mod_same by lia. f_equal. rewrite (seq_flip h n 1 1). apply rsum_ext'. intros j J. apply in_seq in J. rewrite Nat.mod_small by lia. f_equal; lia.
Qed.
Lemma grid_sum n s (h : list nat -> R) : rsum (map h (grid (n :: s))) = rsum (map (fun i => rsum (map (fun c => h (i :: c)) (grid s))) (seq 0 n)).
Proof. cbn [grid]. rewrite rsum_flat. apply rsum_ext'. intros i _. rewrite map_map. reflexivity. Qed.
Lemma grid_flip : forall s (h : list nat -> R), rsum (map h (grid s)) = rsum (map (fun c => h (flipped s c)) (grid s)).
Proof.
  induction s as [|n s IH]; intros h; [reflexivity|]. rewrite !grid_sum. cbn [flipped].
  rewrite (axis_flip n (fun i => rsum (map (fun c => h (i :: c)) (grid s)))). apply rsum_ext'. intros i _. apply (IH (fun c => h ((n - i) mod n :: c)%nat)).
Qed.
Lemma grid_last s n (h : list nat -> R) : rsum (map h (grid (s ++ [n]))) = rsum (map (fun j => rsum (map (fun c => h (c ++ [j])) (grid s))) (seq 0 n)).
Proof.
  revert h. induction s as [|k s IH]; intros h; cbn [app].
  - rewrite grid_sum. reflexivity.
  - rewrite grid_sum. rewrite (rsum_ext' _ (fun i => rsum (map (fun j => rsum (map (fun c => h ((i :: c) ++ [j])) (grid s))) (seq 0 n)))) by (intros i _; apply (IH (fun c => h (i :: c)))).
    rewrite rsum_swap. apply rsum_ext'. intros j _. rewrite grid_sum. reflexivity.
Qed.
Lemma flipped_last : forall s n c j, length c = length s -> flipped (s ++ [n]) (c ++ [j]) = flipped s c ++ [((n - j) mod n)%nat].
Proof. induction s as [|k s IH]; intros n [|i c] j HL; cbn [length] in HL; try discriminate HL; cbn [app flipped]; [reflexivity|]. rewrite IH by lia. reflexivity. Qed.
Lemma grid_length s c : In c (grid s) -> length c = length s.
Proof. intros H. apply in_grid in H. induction H; cbn [length]; congruence. Qed.
Lemma last_app1 (c : list nat) j d : last (c ++ [j]) d = j.
Proof. apply last_last. Qed.
Lemma half_grid s n (h : list nat -> R) : n = 1%nat \/ Nat.even n = true -> (0 < n)%nat ->
  (forall c, In c (grid (s ++ [n])) -> h (flipped (s ++ [n]) c) = h c) ->
  rsum (map (fun m => Wj n (last m 0%nat) * h m) (grid (s ++ [(n / 2 + 1)%nat]))) = rsum (map h (grid (s ++ [n]))).
Proof.
  intros HE Hn HS. rewrite !grid_last.
  rewrite (rsum_ext' _ (fun j => Wj n j * rsum (map (fun c => h (c ++ [j])) (grid s)))).
  - apply (half_sum n (fun j => rsum (map (fun c => h (c ++ [j])) (grid s))) HE Hn).
    intros j Hj. rewrite (grid_flip s (fun c => h (c ++ [((n - j) mod n)%nat]))). apply rsum_ext'. intros c C.
    rewrite <- (flipped_last s n c j) by (apply grid_length; exact C). apply HS. apply in_grid. apply in_grid in C. apply Forall2_app; [exact C|]. constructor; [exact Hj|constructor].
  - intros j _. rewrite <- rsum_scl. apply rsum_ext'. intros c _. rewrite last_app1. reflexivity.
Qed.
(* digitize *)
Definition rising (e : list R) : Prop := forall i x y, nth_error e i = Some x -> nth_error e (S i) = Some y -> x < y.
Lemma rising_tl x e : rising (x :: e) -> rising e.
Proof. intros H i a b A B. apply (H (S i) a b); [exact A|exact B]. Qed.
Lemma rising_hd : forall e x y, rising (x :: e) -> In y e -> x < y.
Proof.
  induction e as [|z e IH]; intros x y H Y; [destruct Y|]. assert (XZ : x < z) by (apply (H 0%nat); reflexivity). destruct Y as [->|Y]; [exact XZ|].
  apply (Rlt_trans _ z); [exact XZ|]. apply IH; [exact (rising_tl _ _ H)|exact Y].
Qed.
Lemma digitize_below : forall e v, (forall y, In y e -> v < y) -> digitize e v = 0%nat.
Proof. unfold digitize. induction e as [|y e IH]; intros v H; [reflexivity|]. cbn [filter]. destruct (Rle_dec y v) as [A|A]; [exfalso; assert (B := H y (or_introl eq_refl)); lra|]. apply IH. intros z Z. apply H. right. exact Z. Qed.
Lemma digitize_cons x e v : digitize (x :: e) v = if Rle_dec x v then S (digitize e v) else digitize e v.
Proof. unfold digitize. cbn [filter]. destruct (Rle_dec x v); reflexivity. Qed.
Lemma digitize_bin : forall e i lo hi v, rising e -> nth_error e i = Some lo -> nth_error e (S i) = Some hi ->
  ((digitize e v =? S i)%nat = true <-> lo <= v < hi).
Proof.
  induction e as [|x e IH]; intros i lo hi v R0 A B; [destruct i; discriminate A|].
  rewrite digitize_cons. destruct i as [|i].
  - change (Some x = Some lo) in A. assert (x = lo) by congruence. subst x. change (nth_error e 0 = Some hi) in B.
    destruct e as [|y e']; [discriminate B|]. change (Some y = Some hi) in B. assert (y = hi) by congruence. subst y.
    assert (LH : lo < hi) by (apply (R0 0%nat); reflexivity).
    destruct (Rle_dec lo v) as [C|C].
    + rewrite digitize_cons. destruct (Rle_dec hi v) as [D|D]; [split; [intros F; apply Nat.eqb_eq in F; lia|lra]|].
      rewrite digitize_below; [split; [lra|reflexivity]|]. intros z Z. assert (E := rising_hd e' hi z (rising_tl _ _ R0) Z). lra.
    + rewrite digitize_below; [split; [discriminate|lra]|]. intros z Z. assert (E := rising_hd (hi :: e') lo z R0 Z). lra.
  - change (nth_error e i = Some lo) in A. change (nth_error e (S i) = Some hi) in B. specialize (IH i lo hi v (rising_tl _ _ R0) A B).
    destruct (Rle_dec x v) as [C|C].
    + change ((digitize e v =? S i)%nat = true <-> lo <= v < hi). exact IH.
    + assert (E := rising_hd e x lo R0 (nth_error_In _ _ A)). rewrite digitize_below; [split; [discriminate|lra]|]. intros z Z. assert (F := rising_hd e x z R0 Z). lra.
Qed.
Lemma arange_nth a b s i x : nth_error (arange a b s) i = Some x -> x = a + INR i * s.
Proof. unfold arange. rewrite nth_error_map', nth_error_seq. intros H. destruct (i <? _)%nat; [|discriminate H]. cbn [option_map] in H. change (0 + i)%nat with i in H. congruence. Qed.
Lemma arange_rising a b s : 0 < s -> rising (arange a b s).
Proof. intros P i x y X Y. apply arange_nth in X. apply arange_nth in Y. subst. rewrite S_INR. lra. Qed.

(* ---- one bin ---- *)
Lemma axes_split axes : some_axes axes -> axes = removelast axes ++ [last axes 0%nat].
Proof. intros HA. apply app_removelast_last. intros ->. destruct HA as (_ & _ & H). cbn [length] in H. lia. Qed.
Lemma sizes_split N axes : some_axes axes -> sizes N axes = sizes N (removelast axes) ++ [ax (last axes 0%nat) N].
Proof. intros HA. unfold sizes. rewrite (axes_split axes HA) at 1. rewrite map_app. reflexivity. Qed.
Lemma half_split N axes : some_axes axes -> half (sizes N axes) = sizes N (removelast axes) ++ [(ax (last axes 0%nat) N / 2 + 1)%nat].
Proof. intros HA. unfold half. rewrite (sizes_split N axes HA), removelast_last, last_last. reflexivity. Qed.
Lemma W_last N axes m : some_axes axes -> W N axes m = Wj (ax (last axes 0%nat) N) (last m 0%nat).
Proof. intros HA. unfold W. rewrite (sizes_split N axes HA), last_last. reflexivity. Qed.
Lemma lifted_flip N axes c : some_axes axes -> mesh_size N -> In c (grid (sizes N axes)) -> lifted axes (flipped (sizes N axes) c) = opposite N (lifted axes c).
Proof.
  destruct N as [[n0 n1] n2]. intros HA (A & B & C) HC. assert (HL := grid_length _ _ HC). unfold sizes in HL. rewrite map_length in HL. clear HC.
  each_axes HA; cbn [length] in HL;
    (destruct c as [|i c]; [discriminate HL|]); try (destruct c as [|j c]; [discriminate HL|]); (destruct c; [|discriminate HL]);
    unfold lifted, spot; cbn [sizes map ax flipped combine find fst snd Nat.eqb opposite]; rewrite ?Nat.sub_0_r, ?Nat.mod_same by lia; reflexivity.
Qed.
Lemma lifted_mode N axes c : some_axes axes -> mesh_size N -> In c (grid (sizes N axes)) -> is_mode N (lifted axes c) /\ flat axes (lifted axes c).
Proof.
  destruct N as [[n0 n1] n2]. intros HA (A & B & C) HC. assert (HL := grid_length _ _ HC). unfold sizes in HL. rewrite map_length in HL. apply in_grid in HC.
  each_axes HA; cbn [length] in HL;
    (destruct c as [|i c]; [discriminate HL|]); try (destruct c as [|j c]; [discriminate HL|]); (destruct c; [|discriminate HL]);
    unfold sizes in HC; cbn [map ax] in HC;
    (split; [unfold lifted, spot; cbn [combine find fst snd Nat.eqb is_mode]; inversion_clear HC as [|? ? ? ? H1 H2]; try (inversion_clear H2 as [|? ? ? ? H3 H4]); repeat split; assumption|
     intros a Ha Hn; destruct a as [|[|[|a]]]; try lia; cbn [In] in Hn; unfold lifted, spot; cbn; reflexivity || (exfalso; apply Hn; auto)]).
Qed.
Lemma lifted_back N axes c : some_axes axes -> In c (grid (sizes N axes)) -> map (fun a => ax a (lifted axes c)) axes = c.
Proof.
  intros HA HC. assert (HL := grid_length _ _ HC). unfold sizes in HL. rewrite map_length in HL. clear HC.
  each_axes HA; cbn [length] in HL;
    (destruct c as [|i c]; [discriminate HL|]); try (destruct c as [|j c]; [discriminate HL|]); (destruct c; [|discriminate HL]);
    unfold lifted, spot; cbn [map ax combine find fst snd Nat.eqb]; reflexivity.
Qed.
Lemma flat_lifted N axes m : some_axes axes -> is_mode N m -> flat axes m ->
  In (map (fun a => ax a m) axes) (grid (sizes N axes)) /\ lifted axes (map (fun a => ax a m) axes) = m.
Proof.
  intros HA HM HF. destruct N as [[n0 n1] n2], m as [[i j] k]. destruct HM as (A & B & C).
  assert (F0 := HF 0%nat ltac:(lia)). assert (F1 := HF 1%nat ltac:(lia)). assert (F2 := HF 2%nat ltac:(lia)). cbn [component nth] in F0, F1, F2.
  each_axes HA; cbn [In] in F0, F1, F2; (split; [apply in_grid; unfold sizes; cbn [map ax]; repeat (constructor; [assumption|]); constructor|
    unfold lifted, spot; cbn [map ax combine find fst snd Nat.eqb];
    try (rewrite F0 by (intros [E|[]]; discriminate E)); try (rewrite F1 by (intros [E|[]]; discriminate E)); try (rewrite F2 by (intros [E|[]]; discriminate E));
    try (rewrite F0 by (intros [E|[E|[]]]; discriminate E)); try (rewrite F1 by (intros [E|[E|[]]]; discriminate E)); try (rewrite F2 by (intros [E|[E|[]]]; discriminate E)); reflexivity]).
Qed.
Lemma size3_k2 N L m : size3 (kvec N L m) = sqrt (k2 N L m).
Proof. unfold size3, k2, norm2. destruct (kvec N L m) as [[x y] z]. reflexivity. Qed.
Lemma size3_opposite N L m : is_mode N m -> size3 (kvec N L (opposite N m)) = size3 (kvec N L m).
Proof. intros M. rewrite !size3_k2, (k2_opposite N L m M). reflexivity. Qed.
(* the modes of a bin *)
Definition members (N : mode) (L : point) (axes : list nat) (e : list R) (b : nat) : list mode :=
  map (lifted axes) (filter (fun m => (digitize e (kmag N L axes m) =? b)%nat) (grid (sizes N axes))).
Lemma ax_component a m : (a < 3)%nat -> ax a m = component a m.
Proof. intros H. destruct m as [[i j] k]. destruct a as [|[|[|a]]]; try lia; reflexivity. Qed.
Lemma last_in (axes : list nat) : axes <> [] -> In (last axes 0%nat) axes.
Proof. induction axes as [|a [|b r] IH]; intros H; [congruence|left; reflexivity|]. right. apply IH. discriminate. Qed.
Lemma last_lt axes : some_axes axes -> (last axes 0 < 3)%nat.
Proof. intros (_ & HA & HL). apply HA, last_in. intros ->. cbn [length] in HL. lia. Qed.
Lemma size_pos N a : mesh_size N -> (a < 3)%nat -> (0 < ax a N)%nat.
Proof. destruct N as [[n0 n1] n2]. intros (A & B & C) H. destruct a as [|[|[|a]]]; try lia; cbn [ax]; assumption. Qed.
Lemma bincount_full N L axes e (h : mode -> R) w b : mesh_size N -> some_axes axes -> even_last N axes ->
  (forall m, is_mode N m -> h (opposite N m) = h m) -> (forall m, length m = length axes -> w m = W N axes m * h (lifted axes m)) ->
  bincount N L axes e w b = rsum (map h (members N L axes e b)).
Proof.
  intros HN HA HE HS HW. unfold bincount, members. rewrite map_map, !rsum_filter.
  rewrite (half_split N axes HA), (sizes_split N axes HA).
  set (n := ax (last axes 0%nat) N). set (s := sizes N (removelast axes)).
  set (h2 := fun c => if (digitize e (kmag N L axes c) =? b)%nat then h (lifted axes c) else 0).
  assert (SL : length axes = length (s ++ [0%nat])).
  { unfold s, sizes. rewrite app_length, map_length. rewrite (axes_split axes HA) at 1. rewrite app_length. reflexivity. }
  rewrite <- (half_grid s n h2).
  - apply rsum_ext'. intros m M. apply grid_length in M. rewrite app_length in M. cbn [length] in M. rewrite app_length in SL. cbn [length] in SL. unfold h2. rewrite (HW m) by congruence. rewrite (W_last N axes m HA). fold n.
    destruct (_ =? b)%nat; ring.
  - unfold even_last in HE. cbn zeta in HE. rewrite <- ax_component in HE by (apply last_lt; exact HA). exact HE.
  - apply size_pos; [exact HN|apply last_lt; exact HA].
  - intros c C. assert (E : s ++ [n] = sizes N axes) by (symmetry; apply sizes_split; exact HA). rewrite E in C |- *.
    assert (CL : length c = length axes). { apply grid_length in C. unfold sizes in C. rewrite map_length in C. exact C. }
    assert (FL : length (flipped (sizes N axes) c) = length axes).
    { rewrite <- CL. assert (C2 := grid_length _ _ C). clear - C2. revert c C2. induction (sizes N axes) as [|k t IH]; intros [|i c] H; cbn [length] in H; try discriminate H; [reflexivity|]. cbn [flipped length]. f_equal. apply IH. lia. }
    destruct (lifted_mode N axes c HA HN C) as [M _].
    unfold h2. rewrite !(kmag_size N L axes) by assumption. rewrite (lifted_flip N axes c HA HN C), (size3_opposite N L _ M), (HS _ M). reflexivity.
Qed.
Lemma members_shell N L axes e i lo hi : mesh_size N -> some_axes axes -> rising e -> nth_error e i = Some lo -> nth_error e (S i) = Some hi ->
  shell N L axes lo hi (members N L axes e (S i)).
Proof.
  intros HN HA HR A B. split.
  - unfold members. apply nodup_map_inj; [|apply NoDup_filter, nodup_grid]. intros x y X Y E. apply filter_In in X. apply filter_In in Y.
    rewrite <- (lifted_back N axes x HA (proj1 X)), <- (lifted_back N axes y HA (proj1 Y)), E. reflexivity.
  - intros m. unfold members. rewrite in_map_iff. split.
    + intros (c & <- & C). apply filter_In in C. destruct C as [C D]. destruct (lifted_mode N axes c HA HN C) as [M F]. split; [exact M|]. split; [exact F|].
      apply (digitize_bin e i lo hi _ HR A B) in D. rewrite (kmag_size N L axes c HA) in D; [exact D|]. apply grid_length in C. unfold sizes in C. rewrite map_length in C. exact C.
    + intros (M & F & K). destruct (flat_lifted N axes m HA M F) as [G E]. exists (map (fun a => ax a m) axes). split; [exact E|]. apply filter_In. split; [exact G|].
      apply (digitize_bin e i lo hi _ HR A B). rewrite (kmag_size N L axes _ HA) by apply map_length. rewrite E. exact K.
Qed.
Lemma mean_ratio (h : mode -> R) l : mean_of h l = if ceq0 (INR (length l)) then None else Some (rsum (map h l) / INR (length l)).
Proof.
  unfold mean_of, ceq0. destruct l as [|x l]; [cbn [length]; destruct (Req_EM_T (INR 0) 0) as [|H]; [reflexivity|exfalso; apply H; reflexivity]|].
  destruct (Req_EM_T (INR (length (x :: l))) 0) as [H|_]; [|reflexivity]. exfalso. cbn [length] in H. assert (P := pos_INR (length l)). rewrite S_INR in H. lra.
Qed.
Lemma run_bins N L axes f g dk kmin r : mesh_size N -> positive3 L -> some_axes axes -> even_last N axes -> 0 < dk ->
  run N L axes f g dk kmin = Ok r -> edges r = kedges N L axes dk kmin /\ length (bins r) = (length (edges r) - 1)%nat /\
  forall i lo hi, nth_error (edges r) i = Some lo -> nth_error (edges r) (S i) = Some hi ->
    exists l b, shell N L axes lo hi l /\ nth_error (bins r) i = Some b /\ b_modes b = INR (length l) /\ b_k b = mean_of (fun m => size3 (kvec N L m)) l /\
      match b_power b with
      | None => l = []
      | Some p => mean_of (fun m => fst (power N L f g m) / depth L axes) l = Some (fst p) /\ ((forall x, is_mode N x -> f x = g x) -> snd p = 0)
      end.
Proof.
  intros HN HP HA HE HD HR. unfold run in HR. set (e := kedges N L axes dk kmin) in HR.
  destruct e as [|e0 et] eqn:EE; [discriminate HR|]. rewrite <- EE in HR.
  assert (ER : edges r = e) by (pose proof (f_equal (fun x => match x with Ok q => edges q | Err _ => [] end) HR) as T; cbn in T; symmetry; exact T).
  assert (EB : bins r = map (fun b => let n := bincount N L axes e (W N axes) (S b) in
                      {| b_k := if ceq0 n then None else Some (bincount N L axes e (fun m => W N axes m * kmag N L axes m) (S b) / n);
                         b_power := if ceq0 n then None else Some (bincount N L axes e (fun m => W N axes m * fst (pk N axes f g m)) (S b) / n * fold_left Rmult (map (fun a => len a L) axes) 1, bincount N L axes e (fun m => W N axes m * snd (pk N axes f g m)) (S b) / n * fold_left Rmult (map (fun a => len a L) axes) 1);
                         b_modes := n |}) (seq 0 (length e - 1))) by (pose proof (f_equal (fun x => match x with Ok q => bins q | Err _ => [] end) HR) as T; cbn beta iota in T; symmetry; exact T).
  clear HR. rewrite EE in ER at 1. rewrite <- EE in ER. split; [exact ER|]. split; [rewrite EB, ER, map_length, seq_length; reflexivity|].
  intros i lo hi A B. rewrite ER in A, B. assert (RI : rising e) by (apply arange_rising; exact HD).
  exists (members N L axes e (S i)).
  assert (Li : (i < length e - 1)%nat). { assert (X : (S i < length e)%nat) by (apply nth_error_Some; rewrite B; discriminate). lia. }
  eexists. split; [exact (members_shell N L axes e i lo hi HN HA RI A B)|].
  split; [rewrite EB, nth_error_map', nth_error_seq; rewrite (proj2 (Nat.ltb_lt _ _) Li); cbn [option_map]; change (0 + i)%nat with i; reflexivity|].
  cbn zeta. cbn [b_modes b_k b_power].
  assert (E1 : bincount N L axes e (W N axes) (S i) = INR (length (members N L axes e (S i)))).
  { rewrite (bincount_full N L axes e (fun _ => 1) (W N axes) (S i) HN HA HE); [rewrite sum_const; ring|reflexivity|intros; ring]. }
  rewrite E1. split; [reflexivity|]. rewrite !mean_ratio. split.
  - destruct (ceq0 _); [reflexivity|]. f_equal. f_equal. apply (bincount_full N L axes e (fun m => size3 (kvec N L m))); try assumption; [intros m M; apply size3_opposite; exact M|].
    intros m HL. rewrite (kmag_size N L axes m HA HL). reflexivity.
  - destruct (ceq0 (INR (length (members N L axes e (S i))))) eqn:EZ.
    + unfold ceq0 in EZ. destruct (Req_EM_T _ 0) as [Z0|]; [|discriminate EZ]. destruct (members N L axes e (S i)) as [|x l]; [reflexivity|]. exfalso. cbn [length] in Z0. assert (P := pos_INR (length l)). rewrite S_INR in Z0. lra.
    + assert (DP := depth_pos L axes HP HA). assert (AD := area_depth L axes HA). rewrite (area_fold L axes HA).
      assert (VP : 0 < vol L) by (destruct L as [[x y] z]; destruct HP as (X & Y & Z); unfold vol; repeat apply Rmult_lt_0_compat; assumption).
      assert (AP : area L axes <> 0) by (intros Z0; rewrite Z0 in AD; lra).
      assert (NZ : INR (length (members N L axes e (S i))) <> 0) by (unfold ceq0 in EZ; destruct (Req_EM_T _ 0) as [|NZ]; [discriminate EZ|exact NZ]).
      assert (PK : forall m, length m = length axes -> pk N axes f g m = cscale (/ area L axes * / depth L axes) (power N L f g (lifted axes m))).
      { intros m HL. assert (T := pk_power N L axes f g m HP HA HL). unfold cscale in T |- *. pose proof (f_equal fst T) as T1. pose proof (f_equal snd T) as T2. cbn [fst snd] in T1, T2.
        rewrite (surjective_pairing (pk N axes f g m)). f_equal; apply (Rmult_eq_reg_l (area L axes)); try exact AP; rewrite ?T1, ?T2; field; split; lra. }
      assert (RE : bincount N L axes e (fun m => W N axes m * fst (pk N axes f g m)) (S i) = rsum (map (fun m => fst (power N L f g m) / depth L axes) (members N L axes e (S i))) / area L axes).
      { rewrite (bincount_full N L axes e (fun m => fst (power N L f g m) / depth L axes / area L axes) _ (S i) HN HA HE).
        - unfold Rdiv at 1. rewrite rsum_scr. reflexivity.
        - intros m M. rewrite (power_hermitian N L f g m M). reflexivity.
        - intros m HL. rewrite (PK m HL). unfold cscale. cbn [fst snd]. field. split; [lra|exact AP]. }
      cbn [fst snd]. rewrite RE. split; [f_equal; field; split; assumption|].
      intros FG. rewrite (bincount_full N L axes e (fun _ => 0) _ (S i) HN HA HE); [rewrite sum_const; field; assumption|reflexivity|].
      intros m HL. rewrite (PK m HL). unfold cscale. cbn [fst snd].
      assert (PZ : snd (power N L f g (lifted axes m)) = 0).
      { rewrite power_raw. destruct (is_zero _); [reflexivity|]. unfold raw. rewrite <- (r2c_ext N f g (lifted axes m) FG). unfold cscale, cmul, conj. cbn [fst snd]. ring. }
      rewrite PZ. ring.
Qed.
