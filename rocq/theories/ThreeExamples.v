From Verif Require Import Base.
From Coq Require Import Reals Sorted Permutation Lra Lia.
From Verif Require BaseProofs FiberProofs.
From Verif Require Import RandModel RandProofs ThreeModel ThreeSpec ThreeProofs ThreeMain.
Local Open Scope nat_scope.

(* ---- spherical harmonics up to l = 2 ---- *)
Definition exY (l m : nat) (d : point) : comp :=
  let '(x, y, z) := d in
  match l, m with
  | 0, 0 => (sqrt (1 / (4 * PI)), 0)%R
  | 1, 0 => (sqrt (3 / (4 * PI)) * z, 0)%R
  | 1, 1 => (- (sqrt (3 / (8 * PI)) * x), - (sqrt (3 / (8 * PI)) * y))%R
  | 2, 0 => (sqrt (5 / (16 * PI)) * (3 * (z * z) - 1), 0)%R
  | 2, 1 => (- (sqrt (15 / (8 * PI)) * (z * x)), - (sqrt (15 / (8 * PI)) * (z * y)))%R
  | 2, 2 => (sqrt (15 / (32 * PI)) * (x * x - y * y), sqrt (15 / (32 * PI)) * (2 * (x * y)))%R
  | _, _ => (0, 0)%R
  end.
Lemma root2 a b : (0 < a)%R -> (0 < b)%R -> (sqrt (a / (b * PI)) * sqrt (a / (b * PI)) = a / (b * PI))%R.
Proof. intros A B. apply sqrt_sqrt. pose proof PI_RGT_0. apply Rlt_le, Rdiv_lt_0_compat; [exact A|apply Rmult_lt_0_compat; assumption]. Qed.
Lemma exY_addition l : l <= 2 -> addition exY l.
Proof.
  intros L [[x y] z] [[x' y'] z'] U U'. unfold unit3, dot3 in *. pose proof PI_RGT_0 as P.
  destruct l as [|[|[|l]]]; [| | |lia]; unfold re_prod, rlegendre, exY; cbn [seq map rsum fst snd rleg2].
  - replace (INR (2 * 0 + 1)) with 1%R by (cbn; lra). rewrite root2 by lra. ring.
  - replace (INR (2 * 1 + 1)) with 3%R by (cbn; lra). pose proof (root2 3 4 ltac:(lra) ltac:(lra)) as A. pose proof (root2 3 8 ltac:(lra) ltac:(lra)) as B.
    set (r := sqrt (3 / (4 * PI))) in *. set (t := sqrt (3 / (8 * PI))) in *.
    transitivity ((r * r) * (z * z') + 2 * (t * t) * (x * x' + y * y'))%R; [ring|]. rewrite A, B. field. lra.
  - replace (INR (2 * 2 + 1)) with 5%R by (cbn; lra). replace (INR (2 * 0 + 3)) with 3%R by (cbn; lra). replace (INR (0 + 1)) with 1%R by (cbn; lra). replace (INR (0 + 2)) with 2%R by (cbn; lra).
    pose proof (root2 5 16 ltac:(lra) ltac:(lra)) as A. pose proof (root2 15 8 ltac:(lra) ltac:(lra)) as B. pose proof (root2 15 32 ltac:(lra) ltac:(lra)) as C.
    set (r := sqrt (5 / (16 * PI))) in *. set (t := sqrt (15 / (8 * PI))) in *. set (u := sqrt (15 / (32 * PI))) in *.
    transitivity ((r * r) * ((3 * (z * z) - 1) * (3 * (z' * z') - 1)) + 2 * (t * t) * (z * z' * (x * x' + y * y')) + 2 * (u * u) * (2 * ((x * x' + y * y') * (x * x' + y * y')) - (x * x + y * y) * (x' * x' + y' * y')))%R; [ring|].
    rewrite A, B, C. replace (x * x + y * y)%R with (1 - z * z)%R by lra. replace (x' * x' + y' * y')%R with (1 - z' * z')%R by lra. field. lra.
Qed.

(* ---- a catalog of objects on a line, enumerated completely on every rank ---- *)
Definition obj (x : Z) : point * R := ((IZR x, 0, 0)%R, 1%R).
Definition full (edges : list R) (box : option point) (cat prims : list (point * R)) : rank :=
  {| prim := prims; sec := cat;
     bunches := map (fun p => map (fun ri => [ri]) (filter (fun ri => rleb (fst ri) (rmax edges)) (map (fun js => (distance box (fst p) (fst (snd js)), fst js)) (combine (seq 0 (length cat)) cat)))) prims |}.
Lemma full_ok edges box cat prims : enum_ok edges box (full edges box cat prims).
Proof.
  split; [apply map_length|]. intros i p w bs H G. cbn [full bunches prim sec] in *. rewrite BaseProofs.nth_error_map', H in G. cbn [option_map fst] in G. injection G as <-.
  set (l := filter _ _). clearbody l. assert (E : concat (map (fun ri => [ri]) l) = l) by (induction l as [|x l IH]; cbn; [reflexivity|f_equal; exact IH]). rewrite E. apply Permutation_refl.
Qed.
Lemma full_decomposed edges box cat parts : Permutation (concat parts) cat -> decomposed edges box cat (map (full edges box cat) parts).
Proof.
  intros P. split; [rewrite map_map; cbn; rewrite map_id; exact P|]. intros k p I _. apply in_map_iff in I. destruct I as (x & <- & _). apply Permutation_refl.
Qed.

Definition excat : list (point * R) := map obj [0; 1; 2; 3; 5; 7; 11; 13; 15; 16; 18; 19]%Z.
Definition exbox : option point := Some (20, 20, 20)%R.
Definition exedges : list R := [0; 1; 4]%R.
Definition expoles : list nat := [0; 2; 1].
Definition exranks : list rank := map (full exedges exbox excat) [map obj [0; 1; 2; 3; 5; 7; 11; 13; 15; 16]%Z; map obj [18; 19]%Z].
Lemma ex_sorted : StronglySorted Rle exedges.
Proof. unfold exedges. repeat (constructor; [|repeat (constructor; try lra)]). constructor. Qed.
Lemma ex_inbox : forall s, In s excat -> in_box exbox (fst s).
Proof. unfold excat, obj, exbox. cbn [map]. intros s I. repeat (destruct I as [<-|I]; [cbn; lra|]). destruct I. Qed.

(* ---- three distinct objects ---- *)
Definition distinct_triplets (edges : list R) (box : option point) (l : nat) (catalog : list (point * R)) (a b : nat) : R :=
  let cat := combine (seq 0 (length catalog)) catalog in
  rsum (map (fun p => (snd (snd p) * rsum (map (fun s => rsum (map (fun t =>
    (snd (snd s) * snd (snd t) * rlegendre l (dot3 (direction box (fst (snd p)) (fst (snd s))) (direction box (fst (snd p)) (fst (snd t)))))%R)
    (filter (fun t => in_bin edges box (fst (snd p)) b (snd t) && negb (fst t =? fst p) && negb (fst t =? fst s)) cat)))
    (filter (fun s => in_bin edges box (fst (snd p)) a (snd s) && negb (fst s =? fst p)) cat)))%R) cat).

Lemma line_distance x y : distance None (IZR x, 0, 0)%R (IZR y, 0, 0)%R = IZR (Z.abs (y - x)).
Proof.
  unfold distance. cbn. replace ((IZR y - IZR x) * (IZR y - IZR x) + (0 - 0) * (0 - 0) + (0 - 0) * (0 - 0))%R with (Rsqr (IZR y - IZR x)) by (unfold Rsqr; ring).
  rewrite sqrt_Rsqr_abs, <- minus_IZR, abs_IZR. reflexivity.
Qed.
Definition close (x y : Z) : bool := ((0 <? Z.abs (y - x)) && (Z.abs (y - x) <=? 2))%Z.
Lemma line_bin x y : in_bin [0; 2]%R None (IZR x, 0, 0)%R 0 (obj y) = close x y.
Proof.
  unfold in_bin, obj. cbn [fst]. rewrite line_distance. cbn [nth]. unfold close.
  assert (E : forall a b, rltb (IZR a) (IZR b) = (a <? b)%Z).
  { intros a b. destruct (a <? b)%Z eqn:e; [apply rltb_iff, IZR_lt; lia|]. destruct (rltb (IZR a) (IZR b)) eqn:f; [|reflexivity]. apply rltb_iff, lt_IZR in f. lia. }
  assert (F : forall a b, rleb (IZR a) (IZR b) = (a <=? b)%Z).
  { intros a b. destruct (a <=? b)%Z eqn:e; [apply rleb_iff, IZR_le; lia|]. destruct (rleb (IZR a) (IZR b)) eqn:f; [|reflexivity]. apply rleb_iff, le_IZR in f. lia. }
  rewrite E, F. destruct (0 <? Z.abs (y - x))%Z; reflexivity.
Qed.
Definition line10 : list Z := [0; 1; 10; 10; 10; 10; 10; 10; 10; 10]%Z.
Definition cat10 : list (point * R) := map obj line10.
Definition ranks10 : list rank := map (full [0; 2]%R None cat10) [cat10].
Lemma combine_tag : combine (seq 0 (length cat10)) cat10 = map (fun ix => (fst ix, obj (snd ix))) (combine (seq 0 (length line10)) line10).
Proof. reflexivity. Qed.
Lemma filter_none' {A} (P : A -> bool) l : (forall x, In x l -> P x = false) -> filter P l = [].
Proof. induction l as [|x l IH]; intros H; [reflexivity|]. cbn. rewrite (H x (or_introl eq_refl)). apply IH. intros y I. apply H. right. exact I. Qed.
Lemma distinct_zero : distinct_triplets [0; 2]%R None 0 cat10 0 0 = 0%R.
Proof.
  unfold distinct_triplets. cbn zeta. rewrite combine_tag. set (T := combine (seq 0 (length line10)) line10).
  assert (CK : forallb (fun i => forallb (fun j => negb (close (snd i) (snd j) && negb (fst j =? fst i)) || forallb (fun k => negb (close (snd i) (snd k) && negb (fst k =? fst i) && negb (fst k =? fst j))) T) T) T = true) by (vm_compute; reflexivity).
  apply rsum_zero. intros p Ip. apply in_map_iff in Ip. destruct Ip as (i & <- & Ii). rewrite rsum_zero; [ring|].
  intros s Is. apply filter_In in Is. destruct Is as [Is Bs]. apply in_map_iff in Is. destruct Is as (j & <- & Ij). cbn [fst snd] in *.
  rewrite filter_none'; [reflexivity|]. intros t It. apply in_map_iff in It. destruct It as (k & <- & Ik). cbn [fst snd] in *.
  change (fst (obj (snd i))) with (IZR (snd i), 0, 0)%R in *. rewrite line_bin in *.
  rewrite forallb_forall in CK. specialize (CK i Ii). rewrite forallb_forall in CK. specialize (CK j Ij). apply orb_true_iff in CK. destruct CK as [CK|CK].
  - rewrite Bs in CK. discriminate.
  - rewrite forallb_forall in CK. specialize (CK k Ik). apply negb_true_iff in CK. exact CK.
Qed.
Lemma rsum_nonneg l : Forall (fun x => (0 <= x)%R) l -> (0 <= rsum l)%R.
Proof. induction 1; cbn; lra. Qed.
Lemma rsum_posi x l : Forall (fun x => (0 <= x)%R) l -> In x l -> (0 < x)%R -> (0 < rsum l)%R.
Proof. induction 1 as [|y l Hy H IH]; intros I P; [destruct I|]. pose proof (rsum_nonneg l H). cbn. destruct I as [->|I]; [lra|specialize (IH I P); lra]. Qed.
Lemma counted_pos : (0 < triplets [0; 2] None 0 cat10 0 0)%R.
Proof.
  assert (W : forall s, In s cat10 -> snd s = 1%R) by (intros s I; apply in_map_iff in I; destruct I as (x & <- & _); reflexivity).
  assert (I0 : In (obj 0) cat10) by (left; reflexivity). assert (I1 : In (obj 1) cat10) by (right; left; reflexivity).
  assert (N : forall p s, In p cat10 -> In s cat10 -> (0 <= rsum (map (fun t : point * R => (snd s * snd t * rlegendre 0 (dot3 (direction None (fst p) (fst s)) (direction None (fst p) (fst t))))%R) (filter (in_bin [0; 2]%R None (fst p) 0) cat10)))%R).
  { intros p s _ Is. apply rsum_nonneg, Forall_forall. intros v I. apply in_map_iff in I. destruct I as (t & <- & It). apply filter_In in It. rewrite (W s Is), (W t) by tauto. unfold rlegendre. cbn. lra. }
  unfold triplets. eapply rsum_posi; [|apply in_map; exact I0|].
  - apply Forall_forall. intros v I. apply in_map_iff in I. destruct I as (p & <- & Ip). rewrite (W p Ip), Rmult_1_l. apply rsum_nonneg, Forall_forall. intros v I. apply in_map_iff in I. destruct I as (s & <- & Is). apply filter_In in Is. apply N; tauto.
  - cbv beta. rewrite (W _ I0), Rmult_1_l.
    assert (B : In (obj 1) (filter (in_bin [0; 2]%R None (fst (obj 0)) 0) cat10)) by (apply filter_In; split; [exact I1|unfold obj at 1; cbn [fst]; rewrite line_bin; reflexivity]).
    eapply rsum_posi; [|apply in_map; exact B|].
    + apply Forall_forall. intros v I. apply in_map_iff in I. destruct I as (s & <- & Is). apply filter_In in Is. apply N; tauto.
    + eapply rsum_posi; [|apply in_map; exact B|].
      * apply Forall_forall. intros v I. apply in_map_iff in I. destruct I as (t & <- & It). apply filter_In in It. rewrite (W _ I1), (W t) by tauto. unfold rlegendre. cbn. lra.
      * cbv beta. rewrite (W _ I1). unfold rlegendre. cbn. lra.
Qed.
Lemma sorted02 : StronglySorted Rle [0; 2]%R.
Proof. repeat (constructor; [|repeat (constructor; try lra)]). constructor. Qed.

(* ---- fewer than ten objects per rank ---- *)
Lemma argmax_nth : forall l, l <> [] -> nth (argmax (fold_right Nat.max 0 l) l) l 0 = fold_right Nat.max 0 l /\ argmax (fold_right Nat.max 0 l) l < length l.
Proof.
  assert (G : forall m l, In m l -> nth (argmax m l) l 0 = m /\ argmax m l < length l).
  { intros m. induction l as [|x l IH]; intros I; [destruct I|]. cbn [argmax]. destruct (x =? m) eqn:e; [apply Nat.eqb_eq in e; cbn; lia|]. apply Nat.eqb_neq in e. destruct I as [->|I]; [contradiction|]. specialize (IH I). cbn. lia. }
  intros l H. apply G. clear G. induction l as [|x l IH]; [contradiction|]. cbn [fold_right]. destruct l as [|y l]; [left; cbn; lia|].
  specialize (IH ltac:(discriminate)). destruct (Nat.max_spec x (fold_right Nat.max 0 (y :: l))) as [[_ ->]|[_ ->]]; [right; exact IH|left; reflexivity].
Qed.
Lemma rall_err {A} (l : list (res A)) e : In (Err e) l -> (forall e', In (Err e') l -> e' = e) -> rall l = Err e.
Proof.
  induction l as [|[x|e0] l IH]; intros I U; [destruct I| |].
  - destruct I as [I|I]; [discriminate|]. cbn. rewrite IH; [reflexivity|exact I|intros e' I'; apply U; right; exact I'].
  - cbn. rewrite (U e0 (or_introl eq_refl)). reflexivity.
Qed.
Lemma primaries_err edges poles box Y big chunk sc : forall l z e, primaries edges poles box Y big chunk sc z l = Err e -> e = ZeroDivisionError.
Proof. induction l as [|[[p w] bs] l IH]; intros z e H; cbn in H; [discriminate|]. destruct (big && (chunk =? 0)); [congruence|]. exact (IH _ _ H). Qed.
Lemma small_error edges poles box Y ranks : poles <> [] -> (forall k, In k ranks -> enum_ok edges box k) ->
  0 < maxload ranks < 10 -> run edges poles box Y ranks = Err ZeroDivisionError.
Proof.
  intros NE EN [M0 M1]. unfold run. rewrite match_ne by exact NE. cbn zeta. set (big := argmax _ _).
  rewrite (rall_err _ ZeroDivisionError); [reflexivity| |].
  - assert (NR : map (fun k => length (prim k)) ranks <> []) by (intros E; unfold maxload in M0; rewrite E in M0; cbn in M0; lia).
    destruct (argmax_nth _ NR) as [A B]. fold (maxload ranks) in A, B. fold big in A, B. rewrite map_length in B.
    destruct (nth_error ranks big) as [k|] eqn:K; [|apply nth_error_None in K; lia].
    assert (L : length (prim k) = maxload ranks).
    { rewrite <- A. erewrite nth_error_nth; [reflexivity|]. rewrite BaseProofs.nth_error_map', K. reflexivity. }
    apply in_map_iff. exists (big, k). split.
    + cbn [fst snd]. rewrite Nat.eqb_refl. replace (maxload ranks / 10) with 0 by (symmetry; apply Nat.div_small; lia).
      destruct (EN k (nth_error_In _ _ K)) as [LB _]. destruct (prim k) as [|[p w] ps]; [cbn in L; lia|]. destruct (bunches k) as [|bs bss]; [cbn in LB; lia|]. reflexivity.
    + apply FiberProofs.in_combine_seq. rewrite Nat.sub_0_r. split; [lia|exact K].
  - intros e I. apply in_map_iff in I. destruct I as (ik & E & _). exact (primaries_err _ _ _ _ _ _ _ _ _ _ E).
Qed.
