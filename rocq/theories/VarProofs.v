From Verif Require Import Base BaseProofs Num BinModel BinSpec BinArr BinProofs BinIndex BinMore VarModel VarSpec.
Local Open Scope nat_scope.

Lemma nodup_app {A} (a b : list A) : NoDup a -> NoDup b -> (forall x, In x a -> In x b -> False) -> NoDup (a ++ b).
Proof.
  induction a as [|x a IH]; intros Ha Hb H; [exact Hb|]. cbn. apply NoDup_cons_iff in Ha as [H1 H2]. constructor.
  - rewrite in_app_iff. intros [K|K]; [contradiction|]. apply (H x); [left; reflexivity|exact K].
  - apply IH; auto. intros y K. apply H. right. exact K.
Qed.
Lemma remove_at_nth {A} (l : list A) : forall k i, nth_error (remove_at k l) i = nth_error l (if i <? k then i else S i).
Proof.
  induction l as [|a l IH]; intros [|k] i.
  - cbn [remove_at]. destruct i; reflexivity.
  - cbn [remove_at]. destruct (i <? S k); destruct i; reflexivity.
  - reflexivity.
  - cbn [remove_at]. destruct i as [|i]; [reflexivity|]. cbn [nth_error]. rewrite IH. change (S i <? S k) with (i <? k). destruct (i <? k); reflexivity.
Qed.
Lemma remove_at_length {A} (l : list A) k : k < length l -> length (remove_at k l) = length l - 1.
Proof. revert k. induction l as [|a l IH]; intros [|k] H; cbn [length remove_at] in *; try lia. rewrite IH by lia. lia. Qed.
Lemma position_some x l k : position x l = Some k -> nth_error l k = Some x.
Proof.
  unfold position. assert (G : forall l b, (fix go l k := match l with [] => None | y :: l => if y =? x then Some k else go l (S k) end) l b = Some k -> b <= k /\ nth_error l (k - b) = Some x).
  { clear l. induction l as [|y l IH]; intros b H; [discriminate|]. destruct (Nat.eqb_spec y x) as [->|].
    - injection H as ->. split; [lia|]. rewrite Nat.sub_diag. reflexivity.
    - destruct (IH (S b) H) as [H1 H2]. split; [lia|]. replace (k - b) with (S (k - S b)) by lia. exact H2. }
  intros H. destruct (G l 0 H) as [_ H2]. rewrite Nat.sub_0_r in H2. exact H2.
Qed.
Lemma position_none x l : position x l = None -> ~ In x l.
Proof.
  unfold position. assert (G : forall l b, (fix go l k := match l with [] => None | y :: l => if y =? x then Some k else go l (S k) end) l b = None -> ~ In x l).
  { clear l. induction l as [|y l IH]; intros b H; [auto|]. destruct (Nat.eqb_spec y x) as [->|N]; [discriminate|]. intros [E|E]; [contradiction|]. apply (IH (S b) H E). }
  apply G.
Qed.
Lemma nth_of {A} (l : list A) k d x : nth_error l k = Some x -> nth k l d = x.
Proof. apply nth_error_nth. Qed.
Lemma nth_error_some_of {A} (l : list A) k d : k < length l -> nth_error l k = Some (nth k l d).
Proof. apply nth_error_nth'. Qed.

Definition rest_of (s : stat) (x : nat) {A} (l : list A) : list A := match var_position x (vars s) with Some k => remove_at k l | None => l end.
(* where the other variables go *)
Lemma rest_place s x : NoDup (names s) -> exists g : nat -> nat,
  (forall A (l : list A) i y b, nth_error (vars s) i = Some (y, b) -> y <> x -> length l = length (vars s) -> nth_error (rest_of s x l) (g i) = nth_error l i) /\
  (forall A (l : list A) j, length l = length (vars s) -> j < length (rest_of s x l) -> exists i, i < length (vars s) /\ (forall y b, nth_error (vars s) i = Some (y, b) -> y <> x) /\ forall B (m : list B), length m = length (vars s) -> nth_error (rest_of s x m) j = nth_error m i) /\
  (forall A B (l : list A) (m : list B), length l = length m -> length (rest_of s x l) = length (rest_of s x m)).
Proof.
  intros ND. unfold rest_of, var_position. destruct (position x (map fst (vars s))) as [k|] eqn:E.
  - apply position_some in E. rewrite nth_error_map in E. destruct (nth_error (vars s) k) as [[y0 b0]|] eqn:EK; [|discriminate]. cbn in E. injection E as ->.
    assert (Hk : k < length (vars s)) by (apply nth_error_Some; congruence).
    exists (fun i => if i <? k then i else i - 1). split; [|split].
    + intros A l i y b Hi N HL. rewrite remove_at_nth. destruct (Nat.ltb_spec i k) as [H|H]; [destruct (Nat.ltb_spec i k); [reflexivity|lia]|].
      assert (i <> k) by (intros ->; congruence). destruct (Nat.ltb_spec (i - 1) k); [lia|]. f_equal. lia.
    + intros A l j HL Hj. rewrite remove_at_length in Hj by lia. exists (if j <? k then j else S j). split; [destruct (j <? k); lia|]. split.
      * intros y b Hy -> . assert (Q : nth_error (names s) (if j <? k then j else S j) = Some x) by (unfold names; rewrite nth_error_map, Hy; reflexivity).
        assert (Q2 : nth_error (names s) k = Some x) by (unfold names; rewrite nth_error_map, EK; reflexivity).
        assert ((if j <? k then j else S j) = k) by (apply (proj1 (NoDup_nth_error _) ND); [apply nth_error_Some; congruence|congruence]). destruct (Nat.ltb_spec j k); lia.
      * intros B m _. apply remove_at_nth.
    + intros A B l m HL. destruct (Nat.lt_ge_cases k (length l)).
      * rewrite !remove_at_length by lia. lia.
      * assert (G : forall C (l : list C) k, length l <= k -> remove_at k l = l) by (clear; induction l as [|a l IH]; intros [|k] H; cbn [length remove_at] in *; try lia; auto; rewrite IH by lia; reflexivity).
        rewrite !G by lia. exact HL.
  - apply position_none in E. exists (fun i => i). split; [reflexivity|]. split; [|auto]. intros A l j HL Hj. exists j. split; [lia|]. split; [|reflexivity].
    intros y b Hy ->. apply E. apply (in_map fst) with (x := (x, b)). eapply nth_error_In, Hy.
Qed.
Lemma vars_in s y : In y (names s) <-> exists k b, nth_error (vars s) k = Some (y, b).
Proof.
  unfold names. rewrite in_map_iff. split.
  - intros ([z b] & <- & H). apply In_nth_error in H as [k H]. exists k, b. exact H.
  - intros (k & b & H). exists (y, b). split; [reflexivity|]. eapply nth_error_In, H.
Qed.
Theorem setitem_ok s x int v : wf s -> NoDup (names s) -> shape v = shape (data s) ->
  exists t, setitem s x int v = Ok t /\ wf t /\ NoDup (names t) /\ same_grid s t /\ has_var t x int (cell v) /\
  (forall y b f, y <> x -> has_var s y b f -> has_var t y b f) /\ (forall y, In y (names t) <-> y = x \/ In y (names s)) /\
  (forall idx, cell (mask t) idx = true <-> cell (mask s) idx = true \/ cell v idx = None) /\ (~ In x (names s) -> exact s -> exact t).
Proof.
  intros W ND HS. unfold setitem. rewrite HS, shape_eqb_refl. cbn [negb]. eexists. split; [reflexivity|]. destruct (rest_place s x ND) as (g & G1 & G2 & G3). 
  change (match var_position x (vars s) with Some k => remove_at k (vars s) | None => vars s end) with (rest_of s x (vars s)).
  pose proof (wf_rows s W) as WR.
  assert (LR : forall idx, length (rest_of s x (cell (data s) idx)) = length (rest_of s x (vars s))) by (intros idx; apply G3, WR).
  assert (IN : forall y, In y (map fst (rest_of s x (vars s))) <-> y <> x /\ In y (names s)).
  { intros y. split.
    - intros H. apply in_map_iff in H as ([z b] & <- & H). apply In_nth_error in H as [j Hj]. destruct (G2 _ (vars s) j eq_refl) as (i & Hi & H1 & H2); [apply nth_error_Some; congruence|].
      rewrite H2 in Hj by reflexivity. cbn [fst]. split; [apply (H1 z b Hj)|]. apply vars_in. exists i, b. exact Hj.
    - intros [N H]. apply vars_in in H as (k & b & Hk). apply in_map_iff. exists (y, b). split; [reflexivity|]. apply nth_error_In with (n := g k). rewrite (G1 _ (vars s) k y b Hk N eq_refl). exact Hk. }
  assert (NDR : NoDup (map fst (rest_of s x (vars s)))).
  { unfold rest_of. destruct (var_position x (vars s)) as [k|] eqn:E; [|exact ND]. unfold var_position in E. apply position_some in E. unfold names in ND. destruct (split_nth _ _ _ E) as (a & b & EQ & LA).
    replace (map fst (remove_at k (vars s))) with (remove_at k (map fst (vars s))).
    - rewrite EQ, remove_at_app by auto. rewrite EQ in ND. apply NoDup_remove_1 in ND. exact ND.
    - clear. revert k. induction (vars s) as [|p l IH]; intros [|k]; cbn [remove_at map]; auto. f_equal. apply IH. }
  split.
  { constructor; cbn [dims edges coords data mask shape cell vars]; try apply W. intros idx. change (match var_position x (vars s) with Some k => remove_at k (cell (data s) idx) | None => cell (data s) idx end) with (rest_of s x (cell (data s) idx)).
    rewrite !app_length, LR. reflexivity. }
  split.
  { unfold names. cbn [vars]. rewrite map_app. cbn [map fst]. apply nodup_app; [exact NDR|constructor; [auto|constructor]|]. intros y Hy [<-|[]]. apply IN in Hy as [Hy _]. congruence. }
  split; [do 5 (split; [reflexivity|]); reflexivity|].
  assert (HX : has_var {| dims := dims s; edges := edges s; coords := coords s; vars := rest_of s x (vars s) ++ [(x, int)];
    data := {| shape := shape (data s); cell := fun idx => rest_of s x (cell (data s) idx) ++ [cell v idx] |};
    mask := {| shape := shape (mask s); cell := fun idx => cell (mask s) idx || negb (finite (cell v idx)) |}; fts := fts s; attrs := attrs s |} x int (cell v)).
  { exists (length (rest_of s x (vars s))). cbn [vars data cell]. split; [rewrite nth_error_app2, Nat.sub_diag by lia; reflexivity|].
    intros idx. rewrite <- (LR idx), app_nth2, Nat.sub_diag by lia. reflexivity. }
  split; [exact HX|]. clear HX. split.
  { intros y b f N (k & Hk & Hf). exists (g k). cbn [vars data cell]. assert (Q : nth_error (rest_of s x (vars s)) (g k) = Some (y, b)) by (rewrite (G1 _ (vars s) k y b Hk N eq_refl); exact Hk).
    assert (L : g k < length (rest_of s x (vars s))) by (apply nth_error_Some; congruence). split; [rewrite nth_error_app1 by exact L; exact Q|].
    intros idx. fold (rest_of s x (cell (data s) idx)). rewrite app_nth1 by (rewrite LR; exact L). rewrite <- (Hf idx). assert (Hk' : k < length (vars s)) by (apply nth_error_Some; congruence).
    apply nth_error_nth. rewrite (G1 _ (cell (data s) idx) k y b Hk N (WR idx)). apply nth_error_some_of. rewrite WR. exact Hk'. }
  split.
  { intros y. unfold names at 1. cbn [vars]. rewrite map_app, in_app_iff. cbn [map fst In]. rewrite IN. destruct (Nat.eq_dec y x); intuition congruence. }
  split.
  { intros idx. cbn [mask cell]. rewrite orb_true_iff, negb_true_iff. destruct (cell v idx); cbn [finite]; intuition congruence. }
  intros NI EX idx. cbn [mask cell vars data]. rewrite orb_true_iff, negb_true_iff. rewrite (EX idx).
  assert (R0 : forall A (l : list A), rest_of s x l = l).
  { intros A l. unfold rest_of, var_position. destruct (position x (map fst (vars s))) as [k|] eqn:E; [|reflexivity]. apply position_some, nth_error_In in E. contradiction. }
  fold (rest_of s x (cell (data s) idx)). rewrite !R0, app_length. cbn [length]. split.
  - intros [(k & H1 & H2)|H].
    + exists k. split; [lia|]. rewrite app_nth1 by (rewrite WR; exact H1). exact H2.
    + exists (length (vars s)). split; [lia|]. rewrite <- (WR idx), app_nth2, Nat.sub_diag by lia. cbn. destruct (cell v idx); [discriminate|reflexivity].
  - intros (k & H1 & H2). destruct (Nat.lt_ge_cases k (length (vars s))) as [H|H].
    + left. exists k. split; [exact H|]. rewrite app_nth1 in H2 by (rewrite WR; exact H). exact H2.
    + right. rewrite app_nth2, (WR idx) in H2 by (rewrite WR; exact H). replace (k - length (vars s)) with 0 in H2 by lia. cbn in H2. rewrite H2. reflexivity.
Qed.
Theorem setitem_shape s x int v : shape v <> shape (data s) -> setitem s x int v = Err ValueError.
Proof. intros H. unfold setitem. destruct (shape_eqb (shape v) (shape (data s))) eqn:E; [apply shape_eqb_eq in E; contradiction|reflexivity]. Qed.

(* ---- renaming ---- *)
Lemma distinct_iff l : distinct l = true <-> NoDup l.
Proof.
  induction l as [|x l IH]; cbn [distinct]; [split; [constructor|reflexivity]|]. rewrite andb_true_iff, negb_true_iff, IH. split.
  - intros [H1 H2]. constructor; [|exact H2]. intros H. enough (existsb (Nat.eqb x) l = true) by congruence. apply existsb_exists. exists x. split; [exact H|apply Nat.eqb_refl].
  - intros H. apply NoDup_cons_iff in H as [H1 H2]. split; [|exact H2]. destruct (existsb (Nat.eqb x) l) eqn:E; [|reflexivity]. exfalso. apply existsb_exists in E as (y & Hy & E). apply Nat.eqb_eq in E as <-. contradiction.
Qed.
Lemma replace_split {A} (l : list A) k x y : nth_error l k = Some x -> exists a b, l = a ++ x :: b /\ length a = k /\ replace_nth l k y = a ++ y :: b.
Proof.
  revert k. induction l as [|z l IH]; intros [|k] H; try discriminate.
  - injection H as ->. exists [], l. auto.
  - destruct (IH k H) as (a & b & E & L & R). exists (z :: a), b. cbn [app length replace_nth]. rewrite <- E, R. auto.
Qed.
Theorem rename_ok s old new : wf s -> NoDup (names s) -> In old (names s) -> ~ In new (names s) \/ new = old ->
  exists t, rename s old new = Ok t /\ wf t /\ NoDup (names t) /\ same_grid s t /\ mask t = mask s /\
  (forall b f, has_var s old b f -> has_var t new b f) /\ (forall y b f, y <> old -> has_var s y b f -> has_var t y b f) /\
  (forall y, In y (names t) <-> y = new \/ (y <> old /\ In y (names s))).
Proof.
  intros W ND HO HN. unfold rename, var_position. destruct (position old (map fst (vars s))) as [k|] eqn:E; [|apply position_none in E; contradiction].
  apply position_some in E. rewrite nth_error_map in E. destruct (nth_error (vars s) k) as [[y0 b0]|] eqn:EK; [|discriminate]. cbn in E. injection E as ->.
  rewrite (nth_of _ _ _ _ EK). cbn [snd]. destruct (replace_split (vars s) k (old, b0) (new, b0) EK) as (a & b & EV & LA & ER). rewrite ER.
  unfold names in *. rewrite EV, map_app in ND, HO, HN. cbn [map fst] in *.
  assert (ND' : NoDup (map fst (a ++ (new, b0) :: b))).
  { rewrite map_app. cbn [map fst]. destruct HN as [HN| ->]; [|exact ND]. apply NoDup_Add with (a := new) (l := map fst a ++ map fst b); [apply Add_app|]. split; [apply (NoDup_remove_1 _ _ _ ND)|].
    intros H. apply HN. rewrite in_app_iff in *. cbn [In]. tauto. }
  rewrite (proj2 (distinct_iff _) ND'). eexists. split; [reflexivity|]. split.
  { constructor; cbn [dims edges coords data mask shape cell vars]; try apply W. intros idx. rewrite (wf_rows s W), EV, !app_length. reflexivity. }
  split; [exact ND'|]. split; [do 5 (split; [reflexivity|]); reflexivity|]. split; [reflexivity|].
  assert (NO : forall c, ~ In (old, c) a /\ ~ In (old, c) b).
  { intros c. apply NoDup_remove_2 in ND. rewrite in_app_iff in ND. split; intros H; apply ND; [left|right]; apply (in_map fst) in H; exact H. }
  split; [|split].
  - intros c f (i & Hi & Hf). rewrite EV in Hi. assert (i = k /\ c = b0) as [-> ->].
    { destruct (lt_eq_lt_dec i (length a)) as [[H|H]|H].
      - rewrite nth_error_app1 in Hi by lia. apply nth_error_In in Hi. destruct (NO c). contradiction.
      - subst i. rewrite nth_error_app2, Nat.sub_diag in Hi by lia. cbn in Hi. split; [lia|congruence].
      - rewrite nth_error_app2 in Hi by lia. replace (i - length a) with (S (i - length a - 1)) in Hi by lia. cbn in Hi. apply nth_error_In in Hi. destruct (NO c). contradiction. }
    exists k. cbn [vars data]. split; [|exact Hf]. rewrite nth_error_app2, LA, Nat.sub_diag by lia. reflexivity.
  - intros y c f N (i & Hi & Hf). exists i. cbn [vars data]. split; [|exact Hf]. rewrite EV in Hi. destruct (lt_eq_lt_dec i (length a)) as [[H|H]|H].
    + rewrite nth_error_app1 in * by lia. exact Hi.
    + subst i. rewrite nth_error_app2, Nat.sub_diag in Hi by lia. cbn in Hi. congruence.
    + rewrite nth_error_app2 in * by lia. replace (i - length a) with (S (i - length a - 1)) in * by lia. exact Hi.
  - intros y. cbn [vars]. rewrite EV, !map_app, !in_app_iff. cbn [map fst In]. apply NoDup_remove_2 in ND. rewrite in_app_iff in ND.
    split; [|intuition congruence]. intros [H|[H|H]]; [right|left; congruence|right]; (split; [intros ->; tauto|tauto]).
Qed.
Theorem rename_unknown s old new : ~ In old (names s) -> rename s old new = Err ValueError.
Proof. intros H. unfold rename, var_position. destruct (position old (map fst (vars s))) as [k|] eqn:E; [|reflexivity]. apply position_some, nth_error_In in E. contradiction. Qed.
Theorem rename_taken s old new : NoDup (names s) -> In new (names s) -> new <> old -> rename s old new = Err ValueError.
Proof.
  intros ND HI N. unfold rename, var_position. destruct (position old (map fst (vars s))) as [k|] eqn:E; [|reflexivity].
  apply position_some in E. rewrite nth_error_map in E. destruct (nth_error (vars s) k) as [[y0 b0]|] eqn:EK; [|discriminate]. cbn in E. injection E as ->.
  rewrite (nth_of _ _ _ _ EK). cbn [snd]. destruct (replace_split (vars s) k (old, b0) (new, b0) EK) as (a & b & EV & LA & ER). rewrite ER.
  destruct (distinct (map fst (a ++ (new, b0) :: b))) eqn:ED; [|reflexivity]. exfalso. apply distinct_iff in ED. rewrite map_app in ED. cbn [map fst] in ED. apply NoDup_remove_2 in ED. apply ED.
  unfold names in HI. rewrite EV, map_app in HI. cbn [map fst] in HI. rewrite in_app_iff in *. cbn [In] in HI. intuition congruence.
Qed.

(* ---- squeezing ---- *)
Lemma filter_none_len {A} (f : A -> bool) l : Forall (fun x => f x = false) l -> filter f l = [].
Proof. induction 1 as [|x l Hx _ IH]; [reflexivity|]. cbn [filter]. rewrite Hx. exact IH. Qed.
Lemma combine_app' {A B} (a a' : list A) (b b' : list B) : length a = length b -> combine (a ++ a') (b ++ b') = combine a b ++ combine a' b'.
Proof. revert b. induction a as [|x a IH]; intros [|y b] H; try discriminate; [reflexivity|]. cbn. f_equal. apply IH. cbn in H. lia. Qed.
Lemma forall_combine {A B} (Q : B -> Prop) (a : list A) (b : list B) : Forall Q b -> Forall (fun p => Q (snd p)) (combine a b).
Proof. intros H. revert a. induction H as [|y b Hy _ IH]; intros [|x a]; cbn [combine]; constructor; auto. Qed.
Theorem squeeze_any_ok s P d D eP e eD cP c cD : wf s -> dims s = P ++ d :: D -> edges s = eP ++ e :: eD -> coords s = cP ++ c :: cD ->
  length eP = length P -> length cP = length P -> length c = 1 -> Forall (fun c => length c <> 1) (cP ++ cD) -> P ++ D <> [] ->
  exists t, squeeze_any s = Ok t /\ wf t /\ dims t = P ++ D /\ edges t = eP ++ eD /\ coords t = cP ++ cD /\ vars t = vars s /\ attrs t = attrs s /\
    (forall p r, length p = length P -> cell (data t) (p ++ r) = cell (data s) (p ++ 0 :: r) /\ cell (mask t) (p ++ r) = cell (mask s) (p ++ 0 :: r)).
Proof.
  intros W ED EE EC LE LC L1 HF HN. apply Forall_app in HF as [HF1 HF2]. destruct (squeeze_ok s P d D eP e eD cP c cD W ED EE EC LE LC L1 HN) as (t & Ht & Wt & T1 & T2 & T3 & T4 & _ & T5 & T6).
  exists t. split; [|do 6 (split; [assumption|]); exact T6]. unfold squeeze_any. rewrite ED, EC, combine_app' by auto. rewrite filter_app. cbn [combine filter snd]. rewrite L1. cbn [Nat.eqb].
  rewrite !filter_none_len; [exact Ht| |];
    apply (forall_combine (fun c => (length c =? 1) = false)); (eapply Forall_impl; [|eassumption]); intros l Hl; apply Nat.eqb_neq; exact Hl.
Qed.
Lemma filter_combine_len {A B} (f : B -> bool) : forall (a : list A) (b : list B), length a = length b -> length (filter (fun p => f (snd p)) (combine a b)) = length (filter f b).
Proof. induction a as [|x a IH]; intros [|y b] H; try discriminate; [reflexivity|]. cbn [combine filter snd]. destruct (f y); cbn [length]; rewrite IH by (cbn in H; lia); reflexivity. Qed.
Theorem squeeze_any_not s : wf s -> length (filter (fun c => length c =? 1) (coords s)) <> 1 \/ length (dims s) = 1 -> squeeze_any s = Err ValueError.
Proof.
  intros W H. unfold squeeze_any. pose proof (filter_combine_len (fun c : list Qc => length c =? 1) (dims s) (coords s)) as L. rewrite (wf_coords s W) in L. specialize (L eq_refl).
  destruct (filter _ (combine (dims s) (coords s))) as [|[d c] [|? ?]] eqn:E; try reflexivity. destruct H as [H|H]; [cbn [length] in L; congruence|]. cbn [fst].
  unfold squeeze. destruct (position d (dims s)); [|reflexivity]. destruct (negb _); [reflexivity|]. rewrite H. reflexivity.
Qed.

(* ---- JSON ---- *)
Lemma aput_find k v d j : afind j (aput k v d) = if j =? k then Some v else afind j d.
Proof.
  induction d as [|[k' v'] d IH]; cbn [aput afind].
  - reflexivity.
  - destruct (Nat.eqb_spec k k') as [<-|N]; cbn [afind].
    + destruct (j =? k); reflexivity.
    + rewrite IH. destruct (Nat.eqb_spec j k'), (Nat.eqb_spec j k); congruence.
Qed.
Lemma aupdate_find e : forall d j, NoDup (map fst e) -> afind j (aupdate d e) = match afind j e with Some v => Some v | None => afind j d end.
Proof.
  unfold aupdate. induction e as [|[k v] e IH]; intros d j H; [reflexivity|]. cbn [map fst] in H. apply NoDup_cons_iff in H as [H1 H2]. cbn [fold_left fst snd]. rewrite IH by exact H2. cbn [afind].
  rewrite aput_find. destruct (Nat.eqb_spec j k) as [->|]; [|reflexivity]. assert (Q : afind k e = None).
  { clear -H1. induction e as [|[k' v'] e IH]; [reflexivity|]. cbn [afind]. cbn [map fst In] in H1. destruct (Nat.eqb_spec k k') as [->|]; [exfalso; apply H1; auto|]. apply IH. tauto. }
  rewrite Q. reflexivity.
Qed.
Lemma aput_keys k v d : forall j, In j (map fst (aput k v d)) -> j = k \/ In j (map fst d).
Proof.
  induction d as [|[k' v'] d IH]; cbn [aput]; intros j H.
  - destruct H as [<-|[]]; auto.
  - destruct (k =? k') eqn:E.
    + cbn [map fst In] in *. destruct H as [<-|H]; [auto|]. auto.
    + cbn [map fst In] in *. destruct H as [<-|H]; [auto|]. destruct (IH j H); auto.
Qed.
Lemma aupdate_keys e : forall d j, In j (map fst (aupdate d e)) -> In j (map fst e) \/ In j (map fst d).
Proof.
  unfold aupdate. induction e as [|[k v] e IH]; intros d j H; [right; exact H|]. cbn [fold_left fst snd] in H. apply IH in H as [H|H]; [left; right; exact H|].
  apply aput_keys in H as [->|H]; [left; left; reflexivity|right; exact H].
Qed.
Lemma init_coords (es cs : list (list Qc)) : length cs = length es ->
  map (fun ie : nat * list Qc => match nth (fst ie) (map Some cs) None with Some c => c | None => mid (snd ie) end) (combine (seq 0 (length es)) es) = cs.
Proof.
  intros H. assert (G : forall es cs b pre, length cs = length es -> length pre = b ->
    map (fun ie : nat * list Qc => match nth (fst ie) (map Some (pre ++ cs)) None with Some c => c | None => mid (snd ie) end) (combine (seq b (length es)) es) = cs).
  { clear. induction es as [|e es IH]; intros [|c cs] b pre L LP; try discriminate; [reflexivity|]. cbn [length seq combine map fst snd]. f_equal.
    - rewrite map_app, app_nth2, map_length, LP, Nat.sub_diag by (rewrite map_length; lia). reflexivity.
    - replace (pre ++ c :: cs) with ((pre ++ [c]) ++ cs) by (rewrite <- app_assoc; reflexivity). apply IH; [cbn in L; lia|]. rewrite app_length. cbn. lia. }
  apply (G es cs 0 [] H eq_refl).
Qed.
Section Json.
Variables (data_name : nat) (reserved : nat -> bool) (fts_name : nat) (as_names : Z -> list nat).
Theorem json_ok s ds es kwargs : wf s -> NoDup (map fst kwargs) -> (forall k, In k (map fst (attrs s)) \/ In k (map fst kwargs) -> reserved k = false /\ k <> fts_name) ->
  exists t, from_json reserved fts_name as_names (to_json data_name s) data_name ds es kwargs = Ok t /\
    dims t = dims s /\ edges t = edges s /\ coords t = coords s /\ vars t = vars s /\ shape (data t) = shape (data s) /\ (forall idx, cell (data t) idx = cell (data s) idx) /\
    exact t /\ (forall k, afind k (attrs t) = match afind k kwargs with Some v => Some v | None => afind k (attrs s) end).
Proof.
  intros W NK HK. unfold from_json, to_json. cbn [j_data j_dims j_edges j_coords j_attrs afind]. rewrite Nat.eqb_refl. 
  set (a := aupdate (attrs s) kwargs).
  assert (KA : forall k, In k (map fst a) -> reserved k = false /\ k <> fts_name).
  { intros k H. apply HK. apply aupdate_keys in H. tauto. }
  assert (E1 : existsb (fun kv => reserved (fst kv)) a = false).
  { destruct (existsb _ a) eqn:E; [|reflexivity]. exfalso. apply existsb_exists in E as (kv & H & E). apply (in_map fst) in H. destruct (KA _ H). congruence. }
  rewrite E1. assert (E2 : filter (fun kv => negb (fst kv =? fts_name)) a = a).
  { clear -KA. induction a as [|kv a IH]; [reflexivity|]. cbn [filter]. assert (fst kv <> fts_name) as N by (apply KA; left; reflexivity). apply Nat.eqb_neq in N. rewrite N. cbn [negb]. f_equal.
    apply IH. intros k H. apply KA. right. exact H. }
  rewrite E2. unfold init. rewrite (wf_edges s W), Nat.eqb_refl. cbn [negb].
  assert (E3 : shape (data s) = map (fun e => length e - 1) (edges s)).
  { rewrite (wf_data s W). pose proof (wf_bins s W) as B. clear -B; induction B as [|c e cs es H _ IH]; [reflexivity|]. cbn [map]. f_equal; [lia|exact IH]. }
  rewrite <- E3, shape_eqb_refl. cbn [negb]. eexists. split; [reflexivity|]. cbn [dims edges coords vars data attrs]. do 2 (split; [reflexivity|]).
  split; [rewrite <- (wf_edges s W); apply init_coords; rewrite (wf_coords s W), (wf_edges s W); reflexivity|]. do 2 (split; [reflexivity|]). split; [reflexivity|]. split.
  - intros idx. cbn [mask cell vars data]. rewrite existsb_exists. split.
    + intros (x & Hx & Hf). apply In_nth_error in Hx as [k Hk]. exists k. split; [rewrite <- (wf_rows s W idx); apply nth_error_Some; congruence|]. rewrite (nth_of _ _ _ _ Hk). destruct x; [discriminate|reflexivity].
    + intros (k & Hk & Hn). exists None. split; [|reflexivity]. rewrite <- Hn. apply nth_In. rewrite (wf_rows s W). exact Hk.
  - intros k. apply aupdate_find. exact NK.
Qed.
Theorem json_no_kwargs s ds es t : (forall k, In k (map fst (attrs s)) -> k <> fts_name) -> from_json reserved fts_name as_names (to_json data_name s) data_name ds es [] = Ok t -> attrs t = attrs s.
Proof.
  intros H. unfold from_json, to_json, aupdate. cbn [j_data j_dims j_edges j_coords j_attrs afind fold_left]. rewrite Nat.eqb_refl. destruct (existsb _ _); [discriminate|].
  unfold init. destruct (negb _); [discriminate|]. destruct (negb _); [discriminate|]. intros E. injection E as <-. cbn [attrs].
  clear -H. induction (attrs s) as [|kv a IH]; [reflexivity|]. cbn [filter]. assert (fst kv <> fts_name) as N by (apply H; left; reflexivity). apply Nat.eqb_neq in N. rewrite N. cbn [negb]. f_equal.
  apply IH. intros k Hk. apply H. right. exact Hk.
Qed.
(* a file without dimensions or edges takes those of the call; one without coordinates has the centres *)
Theorem json_missing j key ds es kwargs : afind key (j_data j) = None \/ (j_dims j = None /\ ds = None) \/ (j_edges j = None /\ es = None) ->
  from_json reserved fts_name as_names j key ds es kwargs = Err ValueError.
Proof.
  unfold from_json. destruct (afind key (j_data j)) as [[vs d]|]; [|reflexivity]. intros [H|[[-> ->]|[E ->]]]; [discriminate|reflexivity|]. rewrite E. destruct (j_dims j), ds; reflexivity.
Qed.
Theorem json_given s kwargs : let j := to_json data_name s in
  from_json reserved fts_name as_names {| j_dims := None; j_edges := None; j_coords := j_coords j; j_data := j_data j; j_attrs := j_attrs j |} data_name (Some (dims s)) (Some (edges s)) kwargs =
  from_json reserved fts_name as_names j data_name None None kwargs.
Proof. reflexivity. Qed.
End Json.
