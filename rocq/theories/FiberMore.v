From Verif Require Import Base BaseProofs Num RanksSpec DaSpec DaMore FiberModel FiberSpec FiberProofs.
From Coq Require Import Sorted Permutation.
Local Open Scope nat_scope.

Lemma group_frame : forall r2 draws k ms, map frame (fst (assign_group r2 draws k ms)) = map frame ms.
Proof.
  intros r2 draws k ms. destruct ms as [|a [|b [|c ms]]]; [reflexivity|reflexivity| |].
  - cbn [assign_group]. destruct (choice (draws k) [0; 1] 0 =? 0); reflexivity.
  - change (assign_group r2 draws k (a :: b :: c :: ms)) with
     (let (fl, k0) := multiplets r2 (map w_pos (a :: b :: c :: ms)) draws k in
      (map (fun p => let (w, f) := (p : row * (bool * nat)) in
              if fst f then set_row w 1 (match nth_error (a :: b :: c :: ms) (snd f) with Some v => w_index v | None => -1 end)
              else set_row w 0 (-1)) (combine (a :: b :: c :: ms) fl), k0)).
    remember (a :: b :: c :: ms) as M eqn:EM.
    assert (HM : map w_pos M <> []) by (rewrite EM; discriminate).
    destruct (multiplets_ok r2 (map w_pos M) draws k HM) as [flag [near [E _]]].
    destruct (multiplets r2 (map w_pos M) draws k) as [fl k']. cbn [fst] in *.
    assert (HL : length fl = length M) by (rewrite E, !map_length, seq_length; reflexivity). clear - HL.
    rewrite map_map. transitivity (map frame (map fst (combine M fl))).
    + rewrite map_map. apply map_ext. intros [w f]. destruct (fst f); reflexivity.
    + f_equal. generalize dependent fl. induction M as [|x M IH]; intros [|f fl] HL; try discriminate; [reflexivity|]. cbn [combine map fst]. rewrite IH; [reflexivity|]. cbn in HL. lia.
Qed.
Lemma frame_eq : forall w v, frame w = frame v -> w_pos w = w_pos v /\ w_label w = w_label v /\ w_rank w = w_rank v /\ w_index w = w_index v.
Proof. intros w v E. unfold frame in E. injection E. auto. Qed.
Lemma map_frame_in : forall a b w, map frame a = map frame b -> In w a -> exists v, In v b /\ frame v = frame w.
Proof. intros a b w E H. assert (G : In (frame w) (map frame b)) by (rewrite <- E; apply in_map; exact H). apply in_map_iff in G. destruct G as [v [G1 G2]]. exists v. auto. Qed.
Definition lab (g : Z) (w : row) : bool := (w_label w =? g)%Z.
Lemma filter_none : forall (A : Type) (f : A -> bool) l, (forall x, In x l -> f x = false) -> filter f l = [].
Proof. intros A f l H. induction l as [|x l IH]; [reflexivity|]. cbn [filter]. rewrite (H x (or_introl eq_refl)). apply IH. intros y Hy. apply H. right. exact Hy. Qed.
Lemma filter_every : forall (A : Type) (f : A -> bool) l, (forall x, In x l -> f x = true) -> filter f l = l.
Proof. intros A f l H. induction l as [|x l IH]; [reflexivity|]. cbn [filter]. rewrite (H x (or_introl eq_refl)). f_equal. apply IH. intros y Hy. apply H. right. exact Hy. Qed.
Lemma group_label : forall r2 draws k g rows w, In w (fst (assign_group r2 draws k (filter (fun w => (w_label w =? g)%Z) rows))) -> w_label w = g.
Proof.
  intros r2 draws k g rows w H. destruct (map_frame_in _ _ w (group_frame r2 draws k _) H) as [v [Hv E]]. apply filter_In in Hv. destruct Hv as [_ Hv]. apply Z.eqb_eq in Hv.
  apply frame_eq in E. destruct E as [_ [E _]]. congruence.
Qed.
Lemma groups_filter : forall r2 draws labels k rows g, NoDup labels ->
  (In g labels -> exists k', filter (lab g) (assign_groups r2 draws labels k rows) = fst (assign_group r2 draws k' (filter (lab g) rows))) /\
  (~ In g labels -> filter (lab g) (assign_groups r2 draws labels k rows) = []).
Proof.
  intros r2 draws. induction labels as [|h labels IH]; intros k rows g Hn; [split; [intros []|reflexivity]|]. cbn [assign_groups].
  pose proof (group_label r2 draws k h rows) as HL.
  destruct (assign_group r2 draws k (filter (fun w => (w_label w =? h)%Z) rows)) as [out k'] eqn:E. cbn [fst] in HL. rewrite filter_app.
  inversion Hn as [|? ? Hh Hn' Eh]; subst. destruct (IH k' rows g Hn') as [I1 I2]. split.
  - intros [->|Hg].
    + rewrite I2 by exact Hh. rewrite app_nil_r. exists k. unfold lab at 2. rewrite E. cbn [fst]. apply filter_every. intros w Hw. unfold lab. rewrite (HL w Hw). apply Z.eqb_refl.
    + destruct (I1 Hg) as [k1 E1]. exists k1. rewrite E1. rewrite (filter_none _ (lab g) out); [reflexivity|]. intros w Hw. unfold lab. rewrite (HL w Hw). apply Z.eqb_neq. intros ->. contradiction.
  - intros Hg. rewrite I2 by (intros G; apply Hg; right; exact G). rewrite app_nil_r. apply filter_none. intros w Hw. unfold lab. rewrite (HL w Hw). apply Z.eqb_neq. intros ->. apply Hg. left. reflexivity.
Qed.
Lemma groups_frame : forall r2 draws labels k rows, map frame (assign_groups r2 draws labels k rows) = map frame (concat (map (fun g => filter (lab g) rows) labels)).
Proof.
  intros r2 draws. induction labels as [|g labels IH]; intros k rows; [reflexivity|]. cbn [assign_groups map concat]. pose proof (group_frame r2 draws k (filter (lab g) rows)) as E.
  unfold lab in *. destruct (assign_group r2 draws k (filter (fun w => (w_label w =? g)%Z) rows)) as [out k']. cbn [fst] in E. rewrite !map_app, E, IH. reflexivity.
Qed.
Lemma partition_perm : forall (A : Type) (key : A -> Z) labels (rows : list A), NoDup labels -> (forall w, In w rows -> In (key w) labels) ->
  Permutation (concat (map (fun g => filter (fun w => (key w =? g)%Z) rows) labels)) rows.
Proof.
  intros A key. induction labels as [|g labels IH]; intros rows Hn Hin.
  - destruct rows as [|w rows]; [constructor|]. destruct (Hin w (or_introl eq_refl)).
  - cbn [map concat]. inversion Hn as [|? ? Hg Hn' Eg]; subst. pose (rest := filter (fun w => negb (key w =? g)%Z) rows).
    transitivity (filter (fun w => (key w =? g)%Z) rows ++ rest).
    + apply Permutation_app_head. transitivity (concat (map (fun h => filter (fun w => (key w =? h)%Z) rest) labels)); [|apply IH; [exact Hn'|]].
      * apply Permutation_refl'. f_equal. apply map_ext_in. intros h Hh. unfold rest. clear - Hh Hg. induction rows as [|w rows IH]; [reflexivity|]. cbn [filter].
        destruct (Z.eqb_spec (key w) g) as [E|E]; cbn [negb filter]; destruct (Z.eqb_spec (key w) h) as [E'|E']; rewrite IH; try reflexivity. exfalso. apply Hg. congruence.
      * intros w Hw. apply filter_In in Hw. destruct Hw as [Hw E]. apply negb_true_iff, Z.eqb_neq in E. destruct (Hin w Hw) as [G|G]; [congruence|exact G].
    + unfold rest. clear. induction rows as [|w rows IH]; [constructor|]. cbn [filter]. destruct (key w =? g)%Z; cbn [negb app]; [constructor; exact IH|].
      symmetry. apply Permutation_cons_app. symmetry. exact IH.
Qed.
Lemma uinsert_in : forall x l y, In y (uinsert x l) <-> y = x \/ In y l.
Proof.
  intros x l y. induction l as [|z l IH]; cbn [uinsert]; [cbn [In]; intuition congruence|]. destruct (Z.ltb_spec x z); [cbn [In]; intuition congruence|].
  destruct (Z.eqb_spec x z) as [->|]; [cbn [In]; intuition congruence|]. cbn [In]. rewrite IH. intuition congruence.
Qed.
Lemma uinsert_sorted : forall x l, StronglySorted Z.lt l -> StronglySorted Z.lt (uinsert x l).
Proof.
  intros x l H. induction H as [|z l H IH F]; cbn [uinsert]; [constructor; constructor|]. destruct (Z.ltb_spec x z) as [L|L].
  - constructor; [constructor; assumption|]. constructor; [exact L|]. eapply Forall_impl; [|exact F]. cbn. intros a Ha. lia.
  - destruct (Z.eqb_spec x z) as [->|N]; [constructor; assumption|]. constructor; [exact IH|]. apply Forall_forall. intros y Hy. apply uinsert_in in Hy. destruct Hy as [->|Hy]; [lia|].
    rewrite Forall_forall in F. apply F. exact Hy.
Qed.
Lemma lt_nodup : forall l, StronglySorted Z.lt l -> NoDup l.
Proof. intros l H. induction H as [|z l H IH F]; constructor; [|exact IH]. intros G. rewrite Forall_forall in F. specialize (F z G). lia. Qed.
Lemma unique_ok : forall l, NoDup (unique l) /\ forall x, In x (unique l) <-> In x l.
Proof.
  intros l. split.
  - apply lt_nodup. induction l as [|x l IH]; [constructor|]. cbn [unique fold_right]. apply uinsert_sorted. exact IH.
  - intros x. induction l as [|y l IH]; [reflexivity|]. cbn [unique fold_right]. rewrite uinsert_in. fold (unique l). rewrite IH. cbn [In]. intuition congruence.
Qed.

(* ---- cutting a sorted list by key ---- *)
Lemma sorted_split : forall (A : Type) (key : A -> Z) a l, StronglySorted (fun x y => key x <= key y)%Z l -> Forall (fun x => a <= key x)%Z l ->
  l = filter (fun x => (key x =? a)%Z) l ++ filter (fun x => negb (key x =? a)%Z) l.
Proof.
  intros A key a l H. induction H as [|x l H IH F]; intros G; [reflexivity|]. inversion G as [|? ? G1 G2]; subst. cbn [filter]. destruct (Z.eqb_spec (key x) a) as [E|E]; cbn [negb app]; [f_equal; apply IH; exact G2|].
  rewrite (filter_none _ (fun x => (key x =? a)%Z) l), (filter_every _ (fun x => negb (key x =? a)%Z) l); [reflexivity| |]; intros y Hy; rewrite Forall_forall in F; specialize (F y Hy); [apply negb_true_iff|]; apply Z.eqb_neq; lia.
Qed.
Lemma sorted_filter : forall (A : Type) (R : A -> A -> Prop) f l, StronglySorted R l -> StronglySorted R (filter f l).
Proof.
  intros A R f l H. induction H as [|x l H IH F]; [constructor|]. cbn [filter]. destruct (f x); [|exact IH]. constructor; [exact IH|]. apply Forall_forall. intros y Hy. apply filter_In in Hy.
  rewrite Forall_forall in F. apply F, Hy.
Qed.
Lemma sorted_parts : forall (A : Type) (key : A -> Z) n a l, StronglySorted (fun x y => key x <= key y)%Z l -> Forall (fun x => Z.of_nat a <= key x < Z.of_nat (a + n))%Z l ->
  concat (map (fun r => filter (fun x => (key x =? Z.of_nat r)%Z) l) (seq a n)) = l.
Proof.
  intros A key. induction n as [|n IH]; intros a l Hs Hf.
  - destruct l as [|x l]; [reflexivity|]. inversion Hf. lia.
  - cbn [seq map concat]. transitivity (filter (fun x => (key x =? Z.of_nat a)%Z) l ++ filter (fun x => negb (key x =? Z.of_nat a)%Z) l).
    2:{ symmetry. apply sorted_split; [exact Hs|]. eapply Forall_impl; [|exact Hf]. cbn. intros x Hx. lia. }
    f_equal. set (l2 := filter (fun x => negb (key x =? Z.of_nat a)%Z) l). rewrite <- (IH (S a) l2).
    + f_equal. apply map_ext_in. intros r Hr. apply in_seq in Hr. unfold l2. clear - Hr. induction l as [|x l IHl]; [reflexivity|]. cbn [filter].
      destruct (Z.eqb_spec (key x) (Z.of_nat a)) as [E|E]; cbn [negb filter]; destruct (Z.eqb_spec (key x) (Z.of_nat r)) as [E'|E']; rewrite IHl; try reflexivity. lia.
    + apply sorted_filter. exact Hs.
    + apply Forall_forall. intros x Hx. apply filter_In in Hx. destruct Hx as [Hx E]. apply negb_true_iff, Z.eqb_neq in E. rewrite Forall_forall in Hf. specialize (Hf x Hx). lia.
Qed.

(* ---- the rows ---- *)
Lemma pig_app : forall memory n a b off, pig memory n off (a ++ b) = pig memory n off a ++ pig memory n (off + zlen a) b.
Proof.
  intros memory n. induction a as [|[p g] a IH]; intros b off; cbn [app pig]; [rewrite Z.add_0_r; reflexivity|]. rewrite IH, <- app_assoc. f_equal. f_equal. f_equal. rewrite zlen_cons. lia.
Qed.
Lemma pigs_concat : forall memory n ranks off, concat (map (fun p => pig memory n (fst p) (snd p)) (with_offsets off ranks)) = pig memory n off (concat ranks).
Proof. intros memory n. induction ranks as [|r ranks IH]; intros off; [reflexivity|]. cbn [with_offsets map concat fst snd]. rewrite pig_app, IH. reflexivity. Qed.
Definition mkrow (memory : Z -> Z * Z) (n : Z) (p : point) (g i : Z) : row :=
  {| w_pos := p; w_label := g; w_rank := g mod n; w_index := i; w_coll := fst (memory i); w_nbr := snd (memory i) |}.
Lemma pig_in : forall memory n objs off w, In w (pig memory n off objs) <->
  exists i p g, nth_error objs i = Some (p, g) /\ g <> 0%Z /\ w = mkrow memory n p g (off + Z.of_nat i).
Proof.
  intros memory n. induction objs as [|[p g] objs IH]; intros off w; cbn [pig].
  - split; [intros []|]. intros [i [p [g [H _]]]]. destruct i; discriminate.
  - rewrite in_app_iff, IH. split.
    + intros [H|[i [p' [g' [H1 [H2 H3]]]]]].
      * destruct (Z.eqb_spec g 0); [destruct H|]. destruct H as [<-|[]]. exists 0, p, g. split; [reflexivity|]. split; [assumption|]. rewrite Z.add_0_r. reflexivity.
      * exists (S i), p', g'. split; [exact H1|]. split; [exact H2|]. rewrite H3. f_equal. lia.
    + intros [i [p' [g' [H1 [H2 H3]]]]]. destruct i as [|i].
      * left. cbn in H1. injection H1 as <- <-. destruct (Z.eqb_spec g 0); [contradiction|]. left. rewrite H3, Z.add_0_r. reflexivity.
      * right. exists i, p', g'. split; [exact H1|]. split; [exact H2|]. rewrite H3. f_equal. lia.
Qed.
Lemma pig_sorted : forall memory n objs off, StronglySorted Z.lt (map w_index (pig memory n off objs)).
Proof.
  intros memory n. induction objs as [|[p g] objs IH]; intros off; cbn [pig]; [constructor|]. destruct (g =? 0)%Z; cbn [app map]; [apply IH|]. constructor; [apply IH|].
  apply Forall_forall. intros x Hx. apply in_map_iff in Hx. destruct Hx as [w [<- Hw]]. apply pig_in in Hw. destruct Hw as [i [p' [g' [_ [_ ->]]]]]. cbn. lia.
Qed.

(* ---- bringing the rows back ---- *)
Definition cn (w : row) : Z * Z := (w_coll w, w_nbr w).
Lemma scatter_ok : forall memory n objs off rows, map frame rows = map frame (pig memory n off objs) ->
  exists out, scatter objs (map cn rows) = Ok out /\ length out = length objs /\
    forall i p g, nth_error objs i = Some (p, g) -> exists v, nth_error out i = Some v /\ (g = 0%Z -> v = (0, -1)%Z) /\
      (g <> 0%Z -> exists w, In w rows /\ w_index w = (off + Z.of_nat i)%Z /\ v = cn w).
Proof.
  intros memory n. induction objs as [|[p g] objs IH]; intros off rows E; cbn [pig] in E.
  - destruct rows; [|discriminate]. exists []. split; [reflexivity|]. split; [reflexivity|]. intros i p g H. destruct i; discriminate.
  - cbn [scatter]. destruct (Z.eqb_spec g 0) as [G|G]; cbn [app map] in E.
    + destruct (IH _ _ E) as [out [O1 [O2 O3]]]. rewrite O1. cbn [rbind]. exists ((0, -1)%Z :: out). split; [reflexivity|]. split; [cbn [length]; lia|].
      intros [|i] p' g' H; cbn [nth_error] in *; [injection H as <- <-; eexists; split; [reflexivity|]; split; [reflexivity|congruence]|].
      destruct (O3 i p' g' H) as [v [V1 [V2 V3]]]. exists v. split; [exact V1|]. split; [exact V2|]. intros N. destruct (V3 N) as [w [W1 [W2 W3]]]. exists w. split; [exact W1|]. split; [lia|exact W3].
    + destruct rows as [|w rows]; [discriminate|]. cbn [map] in E. injection E as _ _ _ E1 E2. destruct (IH _ _ E2) as [out [O1 [O2 O3]]]. cbn [map]. rewrite O1. cbn [rbind].
      exists (cn w :: out). split; [reflexivity|]. split; [cbn [length]; lia|].
      intros [|i] p' g' H; cbn [nth_error] in *.
      * injection H as <- <-. eexists. split; [reflexivity|]. split; [contradiction|]. intros _. exists w. split; [left; reflexivity|]. split; [|reflexivity].
        rewrite Z.add_0_r. cbn in *. lia.
      * destruct (O3 i p' g' H) as [v [V1 [V2 V3]]]. exists v. split; [exact V1|]. split; [exact V2|]. intros N. destruct (V3 N) as [u [W1 [W2 W3]]]. exists u. split; [right; exact W1|]. split; [lia|exact W3].
Qed.
Lemma scatter_all : forall memory n ranks back off,
  map (map frame) back = map (map frame) (map (fun p => pig memory n (fst p) (snd p)) (with_offsets off ranks)) ->
  exists outs, rall (map (fun p => scatter (fst p) (map cn (snd p))) (combine ranks back)) = Ok outs /\ map (@length _) outs = map (@length _) ranks /\
    forall i p g, nth_error (concat ranks) i = Some (p, g) -> exists v, nth_error (concat outs) i = Some v /\ (g = 0%Z -> v = (0, -1)%Z) /\
      (g <> 0%Z -> exists w, In w (concat back) /\ w_index w = (off + Z.of_nat i)%Z /\ v = cn w).
Proof.
  intros memory n. induction ranks as [|r ranks IH]; intros back off E; cbn [with_offsets map] in E.
  - exists []. split; [reflexivity|]. split; [reflexivity|]. intros i p g H. destruct i; discriminate.
  - destruct back as [|b back]; [discriminate|]. cbn [map fst snd] in E. injection E as E1 E2. destruct (scatter_ok _ _ _ _ _ E1) as [out [O1 [O2 O3]]].
    destruct (IH _ _ E2) as [outs [P1 [P2 P3]]]. exists (out :: outs). cbn [combine map rall fst snd]. rewrite O1. cbn [rbind]. rewrite P1. cbn [rbind]. split; [reflexivity|].
    split; [cbn [map]; congruence|]. intros i p g H. cbn [concat] in *. destruct (Nat.lt_ge_cases i (length r)) as [L|L].
    + rewrite nth_error_app1 in H by exact L. rewrite nth_error_app1 by lia. destruct (O3 i p g H) as [v [V1 [V2 V3]]]. exists v. split; [exact V1|]. split; [exact V2|].
      intros N. destruct (V3 N) as [w [W1 W2]]. exists w. split; [apply in_app_iff; left; exact W1|exact W2].
    + rewrite nth_error_app2 in H by exact L. rewrite nth_error_app2 by lia. rewrite O2. destruct (P3 _ p g H) as [v [V1 [V2 V3]]]. exists v. split; [exact V1|]. split; [exact V2|].
      intros N. destruct (V3 N) as [w [W1 [W2 W3]]]. exists w. split; [apply in_app_iff; right; exact W1|]. split; [|exact W3]. rewrite W2. unfold zlen. lia.
Qed.

Lemma filter_perm : forall (A : Type) (f : A -> bool) l l', Permutation l l' -> Permutation (filter f l) (filter f l').
Proof.
  intros A f l l' H. induction H as [|x l l' H IH|x y l|l l' l'' H1 IH1 H2 IH2]; [constructor| | |etransitivity; eassumption].
  - cbn [filter]. destruct (f x); [constructor|]; exact IH.
  - cbn [filter]. destruct (f x), (f y); try apply Permutation_refl. apply perm_swap.
Qed.
Lemma filter_concat : forall (A : Type) (f : A -> bool) ll, filter f (concat ll) = concat (map (filter f) ll).
Proof. intros A f. induction ll as [|l ll IH]; [reflexivity|]. cbn [concat map]. rewrite filter_app, IH. reflexivity. Qed.
Lemma concat_one : forall (A : Type) (F : nat -> list A) r k n, (forall i, k <= i < k + n -> i <> r -> F i = []) -> k <= r < k + n -> concat (map F (seq k n)) = F r.
Proof.
  intros A F r k n. revert k. induction n as [|n IH]; intros k H Hr; [lia|]. cbn [seq map concat]. destruct (Nat.eq_dec k r) as [->|N].
  - assert (E : concat (map F (seq (S r) n)) = []); [|rewrite E; apply app_nil_r]. assert (G : forall i, In i (seq (S r) n) -> F i = []) by (intros i Hi; apply in_seq in Hi; apply H; lia).
    clear - G. induction (seq (S r) n) as [|i l IHl]; [reflexivity|]. cbn [map concat]. rewrite (G i (or_introl eq_refl)). apply IHl. intros j Hj. apply G. right. exact Hj.
  - rewrite (H k) by lia. apply IH; [intros i Hi; apply H; lia|lia].
Qed.
Lemma perm_concat_map : forall (A B : Type) (f : A -> B) (F : list A -> list A) ll, (forall l, Permutation (map f (F l)) (map f l)) -> Permutation (map f (concat (map F ll))) (map f (concat ll)).
Proof. intros A B f F ll H. induction ll as [|l ll IH]; [constructor|]. cbn [map concat]. rewrite !map_app. apply Permutation_app; [apply H|exact IH]. Qed.

Lemma in_combine_map : forall (A B : Type) (F : A -> B) l a b, In (a, b) (combine l (map F l)) -> b = F a.
Proof. intros A B F l a b. induction l as [|x l IH]; [intros []|]. cbn [map combine]. intros [H|H]; [injection H as <- <-; reflexivity|apply IH; exact H]. Qed.
Lemma in_map_inj : forall (A B : Type) (f : A -> B) l x y, NoDup (map f l) -> In x l -> In y l -> f x = f y -> x = y.
Proof.
  intros A B f l x y. induction l as [|z l IH]; [intros _ []|]. cbn [map]. intros Hn Hx Hy E. inversion Hn as [|? ? N1 N2]; subst. destruct Hx as [->|Hx], Hy as [->|Hy]; [reflexivity| | |apply IH; assumption].
  - exfalso. apply N1. rewrite E. apply in_map. exact Hy.
  - exfalso. apply N1. rewrite <- E. apply in_map. exact Hx.
Qed.

Lemma filter_filter_sub : forall (A : Type) (f g : A -> bool) l, (forall x, In x l -> g x = true -> f x = true) -> filter g (filter f l) = filter g l.
Proof.
  intros A f g l H. induction l as [|x l IH]; [reflexivity|]. cbn [filter]. assert (IH' := IH (fun v Hv => H v (or_intror Hv))). specialize (H x (or_introl eq_refl)).
  destruct (g x) eqn:L; [rewrite (H eq_refl); cbn [filter]; rewrite L, IH'; reflexivity|]. destruct (f x); cbn [filter]; [rewrite L|]; exact IH'.
Qed.
Section Global.
Variables (r2 : Qc) (draws : nat -> nat) (mpsort : list Z -> (row -> Z) -> list (list row) -> list (list row)) (lsort : list row -> list row) (memory : Z -> Z * Z).
Hypothesis Hmp : mpsort_out_contract mpsort.
Hypothesis Hls : forall l, Permutation (lsort l) l.
Variable ranks : list (list (point * Z)).
Hypothesis Htwo : at_least_two (concat ranks).
Let n := zlen ranks.
Let objs := concat ranks.
Let pigs := map (fun p => pig memory n (fst p) (snd p)) (with_offsets 0 ranks).
Let G := pig memory n 0 objs.
Let counts := map (fun r => zlen (filter (fun w => (w_rank w =? Z.of_nat r)%Z) (concat pigs))) (seq 0 (length ranks)).
Let pig2 := mpsort counts w_rank pigs.
Let doit := fun rows => assign_groups r2 draws (unique (map w_label rows)) 0 (lsort rows).
Let done := map doit pig2.
Let back := mpsort (map zlen pigs) w_index done.

Lemma pigs_G : concat pigs = G. Proof using All. unfold pigs, G. apply pigs_concat. Qed.
Lemma G_in : forall w, In w G <-> exists i p g, nth_error objs i = Some (p, g) /\ g <> 0%Z /\ w = mkrow memory n p g (Z.of_nat i).
Proof using All. intros w. unfold G. rewrite pig_in. cbn [Z.add]. reflexivity. Qed.
Lemma n_pos_of : forall w, In w G -> (0 < n)%Z.
Proof using All.
  intros w Hw. apply G_in in Hw. destruct Hw as [i [p [g [H _]]]]. unfold n, objs in *. destruct ranks as [|r rs]; [destruct i; discriminate|]. rewrite zlen_cons. pose proof (zlen_nonneg rs). lia.
Qed.
Lemma G_rank : forall w, In w G -> w_rank w = (w_label w mod n)%Z /\ (0 <= w_rank w < n)%Z.
Proof using All.
  intros w Hw. pose proof (n_pos_of w Hw) as Hn. apply G_in in Hw. destruct Hw as [i [p [g [_ [_ ->]]]]]. cbn [mkrow w_rank w_label]. split; [reflexivity|]. apply Z.mod_pos_bound. exact Hn.
Qed.
Lemma zlen_perm : forall (A : Type) (l l' : list A), Permutation l l' -> zlen l = zlen l'.
Proof using. intros A l l' H. unfold zlen. rewrite (Permutation_length H). reflexivity. Qed.

Lemma pig2_ok : Permutation (concat pig2) G /\ pig2 = map (fun r => filter (fun w => (w_rank w =? Z.of_nat r)%Z) (concat pig2)) (seq 0 (length ranks)).
Proof using All.
  assert (Hrange : Forall (fun w => Z.of_nat 0 <= w_rank w < Z.of_nat (0 + length ranks))%Z G).
  { apply Forall_forall. intros w Hw. destruct (G_rank w Hw) as [_ H]. unfold n, zlen in H. cbn [Nat.add]. lia. }
  destruct (Hmp counts w_rank pigs) as [M1 [M2 M3]].
  - apply Forall_forall. intros c Hc. apply in_map_iff in Hc. destruct Hc as [r [<- _]]. apply zlen_nonneg.
  - unfold global. rewrite pigs_G. unfold counts. rewrite pigs_G.
    rewrite <- (map_map (fun r => filter (fun w => (w_rank w =? Z.of_nat r)%Z) G) zlen), <- zlen_concat. apply zlen_perm.
    rewrite <- (map_map Z.of_nat (fun g => filter (fun w => (w_rank w =? g)%Z) G)). apply partition_perm.
    + apply FinFun.Injective_map_NoDup; [intros a b; lia|apply seq_NoDup].
    + intros w Hw. rewrite Forall_forall in Hrange. specialize (Hrange w Hw). apply in_map_iff. exists (Z.to_nat (w_rank w)). split; [lia|]. apply in_seq. lia.
  - fold pig2 in M1, M2, M3. unfold global in *. rewrite pigs_G in M2. split; [exact M2|]. apply same_parts.
    + rewrite map_map. assert (E : map zlen pig2 = map zlen (map (fun r => filter (fun w => (w_rank w =? Z.of_nat r)%Z) (concat pig2)) (seq 0 (length ranks)))).
      { rewrite M1, map_map. unfold counts. apply map_ext. intros r. apply zlen_perm. apply filter_perm. rewrite pigs_G. symmetry. exact M2. }
      rewrite map_map in E. apply (f_equal (map Z.to_nat)) in E. rewrite !map_map in E. unfold zlen in E. etransitivity; [|etransitivity; [exact E|]]; apply map_ext; intros a; lia.
    + symmetry. apply sorted_parts; [exact M3|]. eapply Permutation_Forall; [symmetry; exact M2|exact Hrange].
Qed.
Lemma assert_ok : forallb (fun p => forallb (fun w => (w_rank w =? Z.of_nat (fst p))%Z) (snd p)) (combine (seq 0 (length ranks)) pig2) = true.
Proof using All.
  destruct pig2_ok as [_ E]. rewrite E. apply forallb_forall. intros [r rows] H. cbn [fst snd]. apply forallb_forall. intros w Hw.
  assert (Er : rows = filter (fun w => (w_rank w =? Z.of_nat r)%Z) (concat pig2)).
  { exact (in_combine_map _ _ (fun r => filter (fun w => (w_rank w =? Z.of_nat r)%Z) (concat pig2)) _ _ _ H). }
  subst rows. apply filter_In in Hw. apply Hw.
Qed.
Lemma doit_frame : forall rows, Permutation (map frame (doit rows)) (map frame rows).
Proof using Hls.
  intros rows. unfold doit. rewrite groups_frame. apply Permutation_map. destruct (unique_ok (map w_label rows)) as [U1 U2]. etransitivity; [|apply Hls].
  unfold lab. apply (partition_perm row w_label); [exact U1|]. intros w Hw. apply U2. apply in_map. eapply Permutation_in; [apply Hls|exact Hw].
Qed.
Lemma doit_filter : forall rows g, exists k ms, filter (lab g) (doit rows) = fst (assign_group r2 draws k ms) /\ Permutation ms (filter (lab g) rows).
Proof using Hls.
  intros rows g. unfold doit. destruct (unique_ok (map w_label rows)) as [U1 U2]. destruct (groups_filter r2 draws (unique (map w_label rows)) 0 (lsort rows) g U1) as [F1 F2].
  destruct (in_dec Z.eq_dec g (unique (map w_label rows))) as [D|D].
  - destruct (F1 D) as [k E]. exists k, (filter (lab g) (lsort rows)). split; [exact E|]. apply filter_perm. apply Hls.
  - exists 0, []. split; [exact (F2 D)|]. rewrite filter_none; [constructor|]. intros w Hw. unfold lab. apply Z.eqb_neq. intros <-. apply D. apply U2. apply in_map. exact Hw.
Qed.
Lemma done_frame : Permutation (map frame (concat done)) (map frame G).
Proof using All. unfold done. etransitivity; [apply perm_concat_map; exact doit_frame|]. apply Permutation_map. apply pig2_ok. Qed.
Lemma done_filter : forall w0, In w0 G -> exists k ms, filter (lab (w_label w0)) (concat done) = fst (assign_group r2 draws k ms) /\ Permutation ms (filter (lab (w_label w0)) G).
Proof using All.
  intros w0 Hw0. set (g := w_label w0). destruct pig2_ok as [P2 E2]. destruct (G_rank w0 Hw0) as [R1 R2]. set (r := Z.to_nat (w_rank w0)).
  set (part := fun r => filter (fun w => (w_rank w =? Z.of_nat r)%Z) (concat pig2)) in *. destruct (doit_filter (part r) g) as [k [ms [D1 D2]]]. exists k, ms.
  assert (Hpart : forall i, i <> r -> filter (lab g) (part i) = []).
  { intros i Hi. apply filter_none. intros w Hw. unfold part in Hw. apply filter_In in Hw. destruct Hw as [Hw Hr]. apply Z.eqb_eq in Hr. unfold lab. apply Z.eqb_neq. intros Hg.
    assert (Hw' : In w G) by (eapply Permutation_in; [exact P2|exact Hw]). destruct (G_rank w Hw') as [Q1 Q2]. apply Hi. unfold r. rewrite R1. fold g. rewrite <- Hg, <- Q1, Hr. lia. }
  split.
  - rewrite <- D1, filter_concat. unfold done. rewrite E2, !map_map. apply (concat_one row (fun i => filter (lab g) (doit (part i)))).
    + intros i _ Hi. destruct (doit_filter (part i) g) as [k' [ms' [D1' D2']]]. rewrite D1'. rewrite (Hpart i Hi) in D2'. apply Permutation_sym, Permutation_nil in D2'. subst ms'. reflexivity.
    + unfold r. unfold n, zlen in R2. lia.
  - etransitivity; [exact D2|]. etransitivity; [|apply filter_perm; exact P2]. apply Permutation_refl'. unfold part. apply filter_filter_sub.
    intros w Hw Hg. apply Z.eqb_eq in Hg. assert (Hw' : In w G) by (eapply Permutation_in; [exact P2|exact Hw]). destruct (G_rank w Hw') as [Q1 _]. apply Z.eqb_eq. unfold r. rewrite Q1, Hg. fold g in R1. rewrite <- R1. lia.
Qed.
Lemma G_index : NoDup (map w_index G).
Proof using All. apply lt_nodup. apply pig_sorted. Qed.
Lemma back_ok : Permutation (concat back) (concat done) /\ map (map frame) back = map (map frame) pigs.
Proof using All.
  destruct (Hmp (map zlen pigs) w_index done) as [M1 [M2 M3]].
  - apply Forall_forall. intros c Hc. apply in_map_iff in Hc. destruct Hc as [l [<- _]]. apply zlen_nonneg.
  - unfold global. rewrite <- zlen_concat, pigs_G. rewrite <- (zlen_map frame G), <- (zlen_map frame (concat done)). apply zlen_perm. symmetry. exact done_frame.
  - fold back in M1, M2, M3. unfold global in *. split; [exact M2|]. apply same_parts.
    + rewrite !map_map. apply (f_equal (map Z.to_nat)) in M1. rewrite !map_map in M1. unfold zlen in M1.
      etransitivity; [|etransitivity; [exact M1|]]; apply map_ext; intros a; rewrite ?map_length; lia.
    + rewrite <- !concat_map. rewrite pigs_G. symmetry. apply (sorted_perm_unique (fun f : point * Z * Z * Z => snd f)).
      * etransitivity; [symmetry; exact done_frame|]. apply Permutation_map. symmetry. exact M2.
      * rewrite map_map. cbn [frame snd]. exact G_index.
      * pose proof (pig_sorted memory n objs 0) as PS. fold G in PS. clear - PS. induction G as [|w l IH]; cbn [map] in *; [constructor|]. inversion PS as [|? ? PS1 PS2]; subst. constructor; [apply IH; exact PS1|].
        apply Forall_forall. intros f Hf. apply in_map_iff in Hf. destruct Hf as [v [<- Hv]]. rewrite Forall_forall in PS2. specialize (PS2 (w_index v) (in_map _ _ _ Hv)). cbn [frame snd]. lia.
      * clear - M3. induction M3 as [|w l M3 IH F]; cbn [map]; constructor; [exact IH|]. apply Forall_forall. intros f Hf. apply in_map_iff in Hf. destruct Hf as [v [<- Hv]].
        rewrite Forall_forall in F. exact (F v Hv).
Qed.
Let B := concat back.
Lemma B_frame : map frame B = map frame G.
Proof using All. destruct back_ok as [_ E]. unfold B. rewrite concat_map, E, <- concat_map, pigs_G. reflexivity. Qed.
Lemma B_index : NoDup (map w_index B).
Proof using All.
  assert (E : map w_index B = map w_index G); [|rewrite E; exact G_index]. pose proof (f_equal (map (fun f : point * Z * Z * Z => snd f)) B_frame) as E. rewrite !map_map in E. exact E.
Qed.
Lemma B_inj : forall w v, In w B -> In v B -> w_index w = w_index v -> w = v.
Proof using All. intros w v Hw Hv E. apply (in_map_inj _ _ w_index B); [exact B_index|assumption|assumption|exact E]. Qed.
Lemma B_row : forall i p g, nth_error objs i = Some (p, g) -> g <> 0%Z -> exists w, In w B /\ w_pos w = p /\ w_label w = g /\ w_index w = Z.of_nat i.
Proof using All.
  intros i p g H N. assert (Hm : In (mkrow memory n p g (Z.of_nat i)) G) by (apply G_in; exists i, p, g; auto).
  destruct (map_frame_in G B _ (eq_sym B_frame) Hm) as [w [Hw E]]. apply frame_eq in E. exists w. split; [exact Hw|]. cbn [mkrow w_pos w_label w_index] in E. intuition.
Qed.
Lemma B_conv : forall w, In w B -> exists i, nth_error objs i = Some (w_pos w, w_label w) /\ w_label w <> 0%Z /\ w_index w = Z.of_nat i.
Proof using All.
  intros w Hw. destruct (map_frame_in B G _ B_frame Hw) as [v [Hv E]]. apply frame_eq in E. apply G_in in Hv. destruct Hv as [i [p [g [H1 [H2 ->]]]]]. cbn [mkrow w_pos w_label w_index] in E.
  destruct E as [E1 [E2 [_ E3]]]. exists i. rewrite <- E1, <- E2, <- E3. auto.
Qed.
Lemma nodup_map_filter : forall (A C : Type) (f : A -> C) q l, NoDup (map f l) -> NoDup (map f (filter q l)).
Proof using.
  intros A C f q l. induction l as [|x l IH]; [intros H; exact H|]. cbn [map filter]. intros H. inversion H as [|? ? N1 N2]; subst. destruct (q x); [|apply IH; exact N2]. cbn [map]. constructor; [|apply IH; exact N2].
  intros Hx. apply N1. apply in_map_iff in Hx. destruct Hx as [y [E Hy]]. apply filter_In in Hy. rewrite <- E. apply in_map. apply Hy.
Qed.
Lemma B_group : forall g i0 p0, nth_error objs i0 = Some (p0, g) -> g <> 0%Z -> exists out big, group_ok r2 big out /\ (forall w, In w out <-> In w B /\ w_label w = g) /\
  (forall a b, i0 <> a -> i0 <> b -> a <> b -> option_map snd (nth_error objs a) = Some g -> option_map snd (nth_error objs b) = Some g -> big = true).
Proof using All.
  intros g i0 p0 H0 N0. set (w0 := mkrow memory n p0 g (Z.of_nat i0)). assert (Hw0 : In w0 G) by (apply G_in; exists i0, p0, g; auto).
  destruct (done_filter w0 Hw0) as [k [ms [D1 D2]]]. change (w_label w0) with g in *.
  assert (Hidx : NoDup (map w_index ms)). { eapply Permutation_NoDup; [apply Permutation_map; symmetry; exact D2|]. apply nodup_map_filter. exact G_index. }
  assert (Hin : forall j q, nth_error objs j = Some (q, g) -> In (Z.of_nat j) (map w_index ms)).
  { intros j q Hj. eapply Permutation_in; [apply Permutation_map; symmetry; exact D2|]. apply in_map_iff. exists (mkrow memory n q g (Z.of_nat j)). split; [reflexivity|].
    apply filter_In. split; [apply G_in; exists j, q, g; auto|]. unfold lab. cbn [mkrow w_label]. apply Z.eqb_refl. }
  assert (H2 : 2 <= length ms).
  { destruct (Htwo i0 p0 g H0 N0) as [j [q [Hj1 Hj2]]]. rewrite <- (map_length w_index ms). change 2 with (length [Z.of_nat i0; Z.of_nat j]). apply NoDup_incl_length.
    - constructor; [|constructor; [intros []|constructor]]. intros [E|[]]. apply Hj1. lia.
    - intros x [<-|[<-|[]]]; [apply (Hin i0 p0 H0)|apply (Hin j q Hj2)]. }
  destruct (assign_group_ok r2 draws k ms H2 Hidx) as [_ GO]. rewrite <- D1 in GO. eexists. eexists. split; [exact GO|]. split.
  - intros w. rewrite filter_In. unfold lab. rewrite Z.eqb_eq. destruct back_ok as [PB _]. split; intros [W1 W2]; (split; [|exact W2]); [eapply Permutation_in; [symmetry; exact PB|exact W1]|eapply Permutation_in; [exact PB|exact W1]].
  - intros a b Ha Hb Hab Oa Ob. apply Nat.ltb_lt. rewrite <- (map_length w_index ms).
    destruct (nth_error objs a) as [[pa ga]|] eqn:Ea; [|discriminate]. destruct (nth_error objs b) as [[pb gb]|] eqn:Eb; [|discriminate]. cbn in Oa, Ob. injection Oa as ->. injection Ob as ->.
    enough (3 <= length (map w_index ms)) by lia. change 3 with (length [Z.of_nat i0; Z.of_nat a; Z.of_nat b]). apply NoDup_incl_length.
    + constructor; [intros [E|[E|[]]]; lia|]. constructor; [intros [E|[]]; lia|]. constructor; [intros []|constructor].
    + intros x [<-|[<-|[<-|[]]]]; eapply Hin; eassumption.
Qed.

Theorem fibers_ok : exists outs, assign_fibers r2 draws mpsort lsort memory ranks = Ok outs /\ map (@length _) outs = map (@length _) ranks /\ assigned r2 (concat ranks) (concat outs).
Proof using All.
  assert (RUN : assign_fibers r2 draws mpsort lsort memory ranks = rall (map (fun p => scatter (fst p) (map cn (snd p))) (combine ranks back))).
  { change (assign_fibers r2 draws mpsort lsort memory ranks) with
      (if negb (forallb (fun p => forallb (fun w => (w_rank w =? Z.of_nat (fst p))%Z) (snd p)) (combine (seq 0 (length ranks)) pig2))
       then Err AssertionError else rall (map (fun p => scatter (fst p) (map cn (snd p))) (combine ranks back))). rewrite assert_ok. reflexivity. }
  destruct (scatter_all memory n ranks back 0 (proj2 back_ok)) as [outs [O1 [O2 O3]]]. exists outs. rewrite RUN. split; [exact O1|]. split; [exact O2|].
  fold B in O3. fold objs in O3 |- *.
  assert (LEN : length (concat outs) = length objs).
  { unfold objs. rewrite <- (map_length fst (concat ranks)). rewrite map_length. clear - O2. revert O2. generalize ranks. induction outs as [|o outs IH]; intros [|r rs] E; try discriminate; [reflexivity|]. cbn [map] in E. injection E as E1 E2.
    cbn [concat]. rewrite !app_length, E1, (IH rs E2). reflexivity. }
  (* what is reported for a row of the group *)
  assert (OUT : forall w, In w B -> exists i, nth_error objs i = Some (w_pos w, w_label w) /\ w_label w <> 0%Z /\ w_index w = Z.of_nat i /\ nth_error (concat outs) i = Some (cn w)).
  { intros w Hw. destruct (B_conv w Hw) as [i [H1 [H2 H3]]]. exists i. split; [exact H1|]. split; [exact H2|]. split; [exact H3|]. destruct (O3 i _ _ H1) as [v [V1 [_ V3]]]. rewrite V1.
    destruct (V3 H2) as [u [U1 [U2 U3]]]. rewrite U3. f_equal. f_equal. apply B_inj; [exact U1|exact Hw|lia]. }
  assert (ROW : forall i p g v, nth_error objs i = Some (p, g) -> nth_error (concat outs) i = Some v -> g <> 0%Z -> exists w, In w B /\ w_pos w = p /\ w_label w = g /\ w_index w = Z.of_nat i /\ v = cn w).
  { intros i p g v H1 H2 N. destruct (B_row i p g H1 N) as [w [W1 [W2 [W3 W4]]]]. exists w. repeat (split; [assumption|]). destruct (OUT w W1) as [j [J1 [J2 [J3 J4]]]].
    assert (j = i) by lia. subst j. congruence. }
  assert (OBJ : forall i v, nth_error (concat outs) i = Some v -> exists p g, nth_error objs i = Some (p, g)).
  { intros i v H. destruct (nth_error objs i) as [[p g]|] eqn:E; [exists p, g; reflexivity|]. apply nth_error_None in E. assert (i < length (concat outs)) by (apply nth_error_Some; congruence). lia. }
  assert (ZERO : forall i p, nth_error objs i = Some (p, 0%Z) -> nth_error (concat outs) i = Some (0, -1)%Z).
  { intros i p H. destruct (O3 i p 0%Z H) as [v [V1 [V2 _]]]. rewrite V1, (V2 eq_refl). reflexivity. }
  constructor; [exact LEN| |exact ZERO| | | |].
  - intros i c m H. destruct (OBJ i _ H) as [p [g Hp]]. destruct (Z.eq_dec g 0) as [->|N]; [rewrite (ZERO i p Hp) in H; injection H as <- _; left; reflexivity|].
    destruct (ROW i p g _ Hp H N) as [w [W1 [W2 [W3 [W4 W5]]]]]. destruct (B_group g i p Hp N) as [out [big [GO [GI _]]]]. unfold cn in W5. injection W5 as -> ->.
    apply (g_flag _ _ _ GO). apply GI. auto.
  - intros i j p q g m m' Hij Hi Hj N Oi Oj. destruct (ROW i p g _ Hi Oi N) as [w [W1 [W2 [W3 [W4 W5]]]]]. destruct (ROW j q g _ Hj Oj N) as [v [V1 [V2 [V3 [V4 V5]]]]].
    destruct (B_group g i p Hi N) as [out [big [GO [GI _]]]]. unfold cn in W5, V5. injection W5 as W5 _. injection V5 as V5 _. subst p q.
    apply (g_apart _ _ _ GO); try (apply GI; auto); try congruence. lia.
  - intros i m H. destruct (OBJ i _ H) as [p [g Hp]]. destruct (Z.eq_dec g 0) as [->|N]; [rewrite (ZERO i p Hp) in H; injection H as <-; reflexivity|].
    destruct (ROW i p g _ Hp H N) as [w [W1 [W2 [W3 [W4 W5]]]]]. destruct (B_group g i p Hp N) as [out [big [GO [GI _]]]]. unfold cn in W5. injection W5 as W5 ->.
    apply (g_none _ _ _ GO); [apply GI; auto|congruence].
  - intros i p g m Hp H. assert (N : g <> 0%Z) by (intros ->; rewrite (ZERO i p Hp) in H; discriminate). split; [exact N|].
    destruct (ROW i p g _ Hp H N) as [w [W1 [W2 [W3 [W4 W5]]]]]. destruct (B_group g i p Hp N) as [out [big [GO [GI _]]]]. unfold cn in W5. injection W5 as W5 W6.
    destruct (g_nearest _ _ _ GO w) as [v [V1 [V2 [V3 V4]]]]; [apply GI; auto|congruence|]. apply GI in V1. destruct V1 as [V1 Vl]. destruct (OUT v V1) as [j [J1 [J2 [J3 J4]]]].
    assert (Vn : w_nbr v = (-1)%Z) by (apply (g_none _ _ _ GO); [apply GI; auto|exact V2]).
    exists j, (w_pos v). rewrite Vl in J1. unfold cn in J4. rewrite V2, Vn in J4. split; [congruence|]. split; [exact J1|]. split; [exact J4|].
    intros j' q' Hj' Oj'. destruct (ROW j' q' g _ Hj' Oj' N) as [u [U1 [U2 [U3 [U4 U5]]]]]. unfold cn in U5. injection U5 as U5 _. subst p q'. apply V4; [apply GI; auto|congruence].
  - intros i p g m a b Hp H Ha Hb Hab Oa Ob. assert (N : g <> 0%Z) by (intros ->; rewrite (ZERO i p Hp) in H; discriminate).
    destruct (ROW i p g _ Hp H N) as [w [W1 [W2 [W3 [W4 W5]]]]]. destruct (B_group g i p Hp N) as [out [big [GO [GI GB]]]]. unfold cn in W5. injection W5 as W5 W6.
    specialize (GB a b Ha Hb Hab Oa Ob). destruct (g_reason _ _ _ GO GB w) as [v [V1 [V2 V3]]]; [apply GI; auto|congruence|]. apply GI in V1. destruct V1 as [V1 Vl]. destruct (OUT v V1) as [j [J1 [J2 [J3 J4]]]].
    exists j, (w_pos v). split; [lia|]. split; [congruence|]. subst p. exact V3.
Qed.
Theorem fibers_linked : linked r2 (concat ranks) -> forall outs, assign_fibers r2 draws mpsort lsort memory ranks = Ok outs ->
  forall i j p q, i <> j -> option_map fst (nth_error (concat ranks) i) = Some p -> option_map fst (nth_error (concat ranks) j) = Some q -> (d2 p q <= r2)%Qc ->
  ~ (option_map fst (nth_error (concat outs) i) = Some 0%Z /\ option_map fst (nth_error (concat outs) j) = Some 0%Z).
Proof using All.
  intros HL outs E i j p q Hij Hi Hj Hd [Oi Oj]. destruct fibers_ok as [outs' [E' [_ A]]]. rewrite E in E'. injection E' as <-.
  destruct (nth_error (concat ranks) i) as [[pi g]|] eqn:Ei; [|discriminate]. destruct (nth_error (concat ranks) j) as [[pj h]|] eqn:Ej; [|discriminate]. cbn in Hi, Hj. injection Hi as ->. injection Hj as ->.
  destruct (HL i j p q g h Hij Ei Ej Hd) as [<- N].
  destruct (nth_error (concat outs) i) as [[ci ni]|] eqn:Fi; [|discriminate]. destruct (nth_error (concat outs) j) as [[cj nj]|] eqn:Fj; [|discriminate]. cbn in Oi, Oj. injection Oi as ->. injection Oj as ->.
  pose proof (as_apart _ _ _ A i j p q g ni nj Hij Ei Ej N Fi Fj) as L. apply (Qclt_not_le _ _ L Hd).
Qed.
End Global.
