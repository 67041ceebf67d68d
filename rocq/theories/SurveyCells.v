(* Poisson sampling *)
From Coq Require Import Qround Sorting.Sorted Sorting.Permutation.
From Verif Require Import Base BaseProofs Num SurveyModel SurveySpec SurveyProofs.
Local Open Scope Qc_scope.

Lemma floor_le : forall x : Qc, zq (zfloor x) <= x.
Proof. intros x. unfold zfloor, Qcle, zq. cbn [this Q2Qc]. rewrite Qred_correct. apply Qfloor_le. Qed.
Lemma floor_gt : forall x : Qc, x < zq (zfloor x + 1).
Proof. intros x. unfold zfloor, Qclt, zq. cbn [this Q2Qc]. rewrite Qred_correct. apply Qlt_floor. Qed.
Lemma floor_eq : forall x z, zq z <= x -> x < zq (z + 1) -> zfloor x = z.
Proof.
  intros x z H1 H2. pose proof (floor_le x) as H3. pose proof (floor_gt x) as H4.
  assert (zq z < zq (zfloor x + 1)) as A by (eapply Qcle_lt_trans; eassumption).
  assert (zq (zfloor x) < zq (z + 1)) as B by (eapply Qcle_lt_trans; eassumption).
  apply (proj2 (zq_lt _ _)) in A. apply (proj2 (zq_lt _ _)) in B. lia.
Qed.
Lemma pos_ne : forall h : Qc, 0 < h -> h <> 0.
Proof. intros h H E. rewrite E in H. exact (Qclt_not_eq _ _ H eq_refl). Qed.
Lemma cell_index_corner : forall h c, 0 < h -> cell_index h (zq c * h) = c.
Proof.
  intros h c Hh. unfold cell_index. replace (zq c * h / h) with (zq c) by (field; apply pos_ne; exact Hh).
  assert (0 < half /\ half < 1) as [Hh1 Hh2] by (split; reflexivity).
  apply floor_eq; [|rewrite zq_add, zq_1]; set (y := zq c); clearbody y; qc_lra.
Qed.

(* the ordering key of a cell *)
Fixpoint key_tail (acc : Z) (ns : list Z) (cs : cell) : Z :=
  match ns, cs with n :: ns, c :: cs => key_tail (acc * n + c)%Z ns cs | _, _ => acc end.
Definition key (ns : list Z) (cs : cell) : Z := match ns, cs with _ :: ns, c :: cs => key_tail c ns cs | _, _ => 0%Z end.
Lemma orderby_corner : forall ns H cs, Forall (fun h => 0 < h) H -> length H = length ns -> length cs = length ns ->
  orderby ns H (corner H cs) = key ns cs.
Proof.
  intros [|n ns] [|h H] [|c cs] Hp Hl1 Hl2; try discriminate; [reflexivity|]. unfold orderby, corner, key. cbn [combine map fst snd].
  inversion Hp as [|? ? Hh Hp']. subst. rewrite cell_index_corner by exact Hh.
  cbn [length] in Hl1, Hl2. assert (E1 : length H = length ns) by lia. assert (E2 : length cs = length ns) by lia. clear Hl1 Hl2 Hp Hh h n.
  revert ns cs E1 E2. generalize c. induction Hp' as [|h H Hh Hp' IH]; intros acc ns cs E1 E2.
  - destruct ns; [|discriminate]. destruct cs; [|discriminate]. reflexivity.
  - destruct ns as [|n ns]; [discriminate|]. destruct cs as [|c' cs]; [discriminate|]. cbn [combine map fold_left fst snd key_tail].
    rewrite cell_index_corner by exact Hh. apply IH; cbn in *; lia.
Qed.
Definition zprod (l : list Z) : Z := fold_right Z.mul 1%Z l.
Lemma key_tail_bounds : forall ns cs, valid_cell ns cs -> forall acc, (acc * zprod ns <= key_tail acc ns cs < (acc + 1) * zprod ns)%Z.
Proof.
  intros ns cs H. induction H as [|n c ns cs Hc H IH]; intros acc.
  - cbn. lia.
  - cbn [key_tail]. change (zprod (n :: ns)) with (n * zprod ns)%Z. specialize (IH (acc * n + c)%Z).
    assert (Hp : (0 < zprod ns)%Z).
    { clear - H. induction H as [|n c ns cs Hc H IH]; [reflexivity|]. change (zprod (n :: ns)) with (n * zprod ns)%Z. apply Z.mul_pos_pos; lia. }
    set (P := zprod ns) in *. clearbody P. nia.
Qed.
Lemma key_tail_lt : forall ns a b, valid_cell ns a -> valid_cell ns b -> forall x y,
  (x < y)%Z -> (key_tail x ns a < key_tail y ns b)%Z.
Proof.
  intros ns a b Ha Hb x y Hxy. pose proof (key_tail_bounds ns a Ha x). pose proof (key_tail_bounds ns b Hb y).
  assert (Hp : (0 < zprod ns)%Z).
  { clear - Ha. induction Ha as [|n c ns cs Hc H IH]; [reflexivity|]. change (zprod (n :: ns)) with (n * zprod ns)%Z. apply Z.mul_pos_pos; lia. }
  set (P := zprod ns) in *. clearbody P. nia.
Qed.
Lemma lex_total : forall a b, length a = length b -> lex_lt a b \/ a = b \/ lex_lt b a.
Proof.
  induction a as [|x a IH]; intros [|y b] H; try discriminate; [auto|].
  destruct (Z.lt_trichotomy x y) as [G|[G|G]]; [left; constructor; exact G| |right; right; constructor; exact G].
  subst y. destruct (IH b) as [G|[G|G]]; [cbn in H; lia|left; constructor 2; exact G|right; left; congruence|right; right; constructor 2; exact G].
Qed.
Lemma key_lex : forall ns a b, valid_cell ns a -> valid_cell ns b -> lex_lt a b -> (key ns a < key ns b)%Z.
Proof.
  intros ns a b Ha Hb H. destruct ns as [|n ns]; [inversion Ha; subst; inversion H|].
  assert (Ht : forall ns a b, valid_cell ns a -> valid_cell ns b -> lex_lt a b -> forall acc, (key_tail acc ns a < key_tail acc ns b)%Z).
  { clear. intros ns a b Ha Hb H. revert ns Ha Hb. induction H as [x y l m Hxy|x l m H IH]; intros ns Ha Hb acc; inversion Ha; subst; inversion Hb; subst; cbn [key_tail].
    - apply key_tail_lt; try assumption. lia.
    - apply IH; assumption. }
  inversion H as [x y l m Hxy|x l m Hlm]; subst; inversion Ha; subst; inversion Hb; subst; cbn [key].
  - apply key_tail_lt; assumption.
  - apply Ht; assumption.
Qed.
Lemma valid_length : forall ns c, valid_cell ns c -> length c = length ns.
Proof. intros ns c H. induction H; [reflexivity|]. cbn. congruence. Qed.
Lemma key_lex_iff : forall ns a b, valid_cell ns a -> valid_cell ns b -> ((key ns a < key ns b)%Z <-> lex_lt a b).
Proof.
  intros ns a b Ha Hb. split; [|apply key_lex; assumption]. intros H.
  destruct (lex_total a b) as [G|[G|G]]; [rewrite (valid_length _ _ Ha), (valid_length _ _ Hb); reflexivity|exact G|subst; lia|].
  pose proof (key_lex ns b a Hb Ha G). lia.
Qed.
Lemma key_inj : forall ns a b, valid_cell ns a -> valid_cell ns b -> key ns a = key ns b -> a = b.
Proof.
  intros ns a b Ha Hb H.
  destruct (lex_total a b) as [G|[G|G]]; [rewrite (valid_length _ _ Ha), (valid_length _ _ Hb); reflexivity| |exact G|].
  - pose proof (key_lex ns a b Ha Hb G). lia.
  - pose proof (key_lex ns b a Hb Ha G). lia.
Qed.
Lemma orderby_lex : forall ns H a b, Forall (fun h => 0 < h) H -> length H = length ns -> valid_cell ns a -> valid_cell ns b ->
  ((orderby ns H (corner H a) < orderby ns H (corner H b))%Z <-> lex_lt a b).
Proof.
  intros ns H a b Hp Hl Ha Hb. rewrite !orderby_corner; try assumption; try (apply valid_length; assumption). apply key_lex_iff; assumption.
Qed.
Lemma orderby_inj : forall ns H a b, Forall (fun h => 0 < h) H -> length H = length ns -> valid_cell ns a -> valid_cell ns b ->
  orderby ns H (corner H a) = orderby ns H (corner H b) -> a = b.
Proof.
  intros ns H a b Hp Hl Ha Hb. rewrite !orderby_corner; try assumption; try (apply valid_length; assumption). apply key_inj; assumption.
Qed.

(* ---- inside the cell ---- *)
Lemma qmod_small : forall x y, 0 < y -> 0 <= x -> x < y -> qmod x y = x.
Proof.
  intros x y Hy Hx Hxy. unfold qmod. replace (zfloor (x / y)) with 0%Z; [rewrite zq_0; ring|]. symmetry. pose proof (pos_ne y Hy) as Hne.
  assert (Hx' : x = x / y * y) by (field; exact Hne).
  apply floor_eq.
  - destruct (Qclt_le_dec (x / y) (zq 0)) as [G|G]; [|exact G]. exfalso.
    assert (x / y * y < zq 0 * y) by (apply Qcmult_lt_compat_r; assumption). rewrite zq_0 in H. rewrite <- Hx' in H.
    apply (Qclt_not_le _ _ H). replace (0 * y) with 0 by ring. exact Hx.
  - destruct (Qclt_le_dec (x / y) (zq (0 + 1))) as [G|G]; [exact G|]. exfalso.
    assert (zq (0 + 1) * y <= x / y * y) by (apply Qcmult_le_compat_r; [exact G|apply Qclt_le_weak; exact Hy]). rewrite <- Hx' in H.
    change (zq (0 + 1)) with 1 in H. apply (Qclt_not_le _ _ Hxy). replace (1 * y) with y in H by ring. exact H.
Qed.
Lemma axis_in_cell : forall n c h hl u, (0 <= c < n)%Z -> 0 < h -> 0 < hl -> hl <= h -> 0 <= u -> u < 1 ->
  in_cell h c (qmod (zq c * h + u * hl) (zq n * h)).
Proof.
  intros n c h hl u Hc Hh Hhl Hle Hu0 Hu1.
  assert (H1 : 0 <= u * hl) by (apply qmul_nonneg; [exact Hu0|apply Qclt_le_weak; exact Hhl]).
  assert (H2 : u * hl < h). { eapply Qclt_le_trans; [|exact Hle]. replace hl with (1 * hl) at 2 by ring. apply Qcmult_lt_compat_r; assumption. }
  assert (H3 : 0 <= zq c * h). { apply qmul_nonneg; [rewrite <- zq_0; apply (proj1 (zq_le _ _)); lia|apply Qclt_le_weak; exact Hh]. }
  assert (H4 : zq (c + 1) * h <= zq n * h). { apply Qcmult_le_compat_r; [apply (proj1 (zq_le _ _)); lia|apply Qclt_le_weak; exact Hh]. }
  assert (H5 : zq (c + 1) * h = zq c * h + h) by (rewrite zq_add, zq_1; ring).
  rewrite qmod_small.
  - unfold in_cell. rewrite H5. set (a := zq c * h) in *. set (b := u * hl) in *. clearbody a b. clear - H1 H2. split; qc_lra.
  - rewrite H5 in H4. set (a := zq c * h) in *. set (b := zq n * h) in *. clearbody a b. clear - Hh H3 H4. qc_lra.
  - set (a := zq c * h) in *. set (b := u * hl) in *. clearbody a b. clear - H1 H3. qc_lra.
  - rewrite H5 in H4. set (a := zq c * h) in *. set (b := zq n * h) in *. set (d := u * hl) in *. clearbody a b d. clear - H2 H4. qc_lra.
Qed.
Lemma shifted_in_cell : forall ns H c u, Forall (fun h => 0 < h) H -> length H = length ns -> valid_cell ns c ->
  unit_numbers (length ns) u -> Forall (fun h => last_h H <= h) H -> lies_in H c (shifted H (box_of ns H) (corner H c) u).
Proof.
  intros ns H c u Hp Hl Hc [Hu1 Hu2] Hlast. unfold shifted, lies_in.
  assert (Hhl : H = [] \/ 0 < last_h H).
  { clear - Hp. destruct H as [|h H]; [auto|]. right. rewrite Forall_forall in Hp. apply Hp. unfold last_h. clear.
    revert h. induction H as [|h2 H IH]; intros h; [left; reflexivity|]. right. change (last (h :: h2 :: H) 0) with (last (h2 :: H) 0). apply IH. }
  destruct Hhl as [->|Hhl]; [destruct ns; [|discriminate]; inversion Hc; constructor|].
  set (hl := last_h H) in *. clearbody hl. unfold box_of, corner.
  revert H u Hp Hl Hu1 Hu2 Hlast. induction Hc as [|n c0 ns c Hc Hv IH]; intros H u Hp Hl Hu1 Hu2 Hlast.
  - destruct H; [|discriminate]. constructor.
  - destruct H as [|h H]; [discriminate|]. destruct u as [|t u]; [discriminate|]. cbn [combine map fst snd].
    inversion Hp; subst. inversion Hu2; subst. inversion Hlast; subst. constructor.
    + cbn [fst snd]. destruct H4. apply axis_in_cell; assumption.
    + apply IH; try assumption; cbn in *; lia.
Qed.

(* ---- the whole sample ---- *)
Lemma insert_key_perm : forall (X : Type) (k : X -> Z) x l, Permutation (insert_key k x l) (x :: l).
Proof. intros X k x l. induction l as [|y l IH]; cbn [insert_key]; [reflexivity|]. destruct (k y <? k x)%Z; [|reflexivity]. rewrite IH. apply perm_swap. Qed.
Lemma sort_key_perm : forall (X : Type) (k : X -> Z) l, Permutation (sort_key k l) l.
Proof. intros X k l. induction l as [|x l IH]; cbn [sort_key fold_right]; [reflexivity|]. fold (sort_key k l). rewrite insert_key_perm, IH. reflexivity. Qed.
Lemma sort_key_sorted : forall (X : Type) (k : X -> Z) l, StronglySorted (fun a b => (k a <= k b)%Z) (sort_key k l).
Proof.
  intros X k l. induction l as [|x l IH]; cbn [sort_key fold_right]; [constructor|]. fold (sort_key k l).
  induction IH as [|y m Hs IHs Hf]; cbn [insert_key]; [repeat constructor|]. destruct (Z.ltb_spec (k y) (k x)).
  - constructor; [exact IHs|]. rewrite Forall_forall in *. intros z Hz. apply (Permutation_in _ (insert_key_perm _ k x m)) in Hz. destruct Hz as [<-|Hz]; [lia|apply Hf; exact Hz].
  - constructor; [constructor; assumption|]. constructor; [lia|]. rewrite Forall_forall in *. intros z Hz. specialize (Hf z Hz). lia.
Qed.
Lemma insert_key_map : forall (X Y : Type) (f : X -> Y) (k : Y -> Z) x l,
  insert_key k (f x) (map f l) = map f (insert_key (fun x => k (f x)) x l).
Proof. intros X Y f k x l. induction l as [|y l IH]; cbn [map insert_key]; [reflexivity|]. destruct (k (f y) <? k (f x))%Z; cbn [map]; [rewrite IH|]; reflexivity. Qed.
Lemma sort_key_map : forall (X Y : Type) (f : X -> Y) (k : Y -> Z) l, sort_key k (map f l) = map f (sort_key (fun x => k (f x)) l).
Proof. intros X Y f k l. induction l as [|x l IH]; cbn [map sort_key fold_right]; [reflexivity|]. fold (sort_key k (map f l)). rewrite IH. apply insert_key_map. Qed.
Lemma grid_points_map : forall (X Y : Type) (f : X -> Y) l, grid_points (map (fun p => (f (fst p), snd p)) l) = map f (grid_points l).
Proof.
  intros X Y f l. unfold grid_points. induction l as [|[x n] l IH]; [reflexivity|]. cbn [map flat_map fst snd]. rewrite IH, map_app. f_equal.
  clear. induction n as [|n IH]; [reflexivity|]. cbn. rewrite IH. reflexivity.
Qed.
Lemma grid_points_in : forall (X : Type) (l : list (X * nat)) x, In x (grid_points l) -> exists n, In (x, n) l.
Proof.
  intros X l x H. unfold grid_points in H. apply in_flat_map in H. destruct H as [[y n] [H1 H2]]. cbn [fst snd] in H2.
  apply repeat_spec in H2. subst. exists n. exact H1.
Qed.
(* sorted lists with the same elements and distinct keys for distinct elements *)
Lemma sorted_unique : forall (X : Type) (k : X -> Z) l m,
  (forall a b, In a l -> In b l -> k a = k b -> a = b) ->
  StronglySorted (fun a b => (k a <= k b)%Z) l -> StronglySorted (fun a b => (k a <= k b)%Z) m -> Permutation l m -> l = m.
Proof.
  intros X k l m Hinj Hl. revert m Hinj. induction Hl as [|a l Hl IH Hf]; intros m Hinj Hm Hp.
  - apply Permutation_nil in Hp. congruence.
  - destruct m as [|b m]; [apply Permutation_sym, Permutation_nil in Hp; discriminate|].
    inversion Hm as [|? ? Hm' Hfm]. subst.
    assert (Hab : a = b).
    { apply Hinj; [left; reflexivity|eapply Permutation_in; [symmetry; exact Hp|left; reflexivity]|].
      rewrite Forall_forall in *.
      assert (Ha : In a (b :: m)) by (eapply Permutation_in; [exact Hp|left; reflexivity]).
      assert (Hb : In b (a :: l)) by (eapply Permutation_in; [symmetry; exact Hp|left; reflexivity]).
      destruct Ha as [<-|Ha]; [reflexivity|]. destruct Hb as [<-|Hb]; [reflexivity|]. specialize (Hf b Hb). specialize (Hfm a Ha). lia. }
    subst b. f_equal. apply IH; [|exact Hm'|eapply Permutation_cons_inv; exact Hp].
    intros x y Hx Hy. apply Hinj; right; assumption.
Qed.

Section Sample.
Variables (ns : list Z) (H : list Qc).
Hypothesis Hp : Forall (fun h => 0 < h) H.
Hypothesis Hl : length H = length ns.

Lemma points_eq : forall counts us,
  poisson_points ns H (box_of ns H) counts us =
  map (fun p => shifted H (box_of ns H) (corner H (fst p)) (snd p)) (combine (sort_key (fun c => orderby ns H (corner H c)) (grid_points counts)) us).
Proof using.
  intros counts us. unfold poisson_points. rewrite (grid_points_map _ _ (corner H)), (sort_key_map _ _ (corner H)).
  generalize (sort_key (fun c => orderby ns H (corner H c)) (grid_points counts)). intros l. revert us. induction l as [|c l IH]; intros [|u us]; try reflexivity.
  cbn [map combine fst snd]. rewrite IH. reflexivity.
Qed.
Lemma points_ok : forall counts us, (forall c n, In (c, n) counts -> valid_cell ns c) ->
  length us = length (grid_points counts) -> Forall (unit_numbers (length ns)) us -> Forall (fun h => last_h H <= h) H ->
  exists cs, Permutation cs (grid_points counts) /\ StronglySorted (fun a b => ~ lex_lt b a) cs /\
    Forall2 (lies_in H) cs (poisson_points ns H (box_of ns H) counts us).
Proof using Hp Hl.
  intros counts us Hv Hlen Hu Hlast. exists (sort_key (fun c => orderby ns H (corner H c)) (grid_points counts)).
  pose proof (sort_key_perm _ (fun c => orderby ns H (corner H c)) (grid_points counts)) as Hperm.
  pose proof (sort_key_sorted _ (fun c => orderby ns H (corner H c)) (grid_points counts)) as Hs.
  rewrite points_eq. set (cs := sort_key _ _) in *. clearbody cs.
  assert (Hvc : forall c, In c cs -> valid_cell ns c).
  { intros c Hc. apply (Permutation_in _ Hperm) in Hc. apply grid_points_in in Hc. destruct Hc as [n Hn]. eapply Hv. exact Hn. }
  assert (Hlc : length us = length cs) by (rewrite Hlen; symmetry; apply Permutation_length; exact Hperm).
  split; [exact Hperm|]. split.
  - clear - Hs Hvc Hp Hl. induction Hs as [|a l Hs IH Hf]; constructor.
    + apply IH. intros c Hc. apply Hvc. right. exact Hc.
    + rewrite Forall_forall in *. intros b Hb Hlt. specialize (Hf b Hb).
      apply (orderby_lex ns H b a) in Hlt; [lia|apply Forall_forall; exact Hp|exact Hl|apply Hvc; right; exact Hb|apply Hvc; left; reflexivity].
  - clear - Hp Hl Hvc Hlc Hu Hlast. revert us Hlc Hu. induction cs as [|c cs IH]; intros [|u us] Hlc Hu; try discriminate; [constructor|].
    cbn [combine map fst snd]. inversion Hu. subst. constructor.
    + apply shifted_in_cell; try assumption. apply Hvc. left. reflexivity.
    + apply IH; [intros c' Hc'; apply Hvc; right; exact Hc'|cbn in Hlc; lia|assumption].
Qed.
Lemma grid_points_perm : forall (X : Type) (a b : list (X * nat)), Permutation a b -> Permutation (grid_points a) (grid_points b).
Proof using. intros X a b Hab. unfold grid_points. apply Permutation_flat_map. exact Hab. Qed.
Lemma points_ranks : forall counts counts' us, (forall c n, In (c, n) counts -> valid_cell ns c) -> Permutation counts counts' ->
  poisson_points ns H (box_of ns H) counts us = poisson_points ns H (box_of ns H) counts' us.
Proof using Hp Hl.
  intros counts counts' us Hv Hperm. rewrite !points_eq. f_equal. f_equal.
  apply (sorted_unique _ (fun c => orderby ns H (corner H c))).
  - intros a b Ha Hb. assert (Hvc : forall c, In c (sort_key (fun c => orderby ns H (corner H c)) (grid_points counts)) -> valid_cell ns c).
    { intros c Hc. apply (Permutation_in _ (sort_key_perm _ _ _)) in Hc. apply grid_points_in in Hc. destruct Hc as [n Hn]. eapply Hv. exact Hn. }
    apply orderby_inj; auto.
  - apply sort_key_sorted.
  - apply sort_key_sorted.
  - rewrite !sort_key_perm. apply grid_points_perm. exact Hperm.
Qed.
End Sample.
