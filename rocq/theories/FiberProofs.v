From Verif Require Import Base BaseProofs Num FiberModel FiberSpec.
Local Open Scope nat_scope.

Lemma qleb_iff : forall a b, qleb a b = true <-> (a <= b)%Qc.
Proof. intros a b. unfold qleb. destruct (Qclt_le_dec b a) as [H|H]; split; intros G; try discriminate; try reflexivity; [|exact H]. exfalso. apply (Qclt_not_le _ _ H G). Qed.
Lemma qltb_iff : forall a b, qltb a b = true <-> (a < b)%Qc.
Proof. intros a b. unfold qltb. destruct (Qclt_le_dec a b) as [H|H]; split; intros G; try discriminate; try reflexivity; [exact H|]. exfalso. apply (Qcle_not_lt _ _ H G). Qed.

(* ---- thinning a group ---- *)
Section Thin.
Variables (r2 : Qc) (P : list point) (draws : nat -> nat).
Notation col := (collides r2 P).
Lemma nmax_ge : forall l x, In x l -> x <= nmax l.
Proof. induction l as [|y l IH]; intros x H; [destruct H|]. cbn [nmax fold_right]. fold (nmax l). destruct H as [->|H]; [lia|]. specialize (IH x H). lia. Qed.
Lemma nmax_in : forall l, l <> [] -> In (nmax l) l.
Proof.
  induction l as [|y l IH]; intros H; [congruence|]. cbn [nmax fold_right]. fold (nmax l). destruct l as [|z l]; [left; cbn; lia|].
  specialize (IH ltac:(discriminate)). destruct (Nat.max_spec y (nmax (z :: l))) as [[_ ->]|[_ ->]]; [right; exact IH|left; reflexivity].
Qed.
Lemma nmin_in : forall l, l <> [] -> In (nmin l) l.
Proof.
  intros [|x l] H; [congruence|]. clear H. cbn [nmin]. induction l as [|y l IH]; [left; reflexivity|]. cbn [fold_right].
  destruct (Nat.min_spec y (fold_right Nat.min x l)) as [[_ ->]|[_ ->]]; [right; left; reflexivity|]. destruct IH as [E|E]; [left; exact E|right; right; exact E].
Qed.
Lemma candidates_ok : forall group, group <> [] -> candidates r2 P group <> [] /\
  forall c, In c (candidates r2 P group) -> In c group /\ forall i, In i group -> n_collisions r2 P group i <= n_collisions r2 P group c.
Proof.
  intros group Hne. unfold candidates. set (top := nmax _). set (idx := filter _ group).
  assert (Hidx : idx <> []).
  { assert (H : In top (map (n_collisions r2 P group) group)) by (apply nmax_in; destruct group; [congruence|discriminate]).
    apply in_map_iff in H. destruct H as [i [H1 H2]]. intros E. assert (In i idx) by (apply filter_In; split; [exact H2|apply Nat.eqb_eq; exact H1]). rewrite E in H. destruct H. }
  split.
  - assert (H : In (nmin (map (n_other r2 P group) idx)) (map (n_other r2 P group) idx)) by (apply nmin_in; destruct idx; [congruence|discriminate]).
    apply in_map_iff in H. destruct H as [i [H1 H2]]. intros E. assert (G : In i []) by (rewrite <- E; apply filter_In; split; [exact H2|apply Nat.eqb_eq; exact H1]). destruct G.
  - intros c Hc. apply filter_In in Hc. destruct Hc as [Hc _]. apply filter_In in Hc. destruct Hc as [Hc E]. split; [exact Hc|]. intros i Hi. apply Nat.eqb_eq in E. rewrite E.
    apply nmax_ge. apply in_map. exact Hi.
Qed.
Lemma choice_in : forall (A : Type) d (l : list A) x, l <> [] -> In (choice d l x) l.
Proof. intros A d l x H. unfold choice. apply nth_In. apply Nat.mod_upper_bound. destruct l; [congruence|discriminate]. Qed.
Lemma remove_in : forall c g i, In i (remove_id c g) <-> In i g /\ i <> c.
Proof. intros c g i. unfold remove_id. rewrite filter_In, negb_true_iff, Nat.eqb_neq. reflexivity. Qed.
Lemma remove_length : forall c g, NoDup g -> In c g -> length (remove_id c g) = length g - 1.
Proof.
  intros c g Hn. induction Hn as [|x g Hx Hn IH]; intros Hc; [destruct Hc|]. unfold remove_id. cbn [filter]. destruct (Nat.eqb_spec x c) as [->|Hne]; cbn [negb].
  - fold (remove_id c g). cbn [length]. assert (E : remove_id c g = g). { unfold remove_id. clear - Hx. induction g as [|y g IH]; [reflexivity|]. cbn [filter]. destruct (Nat.eqb_spec y c) as [->|H]; [exfalso; apply Hx; left; reflexivity|]. cbn [negb]. f_equal. apply IH. intros G. apply Hx. right. exact G. }
    rewrite E. lia.
  - fold (remove_id c g). destruct Hc as [Hc|Hc]; [congruence|]. cbn [length]. rewrite IH by exact Hc. destruct g; [destruct Hc|]. cbn [length]. lia.
Qed.
Lemma n_zero : forall g i, n_collisions r2 P g i = 0 <-> forall j, In j g -> col i j = false.
Proof.
  intros g i. unfold n_collisions. split.
  - intros H j Hj. destruct (col i j) eqn:E; [|reflexivity]. assert (G : In j (filter (col i) g)) by (apply filter_In; split; assumption).
    destruct (filter (col i) g); [destruct G|discriminate].
  - intros H. induction g as [|j g IH]; [reflexivity|]. cbn [filter]. rewrite (H j (or_introl eq_refl)). apply IH. intros j' Hj'. apply H. right. exact Hj'.
Qed.
Lemma n_pos : forall g i, 0 < n_collisions r2 P g i -> exists j, In j g /\ col i j = true.
Proof.
  intros g i H. unfold n_collisions in H. destruct (filter (col i) g) as [|j l] eqn:E; [cbn in H; lia|]. exists j.
  apply filter_In. rewrite E. left. reflexivity.
Qed.

Lemma thin_ok : forall fuel k group coll, NoDup group -> length group <= fuel ->
  exists hit, fst (thin r2 P draws fuel k group coll) = coll ++ hit /\ incl hit group /\
    (forall i, In i hit -> exists j, In j group /\ col i j = true) /\
    (forall i j, In i group -> In j group -> ~ In i hit -> ~ In j hit -> col i j = false \/ i = j) /\
    (group <> [] -> exists i, In i group /\ ~ In i hit).
Proof.
  induction fuel as [|fuel IH]; intros k group coll Hn Hl.
  - assert (group = []) by (destruct group; [reflexivity|cbn in Hl; lia]). subst. exists []. cbn [thin fst]. rewrite app_nil_r. split; [reflexivity|]. split; [intros i []|]. split; [intros i []|]. split; [intros i j []|congruence].
  - cbn [thin]. destruct (Nat.leb_spec (length group) 1) as [Hle|Hgt].
    + exists []. cbn [fst]. rewrite app_nil_r. split; [reflexivity|]. split; [intros i []|]. split; [intros i []|]. split.
      * intros i j Hi Hj _ _. right. destruct group as [|x [|y g]]; [destruct Hi|destruct Hi as [<-|[]]; destruct Hj as [<-|[]]; reflexivity|cbn in Hle; lia].
      * intros Hne. destruct group as [|x g]; [congruence|]. exists x. split; [left; reflexivity|intros []].
    + assert (Hne : group <> []) by (destruct group; [cbn in Hgt; lia|discriminate]).
      destruct (candidates_ok group Hne) as [Hc1 Hc2]. set (c := choice (draws k) (candidates r2 P group) 0).
      destruct (Hc2 c (choice_in _ _ _ _ Hc1)) as [Hc Hmax].
      assert (Hlen : length (remove_id c group) = length group - 1) by (apply remove_length; assumption).
      specialize (IH (S k) (remove_id c group) (if 0 <? n_collisions r2 P group c then coll ++ [c] else coll) ltac:(apply NoDup_filter; exact Hn) ltac:(lia)).
      destruct IH as [hit [E [H1 [H2 [H3 H4]]]]].
      assert (Hne' : remove_id c group <> []) by (intros G; rewrite G in Hlen; cbn in Hlen; lia).
      destruct (Nat.ltb_spec 0 (n_collisions r2 P group c)) as [Hpos|Hzero].
      * exists (c :: hit). rewrite E, <- app_assoc. split; [reflexivity|]. split; [|split; [|split]].
        -- intros i [<-|Hi]; [exact Hc|]. apply H1 in Hi. apply remove_in in Hi. apply Hi.
        -- intros i [<-|Hi]; [apply n_pos; exact Hpos|]. destruct (H2 i Hi) as [j [Hj Hc']]. exists j. split; [|exact Hc']. apply remove_in in Hj. apply Hj.
        -- intros i j Hi Hj Ni Nj. apply H3; try (apply remove_in; split; [assumption|]); intros G; try (apply Ni; right; exact G); try (apply Nj; right; exact G); subst; [apply Ni|apply Nj]; left; reflexivity.
        -- intros _. destruct (H4 Hne') as [i [Hi Ni]]. apply remove_in in Hi. exists i. split; [apply Hi|]. intros [G|G]; [destruct Hi as [_ Hi]; congruence|exact (Ni G)].
      * assert (Hnone : forall i j, In i group -> In j group -> col i j = false).
        { intros i j Hi Hj. apply (proj1 (n_zero group i)); [|exact Hj]. specialize (Hmax i Hi). lia. }
        assert (hit = []). { destruct hit as [|x hit]; [reflexivity|]. exfalso. destruct (H2 x (or_introl eq_refl)) as [j [Hj G]].
          rewrite Hnone in G; [discriminate| |]; [specialize (H1 x (or_introl eq_refl)); apply remove_in in H1; apply H1|apply remove_in in Hj; apply Hj]. }
        subst hit. exists []. rewrite E. split; [reflexivity|]. split; [intros i []|]. split; [intros i []|]. split; [intros i j Hi Hj _ _; left; apply Hnone; assumption|].
        intros _. exists c. split; [exact Hc|intros []].
Qed.

Lemma argmin_ok : forall f l b, In (argmin f b l) (b :: l) /\ forall x, In x (b :: l) -> (f (argmin f b l) <= f x)%Qc.
Proof.
  intros f. induction l as [|y l IH]; intros b; cbn [argmin].
  - split; [left; reflexivity|]. intros x [->|[]]. apply Qcle_refl.
  - destruct (qltb (f y) (f b)) eqn:E.
    + apply qltb_iff in E. destruct (IH y) as [H1 H2]. split; [right; exact H1|]. intros x [<-|Hx]; [|apply H2; exact Hx].
      eapply Qcle_trans; [apply (H2 y); left; reflexivity|]. apply Qclt_le_weak. exact E.
    + assert (Hle : (f b <= f y)%Qc) by (apply Qcnot_lt_le; intros G; apply qltb_iff in G; congruence).
      destruct (IH b) as [H1 H2]. split; [destruct H1 as [H1|H1]; [left; exact H1|right; right; exact H1]|].
      intros x [<-|[<-|Hx]]; [apply H2; left; reflexivity| |apply H2; right; exact Hx]. eapply Qcle_trans; [apply (H2 b); left; reflexivity|exact Hle].
Qed.
Lemma mem_iff : forall i l, mem i l = true <-> In i l.
Proof. intros i l. unfold mem. rewrite existsb_exists. split; [intros [x [H E]]; apply Nat.eqb_eq in E; subst; exact H|intros H; exists i; split; [exact H|apply Nat.eqb_refl]]. Qed.

Lemma multiplets_ok : forall k, P <> [] -> exists flag near, fst (multiplets r2 P draws k) = map (fun i => (flag i, near i)) (seq 0 (length P)) /\
  (forall i j, i < length P -> j < length P -> i <> j -> flag i = false -> flag j = false -> (r2 < dist P i j)%Qc) /\
  (forall i, i < length P -> flag i = true -> near i < length P /\ flag (near i) = false /\
     forall j, j < length P -> flag j = false -> (dist P i (near i) <= dist P i j)%Qc) /\
  (forall i, i < length P -> flag i = true -> exists j, j < length P /\ j <> i /\ (dist P i j <= r2)%Qc).
Proof.
  intros k Hne. unfold multiplets. destruct (thin_ok (length P) k (seq 0 (length P)) [] (seq_NoDup _ _) ltac:(rewrite seq_length; lia)) as [hit [E [H1 [H2 [H3 H4]]]]].
  destruct (thin r2 P draws (length P) k (seq 0 (length P)) []) as [coll k']. cbn [fst app] in *. subst coll.
  set (free := filter (fun i => negb (mem i hit)) (seq 0 (length P))).
  exists (fun i => mem i hit), (fun i => match free with [] => 0 | b :: l => argmin (dist P i) b l end). split; [reflexivity|].
  assert (Hfree : forall j, In j free <-> j < length P /\ mem j hit = false).
  { intros j. unfold free. rewrite filter_In, in_seq, negb_true_iff. split; intros [A B]; split; try assumption; lia. }
  assert (Hin : forall i, i < length P -> In i (seq 0 (length P))) by (intros i Hi; apply in_seq; lia).
  assert (Hnot : forall i, mem i hit = false -> ~ In i hit) by (intros i Hi G; apply mem_iff in G; congruence).
  split; [|split].
  - intros i j Hi Hj Hij Fi Fj. destruct (H3 i j (Hin i Hi) (Hin j Hj) (Hnot i Fi) (Hnot j Fj)) as [G|G]; [|congruence].
    unfold collides in G. destruct (Nat.eqb_spec i j); [congruence|]. cbn [negb andb] in G. apply Qcnot_le_lt. intros L. apply qleb_iff in L. congruence.
  - intros i Hi Fi. destruct (H4 ltac:(destruct P; [congruence|discriminate])) as [f [Hf Nf]].
    assert (Hff : In f free) by (apply Hfree; split; [apply in_seq in Hf; lia|]; destruct (mem f hit) eqn:M; [apply mem_iff in M; contradiction|reflexivity]).
    destruct free as [|b l] eqn:EF; [destruct Hff|]. destruct (argmin_ok (dist P i) l b) as [A1 A2]. apply Hfree in A1. split; [apply A1|]. split; [apply A1|].
    intros j Hj Fj. apply A2. apply Hfree. split; assumption.
  - intros i Hi Fi. apply mem_iff in Fi. destruct (H2 i Fi) as [j [Hj G]]. apply in_seq in Hj. unfold collides in G. apply andb_true_iff in G. destruct G as [G1 G2].
    apply negb_true_iff, Nat.eqb_neq in G1. apply qleb_iff in G2. exists j. split; [lia|]. split; [congruence|exact G2].
Qed.
End Thin.

(* ---- one group ---- *)
Definition frame (w : row) := (w_pos w, w_label w, w_rank w, w_index w).
Lemma frame_set : forall w c n, frame (set_row w c n) = frame w. Proof. reflexivity. Qed.
Record group_ok (r2 : Qc) (big : bool) (out : list row) : Prop := {
  g_flag : forall w, In w out -> w_coll w = 0%Z \/ w_coll w = 1%Z;
  g_apart : forall w v, In w out -> In v out -> w_index w <> w_index v -> w_coll w = 0%Z -> w_coll v = 0%Z -> (r2 < d2 (w_pos w) (w_pos v))%Qc;
  g_none : forall w, In w out -> w_coll w = 0%Z -> w_nbr w = (-1)%Z;
  g_nearest : forall w, In w out -> w_coll w = 1%Z -> exists v, In v out /\ w_coll v = 0%Z /\ w_nbr w = w_index v /\
    forall v', In v' out -> w_coll v' = 0%Z -> (d2 (w_pos w) (w_pos v) <= d2 (w_pos w) (w_pos v'))%Qc;
  g_reason : big = true -> forall w, In w out -> w_coll w = 1%Z -> exists v, In v out /\ w_index v <> w_index w /\ (d2 (w_pos w) (w_pos v) <= r2)%Qc
}.
Lemma combine_seq : forall (A B : Type) (f : nat -> B) (l : list A) n, combine l (map f (seq n (length l))) = map (fun p => (snd p, f (fst p))) (combine (seq n (length l)) l).
Proof. intros A B f l. induction l as [|x l IH]; intros n; [reflexivity|]. cbn [length seq map combine fst snd]. rewrite IH. reflexivity. Qed.
Lemma in_combine_seq : forall (A : Type) (l : list A) i x n, In (i, x) (combine (seq n (length l)) l) <-> n <= i /\ nth_error l (i - n) = Some x.
Proof.
  intros A l. induction l as [|y l IH]; intros i x n; cbn [length seq combine].
  - split; [intros []|]. intros [_ H]. destruct (i - n); discriminate.
  - cbn [In]. rewrite IH. split.
    + intros [E|[H1 H2]]; [injection E as <- <-; split; [lia|]; rewrite Nat.sub_diag; reflexivity|]. split; [lia|]. replace (i - n) with (S (i - S n)) by lia. exact H2.
    + intros [H1 H2]. destruct (Nat.eq_dec i n) as [->|Hne]; [left; rewrite Nat.sub_diag in H2; cbn in H2; congruence|]. right. split; [lia|].
      replace (i - n) with (S (i - S n)) in H2 by lia. exact H2.
Qed.

Lemma assign_group_ok : forall r2 draws k ms, 2 <= length ms -> NoDup (map w_index ms) ->
  map frame (fst (assign_group r2 draws k ms)) = map frame ms /\ group_ok r2 (2 <? length ms) (fst (assign_group r2 draws k ms)).
Proof.
  intros r2 draws k ms Hl Hn. destruct ms as [|a [|b [|c ms]]]; try (cbn in Hl; lia).
  - cbn [map] in Hn. assert (Hab : w_index a <> w_index b) by (inversion Hn as [|? ? G]; intros E; apply G; left; congruence).
    cbn [assign_group]. destruct (choice (draws k) [0; 1] 0 =? 0); cbn [fst map]; (split; [reflexivity|]); constructor.
    + intros w [<-|[<-|[]]]; [right|left]; reflexivity.
    + intros w v [<-|[<-|[]]] [<-|[<-|[]]] Hne C1 C2; try discriminate; cbn in Hne; congruence.
    + intros w [<-|[<-|[]]] C; [discriminate|reflexivity].
    + intros w [<-|[<-|[]]] C; [|discriminate]. exists (set_row b 0 (-1)). split; [right; left; reflexivity|]. split; [reflexivity|]. split; [reflexivity|].
      intros v' [<-|[<-|[]]] C'; [discriminate|]. apply Qcle_refl.
    + discriminate.
    + intros w [<-|[<-|[]]]; [left|right]; reflexivity.
    + intros w v [<-|[<-|[]]] [<-|[<-|[]]] Hne C1 C2; try discriminate; cbn in Hne; congruence.
    + intros w [<-|[<-|[]]] C; [reflexivity|discriminate].
    + intros w [<-|[<-|[]]] C; [discriminate|]. exists (set_row a 0 (-1)). split; [left; reflexivity|]. split; [reflexivity|]. split; [reflexivity|].
      intros v' [<-|[<-|[]]] C'; [|discriminate]. apply Qcle_refl.
    + discriminate.
  - change (assign_group r2 draws k (a :: b :: c :: ms)) with
     (let (fl, k0) := multiplets r2 (map w_pos (a :: b :: c :: ms)) draws k in
      (map (fun p => let (w, f) := (p : row * (bool * nat)) in
              if fst f then set_row w 1 (match nth_error (a :: b :: c :: ms) (snd f) with Some v => w_index v | None => -1 end)
              else set_row w 0 (-1)) (combine (a :: b :: c :: ms) fl), k0)).
    remember (a :: b :: c :: ms) as M eqn:EM. assert (HM : map w_pos M <> []) by (rewrite EM; discriminate).
    destruct (multiplets_ok r2 (map w_pos M) draws k HM) as [flag [near [E [H1 [H2 H3]]]]].
    destruct (multiplets r2 (map w_pos M) draws k) as [fl k']. cbn [fst] in *. subst fl. rewrite map_length in *. rewrite combine_seq.
    set (new := fun p : nat * row => if flag (fst p) then set_row (snd p) 1 (match nth_error M (near (fst p)) with Some v => w_index v | None => -1 end) else set_row (snd p) 0 (-1)).
    assert (Hdist : forall i j w v, nth_error M i = Some w -> nth_error M j = Some v -> dist (map w_pos M) i j = d2 (w_pos w) (w_pos v)).
    { intros i j w v Hi Hj. unfold dist, at_. f_equal; apply nth_error_nth; rewrite nth_error_map'; [rewrite Hi|rewrite Hj]; reflexivity. }
    assert (Hsome : forall i w, nth_error M i = Some w -> i < length M) by (intros i w H; apply nth_error_Some; congruence).
    assert (Hex : forall i, i < length M -> exists w, nth_error M i = Some w) by (intros i Hi; destruct (nth_error M i) eqn:G; [eexists; reflexivity|apply nth_error_None in G; lia]).
    assert (Hin : forall w', In w' (map new (combine (seq 0 (length M)) M)) <-> exists i w, nth_error M i = Some w /\ w' = new (i, w)).
    { intros w'. rewrite in_map_iff. split.
      - intros [[i w] [<- G]]. apply in_combine_seq in G. rewrite Nat.sub_0_r in G. exists i, w. split; [apply G|reflexivity].
      - intros [i [w [G ->]]]. exists (i, w). split; [reflexivity|]. apply in_combine_seq. rewrite Nat.sub_0_r. split; [lia|exact G]. }
    assert (Hidx : forall i j w v, nth_error M i = Some w -> nth_error M j = Some v -> w_index w <> w_index v <-> i <> j).
    { intros i j w v Hi Hj. split; [intros G ->; congruence|]. intros G E. apply G. apply (proj1 (NoDup_nth_error (map w_index M)) Hn); [rewrite map_length; apply (Hsome i w Hi)|].
      rewrite !nth_error_map', Hi, Hj. cbn [option_map]. f_equal. exact E. }
    assert (Hnew : forall i w, w_coll (new (i, w)) = (if flag i then 1 else 0)%Z /\ frame (new (i, w)) = frame w) by (intros i w; unfold new; cbn [fst snd]; destruct (flag i); split; reflexivity).
    assert (Hpos : forall i w, w_pos (new (i, w)) = w_pos w /\ w_index (new (i, w)) = w_index w) by (intros i w; unfold new; cbn [fst snd]; destruct (flag i); split; reflexivity).
    match goal with |- context [map ?f (map ?g (combine ?a ?b))] => replace (map f (map g (combine a b))) with (map new (combine a b)) by (rewrite map_map; reflexivity) end.
    split.
    { rewrite map_map. transitivity (map (fun p : nat * row => frame (snd p)) (combine (seq 0 (length M)) M)); [apply map_ext; intros [i w]; apply Hnew|].
      rewrite <- (map_map snd frame). f_equal. generalize 0. clear. induction M as [|x M IH]; intros n; [reflexivity|]. cbn [length seq combine map snd]. rewrite IH. reflexivity. }
    constructor.
    + intros w' Hw. apply Hin in Hw. destruct Hw as [i [w [Hi ->]]]. rewrite (proj1 (Hnew i w)). destruct (flag i); [right|left]; reflexivity.
    + intros w' v' Hw Hv Hne C1 C2. apply Hin in Hw, Hv. destruct Hw as [i [w [Hi ->]]]. destruct Hv as [j [v [Hj ->]]].
      rewrite (proj1 (Hnew _ _)) in C1. rewrite (proj1 (Hnew _ _)) in C2. rewrite !(proj2 (Hpos _ _)) in Hne. rewrite !(proj1 (Hpos _ _)). rewrite <- (Hdist i j w v Hi Hj).
      apply H1; try (eapply Hsome; eassumption); [apply (Hidx i j w v Hi Hj); exact Hne|destruct (flag i); [discriminate|reflexivity]|destruct (flag j); [discriminate|reflexivity]].
    + intros w' Hw C. apply Hin in Hw. destruct Hw as [i [w [Hi ->]]]. unfold new in *. cbn [fst snd] in *. destruct (flag i); [discriminate|reflexivity].
    + intros w' Hw C. apply Hin in Hw. destruct Hw as [i [w [Hi ->]]]. rewrite (proj1 (Hnew _ _)) in C. assert (Fi : flag i = true) by (destruct (flag i); [reflexivity|discriminate]).
      destruct (H2 i (Hsome _ _ Hi) Fi) as [G1 [G2 G3]]. destruct (Hex _ G1) as [v Hv]. exists (new (near i, v)). split; [apply Hin; exists (near i), v; split; [exact Hv|reflexivity]|].
      split; [rewrite (proj1 (Hnew _ _)), G2; reflexivity|]. split.
      * rewrite (proj2 (Hpos _ _)). unfold new at 1. cbn [fst snd]. rewrite Fi, Hv. reflexivity.
      * intros v' Hv' C'. apply Hin in Hv'. destruct Hv' as [j [u [Hj ->]]]. rewrite (proj1 (Hnew _ _)) in C'. rewrite !(proj1 (Hpos _ _)).
        rewrite <- (Hdist i (near i) w v Hi Hv), <- (Hdist i j w u Hi Hj). apply G3; [eapply Hsome; eassumption|destruct (flag j); [discriminate|reflexivity]].
    + intros _ w' Hw C. apply Hin in Hw. destruct Hw as [i [w [Hi ->]]]. rewrite (proj1 (Hnew _ _)) in C. assert (Fi : flag i = true) by (destruct (flag i); [reflexivity|discriminate]).
      destruct (H3 i (Hsome _ _ Hi) Fi) as [j [G1 [G2 G3]]]. destruct (Hex _ G1) as [v Hv]. exists (new (j, v)). split; [apply Hin; exists j, v; split; [exact Hv|reflexivity]|].
      rewrite !(proj2 (Hpos _ _)), !(proj1 (Hpos _ _)). split; [apply (Hidx j i v w Hv Hi); exact G2|]. rewrite <- (Hdist i j w v Hi Hv). exact G3.
Qed.
