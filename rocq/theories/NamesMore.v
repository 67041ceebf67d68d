(* Galaxy types and excluded data sets *)
From Coq Require Import Ascii Sorting.Sorted Sorting.Permutation.
From Verif Require Import Base BaseProofs NamesModel NamesSpec NamesProofs.
Local Open Scope nat_scope.

(* ---- the order ---- *)
Lemma nat_of_ascii_inj : forall a b, nat_of_ascii a = nat_of_ascii b -> a = b.
Proof. intros a b H. rewrite <- (ascii_nat_embedding a), <- (ascii_nat_embedding b), H. reflexivity. Qed.
Lemma str_lt_cons : forall c a b, str_lt a b -> str_lt (c :: a) (c :: b).
Proof.
  intros c a b H. inversion H.
  - apply (Lt_pre (c :: a)).
  - apply (Lt_diff (c :: p)). exact H0.
Qed.
Lemma ltb_lt : forall a b, str_ltb a b = true <-> str_lt a b.
Proof.
  induction a as [|x a IH]; intros [|y b]; cbn [str_ltb].
  - split; [discriminate|]. intros H. inversion H; destruct p; discriminate.
  - split; [intros _; apply (Lt_pre [] y b)|reflexivity].
  - split; [discriminate|]. intros H. inversion H; destruct p; discriminate.
  - destruct (Nat.ltb_spec (nat_of_ascii x) (nat_of_ascii y)) as [H|H].
    + split; [intros _; apply (Lt_diff [] x y a b); exact H|reflexivity].
    + destruct (Nat.ltb_spec (nat_of_ascii y) (nat_of_ascii x)) as [H'|H'].
      * split; [discriminate|]. intros E. inversion E.
        -- assert (x = y) by congruence. subst. lia.
        -- destruct p as [|z p]; cbn [app] in *.
           ++ assert (a0 = x) by congruence. assert (b0 = y) by congruence. subst. lia.
           ++ assert (x = y) by congruence. subst. lia.
      * assert (x = y) by (apply nat_of_ascii_inj; lia). subst. rewrite IH. split; [apply str_lt_cons|].
        intros E. inversion E.
        -- apply (Lt_pre a).
        -- destruct p as [|z p]; cbn [app] in *.
           ++ assert (a0 = y) by congruence. assert (b0 = y) by congruence. subst. lia.
           ++ inversion H0. inversion H1. subst. apply Lt_diff. exact H2.
Qed.
Lemma ltb_tri : forall a b, str_ltb a b = false -> str_ltb b a = false -> a = b.
Proof.
  induction a as [|x a IH]; intros [|y b]; cbn [str_ltb]; try congruence.
  destruct (Nat.ltb_spec (nat_of_ascii x) (nat_of_ascii y)); [congruence|].
  destruct (Nat.ltb_spec (nat_of_ascii y) (nat_of_ascii x)); [congruence|].
  intros H1 H2. assert (x = y) by (apply nat_of_ascii_inj; lia). subst. f_equal. apply IH; assumption.
Qed.
Lemma ltb_asym : forall a b, str_ltb a b = true -> str_ltb b a = false.
Proof.
  induction a as [|x a IH]; intros [|y b]; cbn [str_ltb]; try congruence.
  destruct (Nat.ltb_spec (nat_of_ascii x) (nat_of_ascii y)).
  - destruct (Nat.ltb_spec (nat_of_ascii y) (nat_of_ascii x)); [lia|reflexivity].
  - destruct (Nat.ltb_spec (nat_of_ascii y) (nat_of_ascii x)); [congruence|]. apply IH.
Qed.
Lemma ltb_trans : forall a b c, str_ltb a b = true -> str_ltb b c = true -> str_ltb a c = true.
Proof.
  induction a as [|x a IH]; intros [|y b] [|z c]; cbn [str_ltb]; try congruence.
  destruct (Nat.ltb_spec (nat_of_ascii x) (nat_of_ascii y)); destruct (Nat.ltb_spec (nat_of_ascii y) (nat_of_ascii z));
  destruct (Nat.ltb_spec (nat_of_ascii x) (nat_of_ascii z)); try reflexivity; try lia.
  - destruct (Nat.ltb_spec (nat_of_ascii z) (nat_of_ascii y)); [congruence|]. lia.
  - destruct (Nat.ltb_spec (nat_of_ascii y) (nat_of_ascii x)); [congruence|]. lia.
  - destruct (Nat.ltb_spec (nat_of_ascii y) (nat_of_ascii x)); [congruence|].
    destruct (Nat.ltb_spec (nat_of_ascii z) (nat_of_ascii y)); [congruence|].
    destruct (Nat.ltb_spec (nat_of_ascii z) (nat_of_ascii x)); [lia|]. apply IH.
Qed.
Lemma insert_perm : forall x l, Permutation (insert_str x l) (x :: l).
Proof.
  induction l as [|y l IH]; cbn [insert_str]; [constructor; constructor|].
  destruct (str_ltb y x); [|reflexivity]. rewrite IH. apply perm_swap.
Qed.
Lemma sorted_perm : forall l, Permutation (sorted l) l.
Proof. induction l as [|x l IH]; cbn [sorted fold_right]; [constructor|]. fold (sorted l). rewrite insert_perm, IH. reflexivity. Qed.
Lemma sorted_sorted : forall l, NoDup l -> StronglySorted str_lt (sorted l).
Proof.
  induction l as [|x l IH]; intros Hn; cbn [sorted fold_right]; [constructor|]. fold (sorted l). inversion Hn. subst.
  specialize (IH H2). assert (Hx : ~ In x (sorted l)) by (intro H; apply H1; eapply Permutation_in; [apply sorted_perm|exact H]).
  clear -IH Hx. induction IH as [|y l' Hs IHs Hf]; cbn [insert_str]; [repeat constructor|].
  destruct (str_ltb y x) eqn:E.
  - constructor.
    + apply IHs. intro H. apply Hx. right. exact H.
    + rewrite Forall_forall in *. intros z Hz. apply (Permutation_in _ (insert_perm x l')) in Hz. destruct Hz as [<-|Hz].
      * apply ltb_lt. exact E.
      * apply Hf. exact Hz.
  - assert (Hxy : str_ltb x y = true). { destruct (str_ltb x y) eqn:E2; [reflexivity|]. exfalso. apply Hx. left. symmetry. apply ltb_tri; assumption. }
    constructor; [constructor; assumption|]. constructor; [apply ltb_lt; exact Hxy|].
    rewrite Forall_forall in *. intros z Hz. apply ltb_lt. apply (ltb_trans x y z Hxy). apply ltb_lt. apply Hf. exact Hz.
Qed.
Lemma sorted_fixed : forall l, StronglySorted str_lt l -> sorted l = l.
Proof.
  intros l H. induction H as [|x l Hs IH Hf]; [reflexivity|]. cbn [sorted fold_right]. fold (sorted l). rewrite IH.
  destruct l as [|y l]; [reflexivity|]. cbn [insert_str]. inversion Hf. subst. rewrite (ltb_asym x y); [reflexivity|]. apply ltb_lt. assumption.
Qed.

(* ---- codes ---- *)
Lemma enum_notin : forall l i g c, ~ In g l -> enum_loop i l g c = c.
Proof.
  induction l as [|t l IH]; intros i g c H; cbn [enum_loop]; [reflexivity|].
  destruct (str_eq_dec g t); [exfalso; apply H; left; congruence|]. apply IH. intro Hi. apply H. right. exact Hi.
Qed.
Lemma enum_nth : forall l i g c j, NoDup l -> nth_error l j = Some g -> enum_loop i l g c = i + j + 1.
Proof.
  induction l as [|t l IH]; intros i g c j Hn Hj; [destruct j; discriminate|]. inversion Hn. subst. cbn [enum_loop].
  destruct j as [|j]; cbn [nth_error] in Hj.
  - inversion Hj. subst. destruct (str_eq_dec g g); [|congruence]. rewrite enum_notin by assumption. lia.
  - rewrite (IH _ _ _ j) by assumption. lia.
Qed.
Lemma gal_map_get : forall l i d t, NoDup l ->
  dget (gal_map i l d) t = match find (fun p => str_eqb (snd p) t) (combine (seq i (length l)) l) with Some p => Some (fst p) | None => dget d t end.
Proof.
  induction l as [|x l IH]; intros i d t Hn; cbn [gal_map length seq combine find]; [reflexivity|]. inversion Hn. subst.
  rewrite IH by assumption. cbn [snd fst]. destruct (str_eqb x t) eqn:E.
  - apply str_eqb_true in E. subst x. rewrite dget_set_same.
    assert (Hnone : find (fun p : nat * str => str_eqb (snd p) t) (combine (seq (S i) (length l)) l) = None).
    { destruct (find _ _) as [[k y]|] eqn:Ef; [|reflexivity]. apply find_some in Ef. destruct Ef as [Hi He].
      apply str_eqb_true in He. cbn in He. subst. apply in_combine_r in Hi. contradiction. }
    rewrite Hnone. reflexivity.
  - destruct (find _ _); [reflexivity|]. apply dget_set_other. intros ->. unfold str_eqb in E. destruct (str_eq_dec x x); congruence.
Qed.
Lemma gal_map_notin : forall l i d t, ~ In t l -> dget (gal_map i l d) t = dget d t.
Proof.
  induction l as [|x l IH]; intros i d t H; cbn [gal_map]; [reflexivity|]. rewrite IH by (intro Hi; apply H; right; exact Hi).
  apply dget_set_other. intros ->. apply H. left. reflexivity.
Qed.
Lemma gal_map_nth : forall l i d t j, NoDup l -> nth_error l j = Some t -> dget (gal_map i l d) t = Some (i + j).
Proof.
  induction l as [|x l IH]; intros i d t j Hn Hj; [destruct j; discriminate|]. inversion Hn. subst. cbn [gal_map].
  destruct j as [|j]; cbn [nth_error] in Hj.
  - inversion Hj. subst. rewrite gal_map_notin by assumption. rewrite dget_set_same. f_equal. lia.
  - rewrite (IH _ _ _ j) by assumption. f_equal. lia.
Qed.
Lemma gal_attr_nth : forall types j t, NoDup types -> nth_error types j = Some t -> gal_attr types t = Some j.
Proof. intros. unfold gal_attr. rewrite (gal_map_nth _ _ _ _ j) by assumption. reflexivity. Qed.

Lemma sorted_nodup : forall l, NoDup l -> NoDup (sorted l).
Proof. intros l H. eapply Permutation_NoDup; [symmetry; apply sorted_perm|exact H]. Qed.
Lemma gal_code_head : forall t types, NoDup (t :: types) -> gal_code (t :: types) t = 0.
Proof.
  intros t types H. unfold gal_code. cbn [tl]. apply enum_notin. inversion H. subst. intro Hi. apply H2.
  eapply Permutation_in; [apply sorted_perm|exact Hi].
Qed.
Lemma gal_code_tail : forall t types g j, NoDup (t :: types) -> nth_error (sorted types) j = Some g -> gal_code (t :: types) g = S j.
Proof.
  intros t types g j H Hj. unfold gal_code. cbn [tl]. inversion H. subst. rewrite (enum_nth _ _ _ _ j); [lia| |exact Hj]. apply sorted_nodup. assumption.
Qed.
Lemma gal_types_iff : forall types, NoDup types ->
  ((forall t, In t types -> gal_attr types t = Some (gal_code types t)) <-> StronglySorted str_lt (tl types)).
Proof.
  intros [|t0 types] Hn.
  - split; [constructor|intros _ t []].
  - cbn [tl]. inversion Hn. subst. split.
    + intros H. replace types with (sorted types); [apply sorted_sorted; assumption|].
      apply nth_error_ext. intros j.
      assert (Hl : length (sorted types) = length types) by (apply Permutation_length, sorted_perm).
      destruct (nth_error types j) as [t|] eqn:Ej.
      * assert (Hi : In t types) by (eapply nth_error_In; exact Ej).
        assert (Ha : gal_attr (t0 :: types) t = Some (S j)) by (apply gal_attr_nth; [exact Hn|exact Ej]).
        destruct (In_nth_error (sorted types) t) as [k Hk]; [eapply Permutation_in; [symmetry; apply sorted_perm|exact Hi]|].
        rewrite H in Ha by (right; exact Hi). rewrite (gal_code_tail _ _ _ k Hn Hk) in Ha.
        inversion Ha. subst. exact Hk.
      * apply nth_error_None. apply nth_error_None in Ej. lia.
    + intros Hs t Hi. apply In_nth_error in Hi. destruct Hi as [j Hj].
      rewrite (gal_attr_nth _ _ _ Hn Hj). f_equal. destruct j as [|j]; cbn [nth_error] in Hj.
      * inversion Hj. subst. symmetry. apply gal_code_head. exact Hn.
      * symmetry. apply gal_code_tail; [exact Hn|]. rewrite sorted_fixed by exact Hs. exact Hj.
Qed.
Lemma gal_code_inj : forall types a b, NoDup types -> In a types -> In b types -> gal_code types a = gal_code types b -> a = b.
Proof.
  intros [|t0 types] a b Hn Ha Hb E; [destruct Ha|].
  assert (Hk : forall g, In g (t0 :: types) -> (g = t0 /\ gal_code (t0 :: types) g = 0) \/
      exists j, nth_error (sorted types) j = Some g /\ gal_code (t0 :: types) g = S j).
  { intros g [<-|Hg]; [left; split; [reflexivity|apply gal_code_head; exact Hn]|].
    right. destruct (In_nth_error (sorted types) g) as [k Hk]; [eapply Permutation_in; [symmetry; apply sorted_perm|exact Hg]|].
    exists k. split; [exact Hk|]. apply gal_code_tail; assumption. }
  destruct (Hk a Ha) as [[-> H1]|[j [H1 H2]]]; destruct (Hk b Hb) as [[-> H3]|[k [H3 H4]]]; try congruence; try lia.
Qed.

(* ---- paths ---- *)
Lemma noslash_app_eq : forall x y r r', noslash x -> noslash y -> x ++ slash :: r = y ++ slash :: r' -> x = y /\ r = r'.
Proof. intros x y r r' Hx Hy H. apply (qualified_inj x r y r' Hx Hy H). Qed.
Lemma noslash_prefix : forall x y r t, noslash x -> x ++ r = y ++ slash :: t -> exists r', y = x ++ r'.
Proof.
  induction x as [|a x IH]; intros y r t Hx H; [exists y; reflexivity|].
  destruct y as [|b y]; cbn [app] in H.
  - exfalso. inversion H. apply Hx. left. congruence.
  - inversion H. subst. destruct (IH y r t) as [r' ->]; [intro Hi; apply Hx; right; exact Hi|assumption|]. exists r'. reflexivity.
Qed.
Lemma render_cons : forall w p, p <> [] -> render (w :: p) = w ++ slash :: render p.
Proof. intros w [|x p] H; [congruence|reflexivity]. Qed.
Lemma render_within : forall g rest, exists t, render (g ++ rest) = render g ++ t.
Proof.
  induction g as [|w g IH]; intros rest; [exists (render rest); reflexivity|].
  destruct (IH rest) as [t Ht]. destruct g as [|v g].
  - cbn [app]. destruct rest as [|v rest]; [exists []; rewrite app_nil_r; reflexivity|].
    rewrite render_cons by discriminate. cbn [render]. eexists. reflexivity.
  - change ((w :: v :: g) ++ rest) with (w :: ((v :: g) ++ rest)).
    rewrite (render_cons w ((v :: g) ++ rest)) by (cbn [app]; discriminate). rewrite (render_cons w (v :: g)) by discriminate. rewrite Ht.
    exists t. rewrite <- app_assoc. reflexivity.
Qed.
Lemma render_starts : forall g p, Forall good_name g -> Forall good_name p -> no_lookalike g p ->
  starts (render g) (render p) = true -> within g p.
Proof.
  induction g as [|x g IH]; intros p Hg Hp Hl Hs; [exists p; reflexivity|].
  apply starts_true in Hs. destruct Hs as [r Hr]. inversion Hg as [|? ? Hx Hg']. subst.
  destruct p as [|y p].
  { exfalso. destruct Hx as [Hx _]. destruct g; cbn [render] in Hr; destruct x; try congruence; discriminate. }
  inversion Hp as [|? ? Hy Hp']. subst.
  destruct g as [|x2 g].
  - change (render [x]) with x in Hr. assert (Hst : starts x y = true).
    { apply starts_true. destruct p as [|y2 p].
      - exists r. exact Hr.
      - rewrite render_cons in Hr by discriminate. apply (noslash_prefix x y r (render (y2 :: p))); [apply Hx|]. congruence. }
    rewrite (Hl [] x y p eq_refl eq_refl Hst). exists p. reflexivity.
  - rewrite (render_cons x) in Hr by discriminate. destruct p as [|y2 p].
    + exfalso. change (render [y]) with y in Hr. destruct Hy as [_ Hy]. apply Hy. rewrite Hr, <- app_assoc. apply in_or_app. right. left. reflexivity.
    + rewrite (render_cons y) in Hr by discriminate. rewrite <- app_assoc in Hr. cbn [app] in Hr.
      destruct (noslash_app_eq _ _ _ _ (proj2 Hy) (proj2 Hx) Hr) as [-> Hr'].
      destruct (IH (y2 :: p)) as [rest Hrest]; [exact Hg'|exact Hp'| | |].
      * intros pre a b rest E1 E2 Hab. apply (Hl (x :: pre) a b rest); [rewrite E1; reflexivity|rewrite E2; reflexivity|exact Hab].
      * apply starts_true. exists r. exact Hr'.
      * exists rest. rewrite Hrest. reflexivity.
Qed.
Lemma lstrip_render : forall n p, Forall good_name p -> lstrip (repeat slash n ++ render p) = render p.
Proof.
  induction n as [|n IH]; intros p Hp; cbn [repeat app].
  - destruct p as [|w p]; [reflexivity|]. inversion Hp as [|? ? Hw Hp']. subst. destruct Hw as [H1 H2].
    destruct w as [|a w]; [congruence|]. destruct p; cbn [render app lstrip];
    destruct (ascii_dec a slash) as [E|E]; try reflexivity; exfalso; apply H2; left; congruence.
  - cbn [lstrip]. destruct (ascii_dec slash slash); [apply IH; exact Hp|congruence].
Qed.
Lemma render_last : forall p, Forall good_name p -> p <> [] -> exists l c, render p = l ++ [c] /\ c <> slash.
Proof.
  induction p as [|w p IH]; intros Hp H; [congruence|]. inversion Hp as [|? ? Hw Hp']. subst.
  destruct p as [|v p].
  - cbn [render]. destruct Hw as [H2 H4]. destruct (exists_last H2) as [l [c ->]]. exists l, c. split; [reflexivity|].
    intros ->. apply H4. apply in_or_app. right. left. reflexivity.
  - rewrite render_cons by discriminate. destruct (IH Hp') as [l [c [Hl Hc]]]; [discriminate|]. rewrite Hl.
    exists (w ++ slash :: l), c. split; [rewrite <- app_assoc; reflexivity|exact Hc].
Qed.
Lemma ends_slash_app : forall l c, ends_slash (l ++ [c]) = if ascii_dec c slash then true else false.
Proof. intros l c. unfold ends_slash. rewrite rev_app_distr. reflexivity. Qed.
Lemma render_head : forall p, Forall good_name p -> p <> [] -> exists a l, render p = a :: l /\ a <> slash.
Proof.
  intros [|w p] Hp H; [congruence|]. inversion Hp as [|? ? Hw Hp']. subst. destruct Hw as [H1 H2]. destruct w as [|a w]; [congruence|].
  exists a. destruct p as [|v p].
  - exists w. split; [reflexivity|]. intros ->. apply H2. left. reflexivity.
  - eexists. split; [rewrite render_cons by discriminate; reflexivity|]. intros ->. apply H2. left. reflexivity.
Qed.
(* joining below a root: with any number of slashes in front *)
Lemma join_render : forall n root col, Forall good_name root -> Forall good_name col -> col <> [] ->
  exists n', path_join (repeat slash n ++ render root) (render col) = repeat slash n' ++ render (root ++ col).
Proof.
  intros n root col Hr Hc Hn. destruct (render_head col Hc Hn) as [a [l [Hal Ha]]].
  unfold path_join. rewrite Hal. destruct (ascii_dec a slash); [congruence|]. rewrite <- Hal. clear a l Hal Ha n0.
  destruct root as [|w root].
  - cbn [render app]. rewrite app_nil_r. destruct n as [|n].
    + exists 0. reflexivity.
    + assert (E : ends_slash (repeat slash (S n)) = true).
      { replace (S n) with (n + 1) by lia. rewrite repeat_app. cbn [repeat]. rewrite ends_slash_app.
        destruct (ascii_dec slash slash); congruence. }
      rewrite E. cbn [repeat]. exists (S n). reflexivity.
  - destruct (render_last (w :: root) Hr) as [l [c [Hl Hcs]]]; [discriminate|].
    assert (E : ends_slash (repeat slash n ++ render (w :: root)) = false).
    { rewrite Hl, app_assoc, ends_slash_app. destruct (ascii_dec c slash); congruence. }
    rewrite E. assert (Hm : forall X (s : str) (x y : X), s <> [] -> match s with [] => x | _ => y end = y) by (intros X [|] x y Hs; congruence).
    rewrite Hm by (rewrite Hl; destruct (repeat slash n); destruct l; discriminate).
    exists n. rewrite <- app_assoc. f_equal. clear -Hn. revert w. induction root as [|v root IH]; intros w.
    + change ([w] ++ col) with (w :: col). rewrite (render_cons w col) by exact Hn. reflexivity.
    + change ((w :: v :: root) ++ col) with (w :: ((v :: root) ++ col)).
      rewrite (render_cons w (v :: root)) by discriminate. rewrite (render_cons w ((v :: root) ++ col)) by (cbn [app]; discriminate).
      rewrite <- IH. rewrite <- app_assoc. reflexivity.
Qed.

Lemma rall_in : forall A B (f : A -> res B) l r, rall (map f l) = Ok r -> forall b, In b r <-> exists a, In a l /\ f a = Ok b.
Proof.
  intros A B f. induction l as [|a l IH]; intros r; cbn [map rall].
  - intros H. inversion H. intros b. split; [intros []|intros [x [[] _]]].
  - destruct (f a) as [x|] eqn:E; [|discriminate]. cbn [rbind]. destruct (rall (map f l)) as [r'|]; [|discriminate]. cbn [rbind].
    intros H. inversion H. intros b. cbn [In]. rewrite (IH r' eq_refl). split.
    + intros [<-|[y [Hy Hf]]]; [exists a; auto|exists y; auto].
    + intros [y [[->|Hy] Hf]]; [left; congruence|right; exists y; auto].
Qed.

Section Hdf.
Variable infile : str -> bool.
Variables (nr : nat) (root : path) (ex : list (nat * path)) (header : option path) (found : list path).
Hypothesis Hroot : Forall good_name root.
Hypothesis Hex : forall n e, In (n, e) ex -> Forall good_name e /\ (e <> [] \/ 0 < n).
Hypothesis Hhd : forall e, header = Some e -> Forall good_name e.
Hypothesis Hfound : forall c, In c found -> Forall good_name c /\ c <> [].
Let root_s := repeat slash nr ++ render root.
Let ex_s := map (fun ne : nat * path => repeat slash (fst ne) ++ render (snd ne)) ex.

Lemma exclude_name_ok : forall n e x, Forall good_name e -> (e <> [] \/ 0 < n) -> exclude_name infile root_s (repeat slash n ++ render e) = Ok x ->
  x = render (target infile root n e) /\ Forall good_name (target infile root n e).
Proof using Hroot.
  intros n e x He Hne. unfold exclude_name, target. destruct (infile (repeat slash n ++ render e)) eqn:E.
  - intros H. inversion H. split; [apply lstrip_render; exact He|exact He].
  - destruct (infile (path_join root_s (repeat slash n ++ render e))) eqn:E2; [|discriminate]. intros H. inversion H. clear H.
    assert (Hg : Forall good_name (root ++ e)) by (apply Forall_app; split; assumption). split; [|exact Hg].
    destruct n as [|n].
    + cbn [repeat app] in E2 |- *. destruct (join_render nr root e Hroot He) as [n' Hn]; [destruct Hne as [Hne|Hne]; [exact Hne|inversion Hne]|]. unfold root_s. rewrite Hn.
      apply lstrip_render. exact Hg.
    + exfalso. clear - E E2. cbn [repeat app] in E, E2. unfold path_join in E2. destruct (ascii_dec slash slash); congruence.
Qed.

Lemma exclude_names_ok : forall l, exclude_names infile root_s ex_s (option_map render header) = Ok l ->
  forall x, In x l <-> exists g, excluded_path infile root ex header g /\ Forall good_name g /\ x = render g.
Proof using Hroot Hex Hhd.
  intros l H x. unfold exclude_names in H. destruct (rall (map (exclude_name infile root_s) ex_s)) as [l0|] eqn:E; [|discriminate].
  cbn [rbind] in H. pose proof (rall_in _ _ _ _ _ E) as Hi.
  assert (H0 : In x l0 <-> exists n e, In (n, e) ex /\ x = render (target infile root n e) /\ Forall good_name (target infile root n e)).
  { rewrite Hi. split.
    - intros [s [Hs Hx]]. apply in_map_iff in Hs. destruct Hs as [[n e] [<- Hne]]. cbn [fst snd] in Hx. exists n, e. split; [exact Hne|].
      destruct (Hex n e Hne). apply exclude_name_ok; assumption.
    - intros [n [e [Hne [-> Hg]]]]. exists (repeat slash n ++ render e).
      assert (Hs : In (repeat slash n ++ render e) ex_s) by (apply in_map_iff; exists (n, e); split; [reflexivity|exact Hne]).
      split; [exact Hs|]. destruct (exclude_name infile root_s (repeat slash n ++ render e)) as [y|er] eqn:Ey.
      + destruct (Hex n e Hne) as [H1 H2]. destruct (exclude_name_ok n e y H1 H2 Ey) as [-> _]. reflexivity.
      + exfalso. clear -E Hs Ey. revert l0 E. induction ex_s as [|s0 ss IH]; intros l0 E; [destruct Hs|].
        cbn [map rall] in E. destruct Hs as [->|Hs]; [rewrite Ey in E; discriminate|].
        destruct (exclude_name infile root_s s0); [|discriminate]. cbn [rbind] in E.
        destruct (rall (map (exclude_name infile root_s) ss)) as [r|]; [|discriminate]. apply (IH Hs r eq_refl). }
  unfold excluded_path. destruct header as [hd|]; cbn [option_map] in H.
  - destruct (infile (render hd)); [|discriminate]. injection H as <-. rewrite in_app_iff, H0. cbn [In]. split.
    + intros [[n [e [H1 [H2 H3]]]]|[<-|[]]].
      * exists (target infile root n e). split; [left; exists n, e; auto|]. auto.
      * exists hd. split; [right; reflexivity|]. split; [apply Hhd; reflexivity|reflexivity].
    + intros [g [[[n [e [H1 ->]]]|Hg] [H3 ->]]].
      * left. exists n, e. auto.
      * right. left. inversion Hg. reflexivity.
  - injection H as <-. rewrite H0. split.
    + intros [n [e [H1 [H2 H3]]]]. exists (target infile root n e). split; [left; exists n, e; auto|]. auto.
    + intros [g [[[n [e [H1 ->]]]|Hg] [H3 ->]]]; [exists n, e; auto|discriminate].
Qed.

Lemma column_path : forall c, In c found -> lstrip (path_join root_s (render c)) = render (root ++ c).
Proof using Hroot Hfound.
  intros c Hc. destruct (Hfound c Hc) as [H1 H2]. destruct (join_render nr root c Hroot H1 H2) as [n' Hn].
  unfold root_s. rewrite Hn. apply lstrip_render. apply Forall_app. split; assumption.
Qed.

(* everything inside an excluded path is gone; nothing else is, unless a
   component looks like the beginning of an excluded one *)
Lemma hdf_columns_ok : forall l, hdf_columns infile root_s ex_s (option_map render header) (map render found) = Ok l ->
  (forall x, In x l -> In x (map render found)) /\
  (forall c g, In c found -> excluded_path infile root ex header g -> within g (root ++ c) -> ~ In (render c) l) /\
  (forall c, In c found -> (forall g, excluded_path infile root ex header g -> ~ within g (root ++ c) /\ no_lookalike g (root ++ c)) -> In (render c) l).
Proof using Hroot Hex Hhd Hfound.
  intros l. unfold hdf_columns. destruct (infile root_s); cbn [negb]; [|discriminate].
  destruct (exclude_names infile root_s ex_s (option_map render header)) as [le|] eqn:E; [|discriminate]. cbn [rbind].
  intros H. injection H as <-. pose proof (exclude_names_ok le E) as Hle.
  assert (Hgood : forall g, excluded_path infile root ex header g -> Forall good_name g /\ In (render g) le).
  { intros g Hg. assert (Hgg : Forall good_name g).
    { destruct Hg as [[n [e [H1 ->]]]|Hg]; [|apply Hhd; exact Hg]. unfold target. destruct (Hex n e H1).
      destruct (infile _); [assumption|]. apply Forall_app. split; assumption. }
    split; [exact Hgg|]. apply Hle. exists g. auto. }
  split; [|split].
  - intros x Hx. apply filter_In in Hx. apply Hx.
  - intros c g Hc Hg [rest Hr] Hin. apply filter_In in Hin. destruct Hin as [_ Hin]. apply negb_true_iff in Hin.
    assert (Ht : existsb (fun e => starts e (lstrip (path_join root_s (render c)))) le = true); [|congruence].
    apply existsb_exists. exists (render g). split; [apply Hgood; exact Hg|]. rewrite column_path by exact Hc. rewrite Hr.
    apply starts_true. apply render_within.
  - intros c Hc Hg. apply filter_In. split; [apply in_map; exact Hc|]. apply negb_true_iff.
    destruct (existsb _ le) eqn:Ex; [|reflexivity]. exfalso. apply existsb_exists in Ex. destruct Ex as [x [Hx Hs]].
    rewrite column_path in Hs by exact Hc. apply Hle in Hx. destruct Hx as [g [Hg1 [Hg2 ->]]].
    destruct (Hg g Hg1) as [H1 H2]. apply H1. apply render_starts; try assumption.
    destruct (Hfound c Hc). apply Forall_app. split; assumption.
Qed.
End Hdf.

Lemma rall_ok_iff : forall A B (f : A -> res B) l, is_ok (rall (map f l)) = true <-> forall a, In a l -> is_ok (f a) = true.
Proof.
  intros A B f. induction l as [|a l IH]; cbn [map rall].
  - split; [intros _ a []|reflexivity].
  - destruct (f a) as [x|e] eqn:E; cbn [rbind].
    + destruct (rall (map f l)) as [r|e]; cbn [rbind is_ok] in *.
      * split; [|reflexivity]. intros _ b [<-|Hb]; [rewrite E; reflexivity|]. apply IH; [reflexivity|exact Hb].
      * split; [discriminate|]. intros H. apply IH. intros b Hb. apply H. right. exact Hb.
    + split; [discriminate|]. intros H. specialize (H a (or_introl eq_refl)). rewrite E in H. exact H.
Qed.
Lemma hdf_accepts : forall infile root ex header found,
  is_ok (hdf_columns infile root ex header found) = true <->
  infile root = true /\ (forall e, In e ex -> infile e = true \/ infile (path_join root e) = true) /\
  (forall h, header = Some h -> infile h = true).
Proof.
  intros infile root ex header found. unfold hdf_columns, exclude_names.
  assert (Hn : forall e, is_ok (exclude_name infile root e) = true <-> infile e = true \/ infile (path_join root e) = true).
  { intro e. unfold exclude_name. destruct (infile e); [tauto|]. destruct (infile (path_join root e)); cbn [is_ok]; intuition congruence. }
  pose proof (rall_ok_iff _ _ (exclude_name infile root) ex) as Hr.
  assert (Hr' : is_ok (rall (map (exclude_name infile root) ex)) = true <-> forall e, In e ex -> infile e = true \/ infile (path_join root e) = true).
  { rewrite Hr. split; intros H e He; apply Hn; apply H; exact He. }
  destruct (infile root); cbn [negb]; [|cbn [is_ok]; intuition congruence].
  destruct (rall (map (exclude_name infile root) ex)) as [l|e] eqn:E; cbn [rbind is_ok] in *.
  - destruct header as [hd|].
    + destruct (infile hd) eqn:Eh; cbn [rbind is_ok].
      * split; [|reflexivity]. intros _. split; [reflexivity|]. split; [apply Hr'; reflexivity|]. intros h H. congruence.
      * split; [discriminate|]. intros [_ [_ H]]. rewrite (H hd eq_refl) in Eh. discriminate.
    + split; [|reflexivity]. intros _. split; [reflexivity|]. split; [apply Hr'; reflexivity|]. intros h H. discriminate.
  - split; [discriminate|]. intros [_ [H _]]. apply Hr'. exact H.
Qed.
