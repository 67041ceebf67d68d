From Coq Require Import Ascii String.
From Verif Require Import Base BaseProofs NamesModel NamesSpec NamesProofs TomModel TomSpec TomProofs.
Local Open Scope nat_scope.
Local Notation length := List.length.

(* dictionaries *)
Lemma update_get : forall e d k, NoDup (map fst e) ->
  dget (update d e) k = match dget e k with Some v => Some v | None => dget d k end.
Proof.
  induction e as [ | [x v] e IH]; intros d k N; [reflexivity | ].
  cbn [map fst] in N. inversion N as [ | a l Hn Hd]; subst.
  change (update d ((x, v) :: e)) with (update (dset d x v) e). rewrite IH by exact Hd. cbn [dget].
  destruct (str_eq_dec x k) as [<- | E].
  - rewrite (proj2 (dget_none _ e x) Hn). apply dget_set_same.
  - destruct (dget e k); [reflexivity | ]. apply dget_set_other. congruence.
Qed.

(* sizes *)
Lemma fill_ok : forall d v l, fill d v = Ok l <-> length l = d /\ stands_for v l.
Proof.
  intros d v l. unfold stands_for. split.
  - destruct v as [ | x | w | | | ]; cbn [fill]; intros H; try discriminate.
    + injection H as <-. split; [apply repeat_length | ]. left. exists x. split; [left; reflexivity | ].
      intros y Hy. apply repeat_spec in Hy. exact Hy.
    + assert (G : (if length w =? d then Ok w else Err ValueError) = Ok l -> length l = d /\ stands_for (AVec w) l).
      { destruct (length w =? d) eqn:E; [ | discriminate]. intros G. injection G as <-. apply Nat.eqb_eq in E.
        split; [exact E | right; reflexivity]. }
      destruct w as [ | x [ | y w]]; [apply G; exact H | | apply G; exact H].
      injection H as <-. split; [apply repeat_length | ]. left. exists x. split; [right; reflexivity | ].
      intros y Hy. apply repeat_spec in Hy. exact Hy.
  - intros [L [[x [E A]] | ->]].
    + assert (R : repeat x d = l).
      { rewrite <- L. clear L. induction l as [ | y l IH]; [reflexivity | ]. cbn [length repeat]. f_equal.
        - symmetry. apply A. left. reflexivity.
        - apply IH. intros z Hz. apply A. right. exact Hz. }
      destruct E as [-> | ->]; cbn [fill]; rewrite R; reflexivity.
    + cbn [fill]. destruct l as [ | x [ | y l]]; [cbn [length] in *; subst; reflexivity | cbn [length] in *; subst; reflexivity | ].
      rewrite (proj2 (Nat.eqb_eq _ _) L). reflexivity.
Qed.
Lemma sizes_ok : forall nm box n b, mesh_sizes nm box = Ok (n, b) <-> sizes nm box n b.
Proof.
  intros nm box n b. unfold sizes. split.
  - unfold mesh_sizes. destruct nm as [ | x | l | | | ]; try discriminate.
    + destruct box as [ | bx | bl | | | ]; try discriminate; cbn [fill rbind]; intros H.
      * injection H as <- <-. split; [reflexivity | split; [discriminate | ]].
        split; [reflexivity | left; exists bx; split; [left; reflexivity | ]].
        intros y Hy. apply (repeat_spec 3) in Hy. exact Hy.
      * destruct (fill 3 (AVec bl)) as [b' | ] eqn:F; [ | cbn [fill] in F; rewrite F in H; discriminate].
        cbn [fill] in F. rewrite F in H. cbn [rbind] in H. injection H as <- <-. apply (fill_ok 3 (AVec bl)) in F.
        destruct F as [F1 F2]. split; [reflexivity | split; [discriminate | split; [exact F1 | exact F2]]].
    + destruct l as [ | x l]; [destruct box; discriminate | ]. intros H.
      assert (H' : (let! n := fill (length (x :: l)) (AVec (x :: l)) in let! b := fill (length (x :: l)) box in Ok (n, b)) = Ok (n, b))
        by (destruct box; [discriminate | exact H ..]).
      clear H. rewrite (proj2 (fill_ok (length (x :: l)) (AVec (x :: l)) (x :: l))) in H'
        by (split; [reflexivity | right; reflexivity]).
      cbn [rbind] in H'. destruct (fill (length (x :: l)) box) as [b' | ] eqn:F; [ | discriminate].
      cbn [rbind] in H'. injection H' as <- <-. apply fill_ok in F. destruct F as [F1 F2].
      split; [reflexivity | split; [discriminate | split; [exact F1 | exact F2]]].
    + destruct box; discriminate.
    + destruct box; discriminate.
    + destruct box; discriminate.
  - intros [E [N [L S0]]]. assert (B : fill (length n) box = Ok b) by (apply fill_ok; split; [exact L | exact S0]).
    assert (Bn : box <> ANone) by (intros ->; discriminate).
    destruct nm as [ | x | l | | | ]; try contradiction.
    + subst n. cbn [length] in B. unfold mesh_sizes. destruct box; [congruence | ..]; rewrite B; reflexivity.
    + subst n. destruct l as [ | x l]; [congruence | ].
      assert (F : fill (length (x :: l)) (AVec (x :: l)) = Ok (x :: l)) by (apply fill_ok; split; [reflexivity | right; reflexivity]).
      unfold mesh_sizes. destruct box; [congruence | ..]; rewrite F; cbn [rbind]; rewrite B; reflexivity.
Qed.

Lemma given_ok : forall o attrs k v, given o attrs k = Ok v <-> chosen o attrs k v.
Proof.
  intros o attrs k v. unfold given, chosen. destruct o as [w | ].
  - split; [intros H; left; congruence | intros [H | [H _]]; congruence].
  - destruct (dget attrs k) as [w | ]; split; try discriminate.
    + intros H. right. split; [reflexivity | congruence].
    + intros [H | [_ H]]; congruence.
    + intros [H | [_ H]]; congruence.
Qed.

Section M.
Variable V : Type.
Variable methods : list str.
Implicit Types (i : inst V) (g : mesh V) (a : args).

Lemma catalog_mesh_ok : forall src nm box il cp r (w s v p : option V) g, NoDup (map fst src) ->
  catalog_mesh src nm box il cp r w s v p = Ok g ->
  exists n b, sizes nm box n b /\ mesh_attrs src n b il cp r (g_attrs g) /\
    g_weight g = w /\ g_selection g = s /\ g_value g = v /\ g_position g = p.
Proof.
  intros src nm box il cp r w s v p g N H. unfold catalog_mesh in H.
  destruct (mesh_sizes nm box) as [[n b] | ] eqn:E; [ | discriminate]. cbn [rbind fst snd] in H.
  injection H as <-. exists n, b. split; [apply sizes_ok; exact E | ]. cbn [g_attrs g_weight g_selection g_value g_position].
  split; [ | repeat split].
  unfold mesh_attrs.
  split; [ | split; [ | split; [ | split; [ | split]]]].
  - rewrite !dget_set_other by discriminate. apply dget_set_same.
  - rewrite !dget_set_other by discriminate. apply dget_set_same.
  - rewrite !dget_set_other by discriminate. apply dget_set_same.
  - rewrite !dget_set_other by discriminate. apply dget_set_same.
  - apply dget_set_same.
  - intros k Hk. unfold mesh_keys in Hk. cbn [In] in Hk.
    rewrite !dget_set_other by (intros ->; tauto).
    rewrite update_get by exact N. destruct (dget src k); reflexivity.
Qed.
Lemma catalog_mesh_total : forall src nm box il cp r (w s v p : option V) n b, sizes nm box n b ->
  exists g, catalog_mesh src nm box il cp r w s v p = Ok g.
Proof.
  intros src nm box il cp r w s v p n b H. apply sizes_ok in H. unfold catalog_mesh. rewrite H. eexists. reflexivity.
Qed.

Lemma col_of_ok : forall i n v, col_of i n = Ok v <-> exists d, getitem i n = Ok (v, d).
Proof.
  intros i n v. unfold col_of. destruct (getitem i n) as [[w d] | e]; cbn [rbind fst]; split.
  - intros H. exists d. congruence.
  - intros [d' H]. congruence.
  - discriminate.
  - intros [d' H]. congruence.
Qed.
Lemma get_listed : forall i n v d, getitem i n = Ok (v, d) -> In n (columns i).
Proof.
  intros i n v d H. destruct (in_dec str_eq_dec n (columns i)) as [A | A]; [exact A | ].
  rewrite (get_missing V i n A) in H. discriminate.
Qed.

Lemma to_mesh_ok : forall i a g, NoDup (map fst (i_attrs i)) -> to_mesh methods i a = Ok g ->
  In (resampler_of a) methods /\
  (exists nm box n b, chosen (a_Nmesh a) (i_attrs i) (s_ "Nmesh") nm /\ chosen (a_BoxSize a) (i_attrs i) (s_ "BoxSize") box /\
     sizes nm box n b /\ mesh_attrs (i_attrs i) n b (a_interlaced a) (a_compensated a) (resampler_of a) (g_attrs g)) /\
  (exists w d, getitem i (a_weight a) = Ok (w, d) /\ g_weight g = Some w) /\
  (exists s d, getitem i (a_selection a) = Ok (s, d) /\ g_selection g = Some s) /\
  (exists v d, getitem i (a_value a) = Ok (v, d) /\ g_value g = Some v) /\
  (exists p d, getitem i (a_position a) = Ok (p, d) /\ g_position g = Some p).
Proof.
  intros i a g N H. unfold to_mesh in H. fold (resampler_of a) in H.
  destruct (mem (a_weight a) (columns i)); [ | discriminate]. cbn [negb] in H.
  destruct (mem (a_selection a) (columns i)); [ | discriminate]. cbn [negb] in H.
  destruct (mem (resampler_of a) methods) eqn:M; [ | discriminate]. cbn [negb] in H.
  destruct (given (a_BoxSize a) (i_attrs i) (s_ "BoxSize")) as [box | ] eqn:B; [ | discriminate]. cbn [rbind] in H.
  destruct (given (a_Nmesh a) (i_attrs i) (s_ "Nmesh")) as [nm | ] eqn:Nm; [ | discriminate]. cbn [rbind] in H.
  destruct (col_of i (a_weight a)) as [w | ] eqn:W; [ | discriminate]. cbn [rbind] in H.
  destruct (col_of i (a_selection a)) as [s | ] eqn:Se; [ | discriminate]. cbn [rbind] in H.
  destruct (col_of i (a_value a)) as [v | ] eqn:Va; [ | discriminate]. cbn [rbind] in H.
  destruct (col_of i (a_position a)) as [p | ] eqn:Po; [ | discriminate]. cbn [rbind] in H.
  apply (catalog_mesh_ok _ _ _ _ _ _ _ _ _ _ _ N) in H. destruct H as [n [b [Sz [At [Gw [Gs [Gv Gp]]]]]]].
  apply given_ok in B. apply given_ok in Nm. apply mem_true in M.
  apply col_of_ok in W, Se, Va, Po. destruct W as [dw W], Se as [ds Se], Va as [dv Va], Po as [dp Po].
  split; [exact M | split; [ | split; [ | split; [ | split]]]].
  - exists nm, box, n, b. split; [exact Nm | split; [exact B | split; [exact Sz | exact At]]].
  - exists w, dw. split; assumption.
  - exists s, ds. split; assumption.
  - exists v, dv. split; assumption.
  - exists p, dp. split; assumption.
Qed.
Lemma to_mesh_total : forall i a nm box n b, In (resampler_of a) methods ->
  chosen (a_Nmesh a) (i_attrs i) (s_ "Nmesh") nm -> chosen (a_BoxSize a) (i_attrs i) (s_ "BoxSize") box -> sizes nm box n b ->
  (forall k, In k [a_weight a; a_selection a; a_value a; a_position a] -> exists vd, getitem i k = Ok vd) ->
  exists g, to_mesh methods i a = Ok g.
Proof.
  intros i a nm box n b M Nm B Sz Cs. unfold to_mesh. fold (resampler_of a).
  assert (G : forall k, In k [a_weight a; a_selection a; a_value a; a_position a] -> In k (columns i) /\ exists v, col_of i k = Ok v).
  { intros k Hk. destruct (Cs k Hk) as [[v d] E]. split; [apply (get_listed _ _ _ _ E) | exists v; apply col_of_ok; exists d; exact E]. }
  destruct (G (a_weight a)) as [W1 [w W2]]; [left; reflexivity | ].
  destruct (G (a_selection a)) as [S1 [s S2]]; [right; left; reflexivity | ].
  destruct (G (a_value a)) as [V1 [v V2]]; [right; right; left; reflexivity | ].
  destruct (G (a_position a)) as [P1 [p P2]]; [right; right; right; left; reflexivity | ].
  rewrite (proj2 (mem_true _ _) W1), (proj2 (mem_true _ _) S1), (proj2 (mem_true _ _) M). cbn [negb].
  apply given_ok in Nm, B. rewrite B, Nm, W2, S2, V2, P2. cbn [rbind].
  apply (catalog_mesh_total _ _ _ _ _ _ _ _ _ _ _ _ Sz).
Qed.
Lemma to_mesh_refuses : forall i a,
  ~ In (a_weight a) (columns i) \/ ~ In (a_selection a) (columns i) \/ ~ In (resampler_of a) methods \/
  (a_BoxSize a = None /\ dget (i_attrs i) (s_ "BoxSize") = None) \/ (a_Nmesh a = None /\ dget (i_attrs i) (s_ "Nmesh") = None) ->
  to_mesh methods i a = Err ValueError.
Proof.
  intros i a H. unfold to_mesh. fold (resampler_of a).
  destruct (mem (a_weight a) (columns i)) eqn:W; [ | reflexivity]. cbn [negb]. apply mem_true in W.
  destruct (mem (a_selection a) (columns i)) eqn:Se; [ | reflexivity]. cbn [negb]. apply mem_true in Se.
  destruct (mem (resampler_of a) methods) eqn:M; [ | reflexivity]. cbn [negb]. apply mem_true in M.
  destruct H as [H | [H | [H | [[H1 H2] | [H1 H2]]]]]; try contradiction.
  - unfold given at 1. rewrite H1, H2. reflexivity.
  - destruct (given (a_BoxSize a) (i_attrs i) (s_ "BoxSize")) as [box | e] eqn:B.
    + cbn [rbind]. unfold given. rewrite H1, H2. reflexivity.
    + cbn [rbind]. f_equal. unfold given in B. destruct (a_BoxSize a); [discriminate | ].
      destruct (dget (i_attrs i) (s_ "BoxSize")); [discriminate | congruence].
Qed.
End M.
