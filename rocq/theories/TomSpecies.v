From Coq Require Import Ascii String.
From Verif Require Import Base BaseProofs NamesModel NamesSpec NamesProofs TomModel TomSpec TomProofs TomMain.
Local Open Scope nat_scope.
Local Notation length := List.length.

(* dotted names *)
Lemma dotted_inj : forall s t k l : str, undotted s -> undotted t -> s ++ dot :: k = t ++ dot :: l -> s = t /\ k = l.
Proof.
  unfold undotted. induction s as [ | x s IH]; intros [ | y t] k l Hs Ht E; cbn [app] in E.
  - injection E as E. split; [reflexivity | exact E].
  - exfalso. apply Ht. left. congruence.
  - exfalso. apply Hs. left. congruence.
  - assert (E1 : x = y) by congruence. assert (E2 : s ++ dot :: k = t ++ dot :: l) by congruence.
    destruct (IH t k l) as [A B]; [intros H; apply Hs; right; exact H | intros H; apply Ht; right; exact H | exact E2 | ].
    split; [congruence | exact B].
Qed.
Lemma prefix_dot : forall (n k : str), (n ++ [dot]) ++ k = n ++ dot :: k.
Proof. intros n k. rewrite <- app_assoc. reflexivity. Qed.

Section Sp.
Variable V : Type.
Implicit Types (i : inst V) (cats : list (inst V)).

Lemma prefixed_in : forall i n k, undotted n -> In k (map fst (attrs_to_dict V i (n ++ [dot]))) <-> exists j, k = n ++ dot :: j /\ In j (map fst (i_attrs i)).
Proof.
  intros i n k _. unfold attrs_to_dict. rewrite map_map. cbn [fst]. rewrite in_map_iff. split.
  - intros [[j v] [<- H]]. cbn [fst]. exists j. split; [apply prefix_dot | apply in_map_iff; exists (j, v); split; [reflexivity | exact H]].
  - intros [j [-> H]]. apply in_map_iff in H. destruct H as [[j' v] [E H]]. cbn [fst] in E. subst j'.
    exists (j, v). cbn [fst]. split; [apply prefix_dot | exact H].
Qed.
Lemma prefixed_nodup : forall i n, NoDup (map fst (i_attrs i)) -> NoDup (map fst (attrs_to_dict V i (n ++ [dot]))).
Proof.
  intros i n H. unfold attrs_to_dict. rewrite map_map. cbn [fst].
  rewrite <- (map_map fst (fun k => (n ++ [dot]) ++ k)). apply FinFun.Injective_map_NoDup; [ | exact H].
  intros a b E. apply app_inv_head in E. exact E.
Qed.
Lemma prefixed_get : forall i n k, dget (attrs_to_dict V i (n ++ [dot])) (n ++ dot :: k) = dget (i_attrs i) k.
Proof.
  intros i n k. unfold attrs_to_dict. induction (i_attrs i) as [ | [x v] l IH]; [reflexivity | ].
  cbn [map dget fst snd]. destruct (str_eq_dec ((n ++ [dot]) ++ x) (n ++ dot :: k)) as [E | E].
  - rewrite prefix_dot in E. apply app_inv_head in E. assert (E' : x = k) by congruence.
    destruct (str_eq_dec x k); [reflexivity | congruence].
  - destruct (str_eq_dec x k) as [-> | N]; [exfalso; apply E; apply prefix_dot | exact IH].
Qed.

Definition gather (d : list (str * aval)) (l : list (str * inst V)) : list (str * aval) :=
  fold_left (fun d nc => update d (attrs_to_dict V (snd nc) (fst nc ++ [dot]))) l d.
Lemma gather_other : forall l d k, (forall nc, In nc l -> NoDup (map fst (i_attrs (snd nc)))) ->
  (forall nc j, In nc l -> k <> fst nc ++ dot :: j) -> dget (gather d l) k = dget d k.
Proof.
  induction l as [ | [n c] l IH]; intros d k N H; [reflexivity | ].
  change (gather d ((n, c) :: l)) with (gather (update d (attrs_to_dict V c (n ++ [dot]))) l).
  rewrite IH by (intros; first [apply N | apply H]; right; assumption).
  rewrite update_get by (apply prefixed_nodup; apply (N (n, c)); left; reflexivity).
  assert (E : dget (attrs_to_dict V c (n ++ [dot])) k = None).
  { apply dget_none. intros A. unfold attrs_to_dict in A. rewrite map_map in A. apply in_map_iff in A.
    destruct A as [[j v] [A _]]. cbn [fst] in A. apply (H (n, c) j (or_introl eq_refl)). cbn [fst].
    rewrite <- prefix_dot. symmetry. exact A. }
  rewrite E. reflexivity.
Qed.
Lemma gather_get : forall l d s c k, (forall nc, In nc l -> NoDup (map fst (i_attrs (snd nc)))) ->
  NoDup (map fst l) -> (forall nc, In nc l -> undotted (fst nc)) -> In (s, c) l ->
  dget (gather d l) (s ++ dot :: k) = match dget (i_attrs c) k with Some v => Some v | None => dget d (s ++ dot :: k) end.
Proof.
  induction l as [ | [n c0] l IH]; intros d s c k N Nd U I; [destruct I | ].
  change (gather d ((n, c0) :: l)) with (gather (update d (attrs_to_dict V c0 (n ++ [dot]))) l).
  cbn [map fst] in Nd. inversion Nd as [ | a l' Hn Hd]; subst.
  assert (N0 : NoDup (map fst (attrs_to_dict V c0 (n ++ [dot])))) by (apply prefixed_nodup; apply (N (n, c0)); left; reflexivity).
  destruct I as [E | I].
  - injection E as <- <-. rewrite gather_other.
    + rewrite update_get by exact N0. rewrite prefixed_get. reflexivity.
    + intros nc H. apply N. right. exact H.
    + intros [m c'] j H E. cbn [fst] in E. apply dotted_inj in E;
        [ | apply (U (n, c0)); left; reflexivity | apply (U (m, c')); right; exact H].
      apply Hn. destruct E as [-> _]. apply in_map_iff. exists (m, c'). split; [reflexivity | exact H].
  - rewrite (IH _ s c k) by (first [exact Hd | exact I | intros; apply N; right; assumption | intros; apply U; right; assumption]).
    destruct (dget (i_attrs c) k); [reflexivity | ]. rewrite update_get by exact N0.
    assert (E : dget (attrs_to_dict V c0 (n ++ [dot])) (s ++ dot :: k) = None).
    { apply dget_none. intros A. apply prefixed_in in A; [ | apply (U (n, c0)); left; reflexivity].
      destruct A as [j [A _]]. apply dotted_inj in A;
        [ | apply (U (s, c)); right; exact I | apply (U (n, c0)); left; reflexivity].
      apply Hn. destruct A as [-> _]. apply in_map_iff. exists (n, c). split; [reflexivity | exact I]. }
    rewrite E. reflexivity.
Qed.

Lemma dset_keys : forall (d : list (str * aval)) k v x, In x (map fst (dset d k v)) <-> x = k \/ In x (map fst d).
Proof.
  induction d as [ | [y w] d IH]; intros k v x; cbn [dset].
  - cbn [map fst In]. intuition.
  - destruct (str_eq_dec y k) as [-> | N]; cbn [map fst In]; [ | rewrite IH]; intuition.
Qed.
Lemma dset_nodup : forall (d : list (str * aval)) k v, NoDup (map fst d) -> NoDup (map fst (dset d k v)).
Proof.
  induction d as [ | [y w] d IH]; intros k v N; cbn [dset].
  - cbn [map]. constructor; [intros [] | constructor].
  - cbn [map fst] in N. inversion N as [ | a l Hn Hd]; subst. destruct (str_eq_dec y k) as [-> | E]; cbn [map fst].
    + constructor; assumption.
    + constructor; [rewrite dset_keys; intuition | apply IH; exact Hd].
Qed.
Lemma update_nodup : forall e d, NoDup (map fst d) -> NoDup (map fst (update d e)).
Proof.
  induction e as [ | [x v] e IH]; intros d N; [exact N | ]. change (update d ((x, v) :: e)) with (update (dset d x v) e).
  apply IH. apply dset_nodup. exact N.
Qed.
Lemma gather_nodup : forall l d, NoDup (map fst d) -> NoDup (map fst (gather d l)).
Proof.
  induction l as [ | [n c] l IH]; intros d N; [exact N | ].
  change (gather d ((n, c) :: l)) with (gather (update d (attrs_to_dict V c (n ++ [dot]))) l). apply IH. apply update_nodup. exact N.
Qed.

(* the attributes of the catalog *)
Lemma init_inv : forall names cats kw c, species_init names cats kw = Ok c ->
  NoDup names /\ length names = length cats /\ c_names c = names /\ c_cats c = cats /\
  c_attrs c = update (gather [(s_ "species", ANames names)] (combine names cats)) kw.
Proof.
  intros names cats kw c H. unfold species_init in H.
  destruct (length (nodup str_eq_dec names) =? length names) eqn:E1; [ | discriminate]. cbn [negb] in H.
  destruct (length names =? length cats) eqn:E2; [ | discriminate]. cbn [negb] in H.
  apply Nat.eqb_eq in E1, E2. destruct cats as [ | c0 cats]; [discriminate | ]. injection H as <-. cbn [c_names c_cats c_attrs].
  split; [ | split; [exact E2 | split; [reflexivity | split; reflexivity]]].
  clear - E1. revert E1. induction names as [ | x l IH]; intros E; [constructor | ].
  assert (L : forall l : list str, length (nodup str_eq_dec l) <= length l).
  { induction l0 as [ | y l0 IH0]; [reflexivity | ]. cbn [nodup length]. destruct (in_dec str_eq_dec y l0); cbn [length]; lia. }
  cbn [nodup length] in E. destruct (in_dec str_eq_dec x l) as [I | I].
  - pose proof (L l). lia.
  - cbn [length] in E. constructor; [exact I | apply IH; lia].
Qed.
Lemma combine_fst : forall (names : list str) cats, length names = length cats -> map fst (combine names cats) = names.
Proof.
  induction names as [ | n l IH]; intros [ | c cats] E; cbn [length] in E; try lia; [reflexivity | ].
  cbn [combine map fst]. rewrite IH by lia. reflexivity.
Qed.
Lemma undotted_app : forall (n k : str), ~ undotted (n ++ dot :: k).
Proof. intros n k H. apply H. apply in_or_app. right. left. reflexivity. Qed.
Lemma attrs_species : forall names cats kw c s i k, species_init names cats kw = Ok c -> fair names cats kw ->
  In (s, i) (combine names cats) -> dget (c_attrs c) (s ++ dot :: k) = dget (i_attrs i) k.
Proof.
  intros names cats kw c s i k H [U [N [Nk Uk]]] I. apply init_inv in H. destruct H as [Nd [L [_ [_ ->]]]].
  rewrite update_get by exact Nk.
  rewrite (proj2 (dget_none _ kw _)) by (intros A; apply (undotted_app s k); apply Uk; exact A).
  rewrite (gather_get _ _ s i k).
  - destruct (dget (i_attrs i) k); [reflexivity | ]. cbn [dget]. destruct (str_eq_dec (s_ "species") (s ++ dot :: k)) as [E | E]; [ | reflexivity].
    exfalso. apply (undotted_app s k). rewrite <- E. intros A. vm_compute in A. repeat (destruct A as [A | A]; [discriminate | ]). exact A.
  - intros [m j] A. apply in_combine_r in A. apply N. exact A.
  - rewrite combine_fst by exact L. exact Nd.
  - intros [m j] A. apply in_combine_l in A. apply U. exact A.
  - exact I.
Qed.
Lemma attrs_own : forall names cats kw c k, species_init names cats kw = Ok c -> fair names cats kw ->
  undotted k -> k <> s_ "species" -> dget (c_attrs c) k = dget kw k.
Proof.
  intros names cats kw c k H [U [N [Nk Uk]]] Hk Hs. apply init_inv in H. destruct H as [Nd [L [_ [_ ->]]]].
  rewrite update_get by exact Nk. destruct (dget kw k); [reflexivity | ].
  rewrite gather_other.
  - cbn [dget]. destruct (str_eq_dec (s_ "species") k); [congruence | reflexivity].
  - intros [m j] A. apply in_combine_r in A. apply N. exact A.
  - intros [m j] l A E. apply (undotted_app m l). cbn [fst] in E. rewrite <- E. exact Hk.
Qed.

(* numbers and vectors *)
Lemma all_eq : forall x l, forallb (Z.eqb x) l = true <-> forall y, In y l -> y = x.
Proof.
  intros x l. rewrite forallb_forall. split; intros H y Hy; specialize (H y Hy).
  - apply Z.eqb_eq in H. congruence.
  - apply Z.eqb_eq. congruence.
Qed.
Lemma pair_eq : forall l m, ((length l =? length m) && forallb (fun p => (fst p =? snd p)%Z) (combine l m))%bool = true <-> l = m.
Proof.
  induction l as [ | x l IH]; intros [ | y m].
  - split; reflexivity.
  - split; discriminate.
  - split; discriminate.
  - cbn [length combine forallb fst snd Nat.eqb]. specialize (IH m).
    destruct (Z.eqb_spec x y) as [-> | N].
    + cbn [andb]. rewrite IH. split; intros H; congruence.
    + cbn [andb]. rewrite Bool.andb_false_r. split; [discriminate | congruence].
Qed.
Definition vec_vec (l m : list Z) : bool := np_equal (AVec l) (AVec m).
Lemma vec_vec_iff : forall l m, vec_vec l m = true <->
  l = m \/ (exists x, l = [x] /\ forall y, In y m -> y = x) \/ (exists x, m = [x] /\ forall y, In y l -> y = x).
Proof.
  intros l m. unfold vec_vec. destruct l as [ | x [ | x' l]].
  - destruct m as [ | y [ | y' m]]; cbn [np_equal].
    + split; [left; reflexivity | reflexivity].
    + split; [intros _; right; right; exists y; split; [reflexivity | intros ? []] | reflexivity].
    + split; [discriminate | ]. intros [E | [[z [E _]] | [z [E _]]]]; discriminate.
  - cbn [np_equal]. rewrite all_eq. split.
    + intros H. right. left. exists x. split; [reflexivity | exact H].
    + intros [<- | [[z [E H]] | [z [-> H]]]] y Hy.
      * destruct Hy as [-> | []]. reflexivity.
      * assert (z = x) by congruence. subst. apply H. exact Hy.
      * destruct Hy as [<- | []]. symmetry. apply H. left. reflexivity.
  - destruct m as [ | y [ | y' m]].
    + cbn [np_equal]. split; [discriminate | ]. intros [E | [[z [E _]] | [z [E _]]]]; discriminate.
    + change (np_equal (AVec (x :: x' :: l)) (AVec [y])) with (forallb (Z.eqb y) (x :: x' :: l)). rewrite all_eq. split.
      * intros H. right. right. exists y. split; [reflexivity | exact H].
      * intros [E | [[z [E _]] | [z [E H]]]]; try discriminate. assert (z = y) by congruence. subst. exact H.
    + unfold np_equal. rewrite pair_eq. split.
      * intros H. left. exact H.
      * intros [E | [[z [E _]] | [z [E H]]]]; try discriminate. exact E.
Qed.
Lemma equal_agrees : forall v w b, stands_for v b -> np_equal v w = true -> agrees w b.
Proof.
  intros v w b Sf E.
  assert (AV : forall l, (forall x, l = [x] -> forall y, In y b -> y = x) -> (forall j x y, nth_error l j = Some x -> nth_error b j = Some y -> x = y) -> agrees (AVec l) b).
  { intros [ | x [ | x' l]] A B; cbn [agrees]; [exact B | apply (A x); reflexivity | exact B]. }
  destruct Sf as [[x [[-> | ->] H]] | ->].
  - destruct w as [ | y | l | | | ]; try discriminate; cbn [np_equal] in E.
    + apply Z.eqb_eq in E. subst. exact H.
    + rewrite all_eq in E. apply AV.
      * intros z -> y Hy. rewrite (H y Hy). symmetry. apply E. left. reflexivity.
      * intros j a c Ha Hc. apply nth_error_In in Ha, Hc. rewrite (E a Ha), (H c Hc). reflexivity.
  - destruct w as [ | y | l | | | ]; try discriminate; cbn [np_equal] in E.
    + cbn [forallb] in E. rewrite Bool.andb_true_r in E. apply Z.eqb_eq in E. subst. exact H.
    + rewrite all_eq in E. apply AV.
      * intros z -> y Hy. rewrite (H y Hy). symmetry. apply E. left. reflexivity.
      * intros j a c Ha Hc. apply nth_error_In in Ha, Hc. rewrite (E a Ha), (H c Hc). reflexivity.
  - destruct w as [ | y | l | | | ]; try (destruct b as [ | ? [ | ? ?]]; discriminate).
    + assert (E' : forallb (Z.eqb y) b = true) by (destruct b as [ | ? [ | ? ?]]; exact E). rewrite all_eq in E'. exact E'.
    + apply vec_vec_iff in E. apply AV.
      * intros z -> y Hy. destruct E as [-> | [[x [-> H]] | [x [E H]]]].
        -- destruct Hy as [<- | []]. reflexivity.
        -- destruct Hy as [<- | []]. symmetry. apply H. left. reflexivity.
        -- assert (x = z) by congruence. subst. apply H. exact Hy.
      * intros j p q Hp Hq. destruct E as [-> | [[x [-> H]] | [x [-> H]]]].
        -- congruence.
        -- destruct j; [cbn in Hq; injection Hq as <-; apply H; apply (nth_error_In _ _ Hp) | destruct j; discriminate].
        -- destruct j; [cbn in Hp; injection Hp as <-; symmetry; apply H; apply (nth_error_In _ _ Hq) | destruct j; discriminate].
Qed.
Lemma stand_equal : forall v w b, b <> [] -> stands_for v b -> stands_for w b -> np_equal v w = true.
Proof.
  intros v w b B Sv Sw. destruct b as [ | b0 b]; [congruence | ].
  assert (Hx : forall x, (forall y, In y (b0 :: b) -> y = x) -> x = b0) by (intros x H; symmetry; apply H; left; reflexivity).
  destruct Sv as [[x [Ex Hv]] | ->]; destruct Sw as [[z [Ez Hw]] | ->].
  - pose proof (Hx x Hv). pose proof (Hx z Hw). subst x z.
    destruct Ex as [-> | ->], Ez as [-> | ->]; cbn [np_equal forallb]; rewrite Z.eqb_refl; reflexivity.
  - assert (A : forallb (Z.eqb x) (b0 :: b) = true) by (apply all_eq; exact Hv).
    destruct Ex as [-> | ->]; exact A.
  - assert (A : forallb (Z.eqb z) (b0 :: b) = true) by (apply all_eq; exact Hw).
    destruct Ez as [-> | ->]; [destruct b; exact A | ]. apply (proj2 (vec_vec_iff (b0 :: b) [z])). right. right. exists z. split; [reflexivity | exact Hw].
  - apply (proj2 (vec_vec_iff (b0 :: b) (b0 :: b))). left. reflexivity.
Qed.

(* check_species_metadata *)
Definition sources_of (name : str) (attrs : list (str * aval)) (names : list str) (v : aval) : Prop :=
  exists k, (k = name \/ exists s, In s names /\ k = s ++ dot :: name) /\ dget attrs k = Some v.
Lemma vals_in : forall name attrs names v,
  let opt k := match dget attrs k with Some v => [v] | None => [] end in
  In v (opt name ++ flat_map (fun s => opt (s ++ dot :: name)) names) <-> sources_of name attrs names v.
Proof.
  intros name attrs names v opt. unfold sources_of. rewrite in_app_iff, in_flat_map.
  assert (O : forall k, In v (opt k) <-> dget attrs k = Some v).
  { intros k. unfold opt. destruct (dget attrs k); cbn [In]; split; intros H; try tauto; try discriminate.
    - destruct H as [-> | []]. reflexivity.
    - left. congruence. }
  split.
  - intros [H | [s [A B]]].
    + exists name. split; [left; reflexivity | apply O; exact H].
    + exists (s ++ dot :: name). split; [right; exists s; split; [exact A | reflexivity] | apply O; exact B].
  - intros [k [[-> | [s [A ->]]] B]]; apply O in B; [left; exact B | right; exists s; split; assumption].
Qed.
Lemma check_ok : forall name attrs names v, check_species_metadata np_equal name attrs names = Ok v ->
  sources_of name attrs names v /\ forall w, sources_of name attrs names w -> np_equal v w = true.
Proof.
  intros name attrs names v H. unfold check_species_metadata in H. pose proof (vals_in name attrs names) as VI. cbv zeta in VI.
  destruct (_ ++ _) as [ | v0 l]; [discriminate | ].
  destruct (forallb (np_equal v0) (v0 :: l)) eqn:F; [ | discriminate]. injection H as ->.
  rewrite forallb_forall in F. split; [apply VI; left; reflexivity | intros w Hw; apply F; apply VI; exact Hw].
Qed.
Lemma check_total : forall name attrs names v, sources_of name attrs names v ->
  (forall w w', sources_of name attrs names w -> sources_of name attrs names w' -> np_equal w w' = true) ->
  exists v', check_species_metadata np_equal name attrs names = Ok v' /\ sources_of name attrs names v'.
Proof.
  intros name attrs names v H A. unfold check_species_metadata. pose proof (vals_in name attrs names) as VI. cbv zeta in VI.
  destruct (_ ++ _) as [ | v0 l]; [exfalso; apply (proj2 (VI v)); exact H | ].
  assert (S0 : sources_of name attrs names v0) by (apply VI; left; reflexivity).
  assert (F : forallb (np_equal v0) (v0 :: l) = true).
  { apply forallb_forall. intros w Hw. apply A; [exact S0 | apply VI; exact Hw]. }
  rewrite F. exists v0. split; [reflexivity | exact S0].
Qed.

Lemma sources_say : forall names cats kw c k w, species_init names cats kw = Ok c -> fair names cats kw ->
  undotted k -> k <> s_ "species" -> (sources_of k (c_attrs c) (c_names c) w <-> says_size names cats kw k w).
Proof.
  intros names cats kw c k w H F U Ks. pose proof (init_inv _ _ _ _ H) as [Nd [L [En [Ec _]]]]. rewrite En.
  unfold sources_of, says_size. split.
  - intros [q [[-> | [s [Is ->]]] D]].
    + left. rewrite (attrs_own _ _ _ _ _ H F U Ks) in D. exact D.
    + right. destruct (In_nth _ _ [] Is) as [j [Hj Ej]].
      assert (Hj' : j < length cats) by (rewrite <- L; exact Hj). destruct (nth_error cats j) as [i | ] eqn:Ei; [ | apply nth_error_None in Ei; exfalso; apply (Nat.lt_irrefl j); apply (Nat.lt_le_trans _ _ _ Hj' Ei)].
      assert (I : In (s, i) (combine names cats)).
      { apply (nth_error_In _ j). clear - Ej Ei Hj. revert names cats Ej Ei Hj. induction j as [ | j IH]; intros [ | n l] [ | c l'] A B C; cbn in *; try lia; try discriminate.
        - congruence.
        - apply IH; [exact A | exact B | lia]. }
      exists s, i. split; [exact I | ]. rewrite (attrs_species _ _ _ _ s i k H F I) in D. exact D.
  - intros [D | [s [i [I D]]]].
    + exists k. split; [left; reflexivity | ]. rewrite (attrs_own _ _ _ _ _ H F U Ks). exact D.
    + exists (s ++ dot :: k). split; [right; exists s; split; [apply (in_combine_l _ _ _ _ I) | reflexivity] | ].
      rewrite (attrs_species _ _ _ _ s i k H F I). exact D.
Qed.

Lemma sizes_stand : forall nm box n b, sizes nm box n b -> n <> [] /\ b <> [] /\ stands_for nm n /\ stands_for box b.
Proof.
  intros nm box n b [E [N [L B]]]. split; [exact N | split; [ | split; [ | exact B]]].
  - intros ->. destruct n; [congruence | discriminate].
  - destruct nm; try contradiction; subst; [left; eexists; split; [left; reflexivity | ] | right; reflexivity].
    intros y [<- | [<- | [<- | []]]]; reflexivity.
Qed.
Lemma species_ok : forall names cats kw c a g, species_init names cats kw = Ok c -> fair names cats kw ->
  species_to_mesh c a = Ok g ->
  (forall i k, In i cats -> In k [a_weight a; a_selection a; a_value a; a_position a] -> In k (columns i)) /\
  exists nm box n b, sizes nm box n b /\
    mesh_attrs (c_attrs c) n b (a_interlaced a) (a_compensated a) (a_resampler a) (g_attrs g) /\
    (a_Nmesh a = Some nm \/ a_Nmesh a = None /\ says_size names cats kw (s_ "Nmesh") nm /\
       forall w, says_size names cats kw (s_ "Nmesh") w -> agrees w n) /\
    (a_BoxSize a = Some box \/ a_BoxSize a = None /\ says_size names cats kw (s_ "BoxSize") box /\
       forall w, says_size names cats kw (s_ "BoxSize") w -> agrees w b).
Proof.
  intros names cats kw c a g H F M. pose proof (init_inv _ _ _ _ H) as [Nd [L [En [Ec Ea]]]].
  unfold species_to_mesh in M. destruct (a_window a); [discriminate | ]. rewrite Ec in M.
  destruct (forallb _ cats) eqn:Co; [ | discriminate]. rewrite forallb_forall in Co. split.
  - intros i k Hi Hk. specialize (Co i Hi). rewrite forallb_forall in Co. apply mem_true. apply Co.
    cbn [In] in *. tauto.
  - assert (T : forall o k, undotted k -> k <> s_ "species" -> forall v, match o with Some b => Ok b | None => check_species_metadata np_equal k (c_attrs c) (c_names c) end = Ok v ->
      o = Some v \/ o = None /\ says_size names cats kw k v /\ forall w, says_size names cats kw k w -> np_equal v w = true).
    { intros o k U Ks v Hv. destruct o as [b | ]; [left; congruence | ]. right. split; [reflexivity | ].
      apply check_ok in Hv. destruct Hv as [A B]. split; [apply (sources_say _ _ _ _ _ _ H F U Ks); exact A | ].
      intros w Hw. apply B. apply (sources_say _ _ _ _ _ _ H F U Ks). exact Hw. }
    assert (U1 : undotted (s_ "BoxSize")) by (intros X; vm_compute in X; repeat (destruct X as [X | X]; [discriminate | ]); exact X).
    assert (U2 : undotted (s_ "Nmesh")) by (intros X; vm_compute in X; repeat (destruct X as [X | X]; [discriminate | ]); exact X).
    pose proof (T (a_BoxSize a) (s_ "BoxSize") U1 ltac:(discriminate)) as T1.
    pose proof (T (a_Nmesh a) (s_ "Nmesh") U2 ltac:(discriminate)) as T2. clear T.
    destruct (match a_BoxSize a with Some b => Ok b | None => _ end) as [box | ]; [ | discriminate]. cbn [rbind] in M.
    destruct (match a_Nmesh a with Some b => Ok b | None => _ end) as [nm | ]; [ | discriminate]. cbn [rbind] in M.
    specialize (T1 box eq_refl). specialize (T2 nm eq_refl).
    apply catalog_mesh_ok in M.
    + destruct M as [n [b [Sz [At _]]]]. exists nm, box, n, b. destruct (sizes_stand _ _ _ _ Sz) as [_ [_ [Sn Sb]]].
      split; [exact Sz | split; [exact At | split]].
      * destruct T2 as [T2 | [T2 [T3 T4]]]; [left; exact T2 | right; split; [exact T2 | split; [exact T3 | ]]].
        intros w Hw. apply (equal_agrees nm); [exact Sn | apply T4; exact Hw].
      * destruct T1 as [T1 | [T1 [T3 T4]]]; [left; exact T1 | right; split; [exact T1 | split; [exact T3 | ]]].
        intros w Hw. apply (equal_agrees box); [exact Sb | apply T4; exact Hw].
    + rewrite Ea. apply update_nodup. apply gather_nodup. cbn [map]. constructor; [intros [] | constructor].
Qed.
Lemma species_total : forall names cats kw c a n b, species_init names cats kw = Ok c -> fair names cats kw ->
  a_window a = None -> a_Nmesh a = None -> a_BoxSize a = None ->
  (forall i k, In i cats -> In k [a_weight a; a_selection a; a_value a; a_position a] -> In k (columns i)) ->
  (exists w, says_size names cats kw (s_ "Nmesh") w) -> (exists w, says_size names cats kw (s_ "BoxSize") w) ->
  (forall w, says_size names cats kw (s_ "Nmesh") w -> w = AVec n \/ exists x, w = ANum x /\ n = [x; x; x]) ->
  (forall w, says_size names cats kw (s_ "BoxSize") w -> stands_for w b) ->
  n <> [] -> length b = length n ->
  exists g, species_to_mesh c a = Ok g.
Proof.
  intros names cats kw c a n b H F W Hn Hb Co [w1 W1] [w2 W2] An Ab Nn L. pose proof (init_inv _ _ _ _ H) as [Nd [_ [En [Ec Ea]]]].
  assert (Bn : b <> []) by (intros ->; destruct n; [congruence | discriminate]).
  unfold species_to_mesh. rewrite W, Hn, Hb, Ec.
  assert (X : forallb (fun i => forallb (fun col => mem col (columns i)) [a_position a; a_selection a; a_weight a; a_value a]) cats = true).
  { apply forallb_forall. intros i Hi. apply forallb_forall. intros k Hk. apply mem_true. apply Co; [exact Hi | cbn [In] in *; tauto]. }
  rewrite X.
  assert (T : forall k m w, undotted k -> k <> s_ "species" -> m <> [] -> says_size names cats kw k w ->
    (forall w, says_size names cats kw k w -> stands_for w m) ->
    exists v, check_species_metadata np_equal k (c_attrs c) (c_names c) = Ok v /\ says_size names cats kw k v).
  { intros k m w U Ks M Hw A. destruct (check_total k (c_attrs c) (c_names c) w) as [v [E1 E2]].
    - apply (sources_say _ _ _ _ _ _ H F U Ks). exact Hw.
    - intros x y Hx Hy. apply (stand_equal x y m M); apply A; apply (sources_say _ _ _ _ _ _ H F U Ks); assumption.
    - exists v. split; [exact E1 | apply (sources_say _ _ _ _ _ _ H F U Ks); exact E2]. }
  assert (U1 : undotted (s_ "BoxSize")) by (intros Q; vm_compute in Q; repeat (destruct Q as [Q | Q]; [discriminate | ]); exact Q).
  assert (U2 : undotted (s_ "Nmesh")) by (intros Q; vm_compute in Q; repeat (destruct Q as [Q | Q]; [discriminate | ]); exact Q).
  assert (An' : forall w, says_size names cats kw (s_ "Nmesh") w -> stands_for w n).
  { intros w Hw. destruct (An w Hw) as [-> | [x [-> ->]]]; [right; reflexivity | ]. left. exists x. split; [left; reflexivity | ].
    intros y [<- | [<- | [<- | []]]]; reflexivity. }
  destruct (T _ b w2 U1 ltac:(discriminate) Bn W2 Ab) as [box [E1 S1]].
  destruct (T _ n w1 U2 ltac:(discriminate) Nn W1 An') as [nm [E2 S2]].
  rewrite E1. cbn [rbind]. rewrite E2. cbn [rbind]. apply (catalog_mesh_total V _ _ _ _ _ _ _ _ _ _ n b).
  split; [ | split; [exact Nn | split; [exact L | apply Ab; exact S1]]].
  destruct (An nm S2) as [-> | [x [-> ->]]]; reflexivity.
Qed.
End Sp.
