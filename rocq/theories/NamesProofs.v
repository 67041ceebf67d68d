From Coq Require Import Ascii Sorting.Sorted Sorting.Permutation.
From Verif Require Import Base NamesModel NamesSpec.
Local Open Scope nat_scope.

(* ---- strings ---- *)
Lemma str_eqb_true : forall a b, str_eqb a b = true <-> a = b.
Proof. intros a b. unfold str_eqb. destruct (str_eq_dec a b); split; congruence. Qed.
Lemma mem_true : forall a l, mem a l = true <-> In a l.
Proof.
  intros a l. unfold mem. rewrite existsb_exists. split.
  - intros [x [H1 H2]]. apply str_eqb_true in H2. subst. exact H1.
  - intros H. exists a. split; [exact H|]. apply str_eqb_true. reflexivity.
Qed.
Lemma starts_true : forall p s, starts p s = true <-> exists r, s = p ++ r.
Proof.
  induction p as [|a p IH]; intros s.
  - split; [intros _; exists s; reflexivity|reflexivity].
  - destruct s as [|b s]; cbn [starts].
    + split; [discriminate|]. intros [r H]. discriminate.
    + destruct (ascii_dec a b) as [E|E].
      * subst. rewrite IH. split; intros [r H]; exists r; [cbn; congruence|cbn in H; congruence].
      * split; [discriminate|]. intros [r H]. cbn in H. congruence.
Qed.

Lemma split_slash_noslash : forall s, noslash s -> split_slash s = [s].
Proof.
  induction s as [|c s IH]; intros H; [reflexivity|]. cbn [split_slash].
  destruct (ascii_dec c slash) as [E|E]; [exfalso; apply H; left; congruence|].
  rewrite IH; [reflexivity|]. intro H1. apply H. right. exact H1.
Qed.
Lemma split_slash_app : forall s t, noslash s -> split_slash (s ++ slash :: t) = s :: split_slash t.
Proof.
  induction s as [|c s IH]; intros t H.
  - cbn [app split_slash]. destruct (ascii_dec slash slash); [reflexivity|congruence].
  - cbn [app split_slash].
    destruct (ascii_dec c slash) as [E|E]; [exfalso; apply H; left; congruence|].
    rewrite IH; [reflexivity|]. intro H1. apply H. right. exact H1.
Qed.
Lemma split_slash_ne : forall s, split_slash s <> [].
Proof. intros [|c s]; cbn [split_slash]; [discriminate|]. destruct (ascii_dec c slash); [discriminate|]. destruct (split_slash s); discriminate. Qed.
Lemma split_slash_one : forall s w, split_slash s = [w] -> s = w /\ noslash w.
Proof.
  induction s as [|c s IH]; intros w; cbn [split_slash].
  - intros H. inversion H. split; [reflexivity|intros []].
  - destruct (ascii_dec c slash) as [E|E].
    + intros H. inversion H. exfalso. eapply split_slash_ne. eassumption.
    + destruct (split_slash s) as [|w' [|x ws]] eqn:Es.
      * exfalso. eapply split_slash_ne. exact Es.
      * intros H. inversion H. destruct (IH w' eq_refl) as [-> Hn]. split; [reflexivity|].
        intros [Hi|Hi]; [congruence|exact (Hn Hi)].
      * discriminate.
Qed.
Lemma split_slash_two : forall s a b, split_slash s = [a; b] -> s = qualified a b /\ noslash a /\ noslash b.
Proof.
  induction s as [|c s IH]; intros a b; cbn [split_slash]; [discriminate|].
  destruct (ascii_dec c slash) as [E|E].
  - intros H. inversion H. destruct (split_slash_one _ _ H2) as [-> Hn]. subst. split; [reflexivity|]. split; [intros []|exact Hn].
  - destruct (split_slash s) as [|w' [|x [|y ws]]] eqn:Es; try discriminate.
    intros H. inversion H. subst. destruct (IH w' b eq_refl) as [-> [Ha Hb]]. split; [reflexivity|]. split; [|exact Hb].
    intros [Hi|Hi]; [congruence|exact (Ha Hi)].
Qed.
Lemma split_qualified : forall s c, noslash s -> noslash c -> split_slash (qualified s c) = [s; c].
Proof. intros s c Hs Hc. unfold qualified. rewrite split_slash_app by exact Hs. rewrite split_slash_noslash by exact Hc. reflexivity. Qed.

(* ---- dictionaries ---- *)
Section Dict.
Context {V : Type}.
Lemma dget_set_same : forall (d : list (str * V)) k v, dget (dset d k v) k = Some v.
Proof.
  induction d as [|[x w] d IH]; intros k v; cbn [dset dget].
  - destruct (str_eq_dec k k); congruence.
  - destruct (str_eq_dec x k) as [E|E]; cbn [dget]; destruct (str_eq_dec x k); try congruence; apply IH.
Qed.
Lemma dget_set_other : forall (d : list (str * V)) k v j, j <> k -> dget (dset d k v) j = dget d j.
Proof.
  induction d as [|[x w] d IH]; intros k v j H; cbn [dset dget].
  - destruct (str_eq_dec k j); congruence.
  - destruct (str_eq_dec x k) as [E|E]; cbn [dget]; destruct (str_eq_dec x j); try congruence; apply IH. exact H.
Qed.
Lemma dget_del_same : forall (d : list (str * V)) k, dget (ddel d k) k = None.
Proof.
  induction d as [|[x w] d IH]; intros k; cbn [ddel dget]; [reflexivity|].
  destruct (str_eq_dec x k) as [E|E]; [apply IH|]. cbn [dget]. destruct (str_eq_dec x k); [congruence|apply IH].
Qed.
Lemma dget_del_other : forall (d : list (str * V)) k j, j <> k -> dget (ddel d k) j = dget d j.
Proof.
  induction d as [|[x w] d IH]; intros k j H; cbn [ddel dget]; [reflexivity|].
  destruct (str_eq_dec x k) as [E|E].
  - destruct (str_eq_dec x j); [congruence|]. apply IH. exact H.
  - cbn [dget]. destruct (str_eq_dec x j); [reflexivity|]. apply IH. exact H.
Qed.
Lemma dget_in : forall (d : list (str * V)) k, In k (map fst d) <-> dget d k <> None.
Proof.
  induction d as [|[x w] d IH]; intros k; cbn [map fst dget In].
  - split; [intros []|congruence].
  - destruct (str_eq_dec x k) as [E|E]; [split; [discriminate|auto]|]. rewrite <- IH. tauto.
Qed.
End Dict.

(* ---- species ---- *)
Section Species.
Context {A : Type}.
Implicit Types m : multi A.

Definition wf m := NoDup (m_species m) /\ forall s, In s (m_species m) -> dget (m_sources m) s <> None.

Lemma split_column_qualified : forall s c sp, noslash s -> noslash c -> In s sp -> split_column (qualified s c) sp = Ok (s, c).
Proof.
  intros s c sp Hs Hc Hi. unfold split_column. rewrite split_qualified by assumption.
  rewrite (proj2 (mem_true s sp) Hi). reflexivity.
Qed.
Lemma split_column_ok : forall k sp s c, split_column k sp = Ok (s, c) -> k = qualified s c /\ noslash s /\ noslash c /\ In s sp.
Proof.
  intros k sp s c. unfold split_column. destruct (split_slash k) as [|a [|b [|x l]]] eqn:E; try discriminate.
  destruct (mem a sp) eqn:Em; [|discriminate]. intros H. inversion H. subst.
  destruct (split_slash_two _ _ _ E) as [H1 [H2 H3]]. split; [exact H1|]. split; [exact H2|]. split; [exact H3|]. apply mem_true. exact Em.
Qed.
Lemma split_column_ok_iff : forall k sp s c, split_column k sp = Ok (s, c) <-> k = qualified s c /\ noslash s /\ noslash c /\ In s sp.
Proof.
  intros. split; [apply split_column_ok|]. intros [-> [H1 [H2 H3]]]. apply split_column_qualified; assumption.
Qed.
Lemma qualified_inj : forall s c s' c', noslash s -> noslash s' -> qualified s c = qualified s' c' -> s = s' /\ c = c'.
Proof.
  intros s. induction s as [|a s IH]; intros c s' c' H H' E; destruct s' as [|b s']; unfold qualified in E; cbn [app] in E.
  - split; [reflexivity|congruence].
  - exfalso. inversion E. apply H'. left. congruence.
  - exfalso. inversion E. apply H. left. congruence.
  - inversion E. destruct (IH c s' c') as [-> ->].
    + intro Hi. apply H. right. exact Hi.
    + intro Hi. apply H'. right. exact Hi.
    + assumption.
    + split; reflexivity.
Qed.

(* multi_init *)
Lemma init_ok_iff : forall names (cats : list (cat A)),
  is_ok (multi_init names cats) = true <-> NoDup names /\ length names = length cats.
Proof.
  intros names cats. unfold multi_init.
  assert (Hn : length (nodup str_eq_dec names) = length names <-> NoDup names).
  { split; intros H.
    - clear cats. induction names as [|x l IH]; [constructor|]. cbn [nodup] in H.
      pose proof (NoDup_incl_length (NoDup_nodup str_eq_dec l) (fun a Ha => proj1 (nodup_In str_eq_dec l a) Ha)) as Hle.
      destruct (in_dec str_eq_dec x l) as [Hi|Hi]; cbn [length] in H; [exfalso; lia|].
      constructor; [exact Hi|]. apply IH. lia.
    - rewrite nodup_fixed_point by exact H. reflexivity. }
  destruct (length (nodup str_eq_dec names) =? length names) eqn:E1; cbn [negb].
  - apply Nat.eqb_eq in E1. destruct (length names =? length cats) eqn:E2; cbn [negb is_ok].
    + apply Nat.eqb_eq in E2. tauto.
    + apply Nat.eqb_neq in E2. split; [discriminate|tauto].
  - apply Nat.eqb_neq in E1. cbn [is_ok]. split; [discriminate|tauto].
Qed.
Lemma combine_get : forall (names : list str) (cats : list (cat A)) s,
  length names = length cats -> In s names -> dget (combine names cats) s <> None.
Proof.
  induction names as [|x l IH]; intros cats s Hl Hi; [destruct Hi|].
  destruct cats as [|c cats]; [discriminate|]. cbn [combine dget].
  destruct (str_eq_dec x s) as [E|E]; [discriminate|]. apply IH; [cbn in Hl; lia|]. destruct Hi; [congruence|assumption].
Qed.
Lemma init_wf : forall names cats m, multi_init names cats = Ok m -> wf m /\ m_species m = names.
Proof.
  intros names cats m H. pose proof (proj1 (init_ok_iff names cats)) as Hi. rewrite H in Hi. destruct (Hi eq_refl) as [Hn Hl].
  unfold multi_init in H. destruct (negb _); [discriminate|]. destruct (negb _); [discriminate|]. inversion H. subst. split; [|reflexivity].
  split; cbn; [exact Hn|]. intros s Hs. apply combine_get; assumption.
Qed.

Lemma source_ok : forall m s, wf m -> In s (m_species m) -> exists c, source m s = Ok c /\ dget (m_sources m) s = Some c.
Proof.
  intros m s [_ H] Hi. unfold source. destruct (dget (m_sources m) s) as [c|] eqn:E; [exists c; split; reflexivity|].
  exfalso. exact (H s Hi E).
Qed.

(* set *)
Lemma set_inv : forall m k v m', multi_set m k v = Ok m' ->
  exists s c ct, split_column k (m_species m) = Ok (s, c) /\ dget (m_sources m) s = Some ct /\
    (forall l, v = Array l -> length l = c_size ct) /\
    m' = {| m_species := m_species m; m_sources := dset (m_sources m) s (cat_set ct c v) |}.
Proof.
  intros m k v m'. unfold multi_set. destruct (split_column k (m_species m)) as [[s c]|e] eqn:E; [|discriminate].
  cbn [rbind fst snd]. unfold source. destruct (dget (m_sources m) s) as [ct|] eqn:Eg; [|discriminate]. cbn [rbind].
  destruct v as [a|l].
  - intros H. inversion H. exists s, c, ct. split; [reflexivity|]. split; [exact Eg|]. split; [discriminate|reflexivity].
  - destruct (length l =? c_size ct) eqn:El; cbn [negb]; [|discriminate].
    apply Nat.eqb_eq in El. intros H. inversion H. exists s, c, ct.
    split; [reflexivity|]. split; [exact Eg|]. split; [|reflexivity]. intros l' Hl. inversion Hl. subst. exact El.
Qed.
Lemma del_inv : forall m k m', multi_del m k = Ok m' ->
  exists s c ct, split_column k (m_species m) = Ok (s, c) /\ dget (m_sources m) s = Some ct /\
    dget (c_hard ct) c = None /\
    m' = {| m_species := m_species m; m_sources := dset (m_sources m) s
             {| c_size := c_size ct; c_hard := c_hard ct; c_over := ddel (c_over ct) c |} |}.
Proof.
  intros m k m'. unfold multi_del. destruct (split_column k (m_species m)) as [[s c]|e] eqn:E; [|discriminate].
  cbn [rbind fst snd]. unfold source. destruct (dget (m_sources m) s) as [ct|] eqn:Eg; [|discriminate]. cbn [rbind].
  unfold cat_del. destruct (negb (mem c (cat_columns ct))); [discriminate|].
  destruct (mem c (map fst (c_hard ct))) eqn:Eh; [discriminate|].
  destruct (dget (c_over ct) c) eqn:Eo; [|discriminate]. cbn [rbind]. intros H. inversion H. exists s, c, ct.
  split; [reflexivity|]. split; [exact Eg|]. split; [|reflexivity].
  destruct (dget (c_hard ct) c) eqn:E2; [|reflexivity]. exfalso.
  assert (In c (map fst (c_hard ct))) by (apply dget_in; congruence).
  apply (proj2 (mem_true _ _)) in H0. congruence.
Qed.
Lemma wf_dset : forall m s ct, wf m -> In s (m_species m) ->
  wf {| m_species := m_species m; m_sources := dset (m_sources m) s ct |}.
Proof.
  intros m s ct [H1 H2] Hs. split; [exact H1|]. cbn. intros s' Hs'.
  destruct (str_eq_dec s' s) as [->|Hne]; [rewrite dget_set_same; discriminate|]. rewrite dget_set_other by exact Hne. apply H2. exact Hs'.
Qed.
Lemma step_wf : forall m o, wf m -> wf (mstep m o) /\ m_species (mstep m o) = m_species m.
Proof.
  intros m o Hw. unfold mstep. destruct o as [k v|k].
  - destruct (multi_set m k v) as [m'|e] eqn:E; [|split; [exact Hw|reflexivity]].
    destruct (set_inv _ _ _ _ E) as [s [c [ct [H1 [H2 [H3 ->]]]]]]. split; [|reflexivity].
    apply wf_dset; [exact Hw|]. apply split_column_ok in H1. apply H1.
  - destruct (multi_del m k) as [m'|e] eqn:E; [|split; [exact Hw|reflexivity]].
    destruct (del_inv _ _ _ E) as [s [c [ct [H1 [H2 [H3 ->]]]]]]. split; [|reflexivity].
    apply wf_dset; [exact Hw|]. apply split_column_ok in H1. apply H1.
Qed.
Lemma exec_wf : forall ops m, wf m -> wf (mexec m ops) /\ m_species (mexec m ops) = m_species m.
Proof.
  induction ops as [|o ops IH]; intros m Hw; [split; [exact Hw|reflexivity]|].
  unfold mexec. cbn [fold_left]. fold (mexec (mstep m o) ops). destruct (step_wf m o Hw) as [H1 H2].
  destruct (IH _ H1) as [H3 H4]. split; [exact H3|congruence].
Qed.
Lemma reachable_wf : forall m, reachable m -> wf m.
Proof.
  intros m [names [cats [m0 [ops [H ->]]]]]. apply exec_wf. apply (init_wf _ _ _ H).
Qed.

(* what a key reads when the sources are replaced at one species *)
Lemma get_at : forall m k s c ct, split_column k (m_species m) = Ok (s, c) -> dget (m_sources m) s = Some ct ->
  mem k (m_species m) = false ->
  multi_get m k = let! l := cat_get ct c in Ok (IColumn l).
Proof.
  intros m k s c ct H1 H2 H3. unfold multi_get. rewrite H3, H1. cbn [rbind fst snd]. unfold source. rewrite H2. reflexivity.
Qed.

Lemma set_get_same : forall m k v m', multi_set m k v = Ok m' -> ~ In k (m_species m) ->
  exists s ct, source m s = Ok ct /\ (exists c, k = qualified s c) /\ multi_get m' k = Ok (IColumn (stored (c_size ct) v)).
Proof.
  intros m k v m' H Hk. destruct (set_inv _ _ _ _ H) as [s [c [ct [H1 [H2 [H3 ->]]]]]].
  exists s, ct. split; [unfold source; rewrite H2; reflexivity|].
  split; [exists c; apply (split_column_ok _ _ _ _ H1)|].
  rewrite (get_at _ k s c (cat_set ct c v)); cbn [m_species m_sources].
  - unfold cat_get, cat_set. cbn [c_over c_size]. rewrite dget_set_same. destruct v; reflexivity.
  - exact H1.
  - apply dget_set_same.
  - destruct (mem k (m_species m)) eqn:E; [|reflexivity]. apply mem_true in E. contradiction.
Qed.
Lemma replace_get_other : forall m k s c ct ct', wf m -> split_column k (m_species m) = Ok (s, c) ->
  dget (m_sources m) s = Some ct ->
  (forall j, j <> c -> cat_get ct' j = cat_get ct j) ->
  forall j, j <> k -> ~ In j (m_species m) ->
  multi_get {| m_species := m_species m; m_sources := dset (m_sources m) s ct' |} j = multi_get m j.
Proof.
  intros m k s c ct ct' Hw H1 H2 Hc j Hj Hjs. unfold multi_get. cbn [m_species m_sources].
  destruct (mem j (m_species m)) eqn:E; [apply mem_true in E; contradiction|].
  destruct (split_column j (m_species m)) as [[s' c']|e] eqn:Es; [|reflexivity]. cbn [rbind fst snd].
  unfold source. cbn [m_sources]. destruct (str_eq_dec s' s) as [->|Hne].
  - rewrite dget_set_same, H2. cbn [rbind]. rewrite Hc; [reflexivity|]. intros ->. apply Hj.
    apply split_column_ok in H1. apply split_column_ok in Es. destruct H1 as [-> _], Es as [-> _]. reflexivity.
  - rewrite dget_set_other by exact Hne. reflexivity.
Qed.
Lemma replace_get_species : forall m s ct' j, j <> s -> In j (m_species m) ->
  multi_get {| m_species := m_species m; m_sources := dset (m_sources m) s ct' |} j = multi_get m j.
Proof.
  intros m s ct' j Hj Hjs. unfold multi_get. cbn [m_species m_sources].
  rewrite (proj2 (mem_true _ _) Hjs). unfold source. cbn [m_sources]. rewrite dget_set_other by exact Hj. reflexivity.
Qed.
Lemma cat_set_other : forall (ct : cat A) c v j, j <> c -> cat_get (cat_set ct c v) j = cat_get ct j.
Proof. intros ct c v j H. unfold cat_get, cat_set. cbn [c_over c_hard]. rewrite dget_set_other by exact H. reflexivity. Qed.
Lemma cat_del_other : forall (ct : cat A) c j, j <> c ->
  cat_get {| c_size := c_size ct; c_hard := c_hard ct; c_over := ddel (c_over ct) c |} j = cat_get ct j.
Proof. intros ct c j H. unfold cat_get. cbn [c_over c_hard]. rewrite dget_del_other by exact H. reflexivity. Qed.

Lemma step_frame : forall m o j, wf m -> op_names o <> j -> ~ In j (m_species m) -> multi_get (mstep m o) j = multi_get m j.
Proof.
  intros m o j Hw Hj Hjs. unfold mstep. destruct o as [k v|k]; cbn [op_names] in Hj.
  - destruct (multi_set m k v) as [m'|e] eqn:E; [|reflexivity].
    destruct (set_inv _ _ _ _ E) as [s [c [ct [H1 [H2 [H3 ->]]]]]].
    apply (replace_get_other m k s c ct); try assumption; [|congruence]. intros i Hi. apply cat_set_other. exact Hi.
  - destruct (multi_del m k) as [m'|e] eqn:E; [|reflexivity].
    destruct (del_inv _ _ _ E) as [s [c [ct [H1 [H2 [H3 ->]]]]]].
    apply (replace_get_other m k s c ct); try assumption; [|congruence]. intros i Hi. apply cat_del_other. exact Hi.
Qed.
(* the catalog of another species is untouched *)
Lemma step_frame_species : forall m o s, wf m -> In s (m_species m) -> (forall c, op_names o <> qualified s c) ->
  multi_get (mstep m o) s = multi_get m s.
Proof.
  intros m o j Hw Hjs Hj. unfold mstep. destruct o as [k v|k]; cbn [op_names] in Hj.
  - destruct (multi_set m k v) as [m'|e] eqn:E; [|reflexivity].
    destruct (set_inv _ _ _ _ E) as [s [c [ct [H1 [H2 [H3 ->]]]]]].
    apply replace_get_species; [|exact Hjs]. intros ->. apply split_column_ok in H1. destruct H1 as [-> _]. exact (Hj c eq_refl).
  - destruct (multi_del m k) as [m'|e] eqn:E; [|reflexivity].
    destruct (del_inv _ _ _ E) as [s [c [ct [H1 [H2 [H3 ->]]]]]].
    apply replace_get_species; [|exact Hjs]. intros ->. apply split_column_ok in H1. destruct H1 as [-> _]. exact (Hj c eq_refl).
Qed.
Lemma exec_frame : forall ops m j, wf m -> (forall o, In o ops -> op_names o <> j) -> ~ In j (m_species m) ->
  multi_get (mexec m ops) j = multi_get m j.
Proof.
  induction ops as [|o ops IH]; intros m j Hw H Hj; [reflexivity|].
  unfold mexec. cbn [fold_left]. fold (mexec (mstep m o) ops).
  destruct (step_wf m o Hw) as [Hw' Hs]. rewrite IH; [apply step_frame; [exact Hw|apply H; left; reflexivity|exact Hj]|exact Hw'| |].
  - intros o' Ho. apply H. right. exact Ho.
  - rewrite Hs. exact Hj.
Qed.
Lemma exec_app : forall ops ops' m, mexec m (ops ++ ops') = mexec (mexec m ops) ops'.
Proof. intros. unfold mexec. apply fold_left_app. Qed.

Lemma del_get : forall m k m', multi_del m k = Ok m' -> ~ In k (m_species m) -> multi_get m' k = Err ValueError.
Proof.
  intros m k m' H Hk. destruct (del_inv _ _ _ H) as [s [c [ct [H1 [H2 [H3 ->]]]]]].
  rewrite (get_at _ k s c {| c_size := c_size ct; c_hard := c_hard ct; c_over := ddel (c_over ct) c |}); cbn [m_species m_sources].
  - unfold cat_get. cbn [c_over c_hard]. rewrite dget_del_same, H3. reflexivity.
  - exact H1.
  - apply dget_set_same.
  - destruct (mem k (m_species m)) eqn:E; [|reflexivity]. apply mem_true in E. contradiction.
Qed.

(* reading and listing *)
Lemma get_column : forall m s c, wf m -> In s (m_species m) -> noslash s -> noslash c -> ~ In (qualified s c) (m_species m) ->
  exists ct, multi_get m s = Ok (ISpecies ct) /\ multi_get m (qualified s c) = let! l := cat_get ct c in Ok (IColumn l).
Proof.
  intros m s c Hw Hs Hns Hnc Hk. destruct (source_ok m s Hw Hs) as [ct [H1 H2]]. exists ct. split.
  - unfold multi_get. rewrite (proj2 (mem_true _ _) Hs), H1. reflexivity.
  - apply (get_at m _ s c ct); [apply split_column_qualified; assumption|exact H2|].
    destruct (mem (qualified s c) (m_species m)) eqn:E; [|reflexivity]. apply mem_true in E. contradiction.
Qed.
Lemma cat_columns_get : forall (ct : cat A) c, In c (cat_columns ct) <-> is_ok (cat_get ct c) = true.
Proof.
  intros ct c. unfold cat_columns. rewrite nodup_In, in_app_iff, !dget_in. unfold cat_get.
  destruct (dget (c_over ct) c); destruct (dget (c_hard ct) c); cbn [is_ok]; split; intros; try reflexivity; try discriminate.
  - right. discriminate.
  - right. discriminate.
  - left. discriminate.
  - destruct H; congruence.
Qed.
Lemma columns_in : forall m k, In k (multi_columns m) <->
  exists s c ct, In s (m_species m) /\ dget (m_sources m) s = Some ct /\ In c (cat_columns ct) /\ k = qualified s c.
Proof.
  intros m k. unfold multi_columns. rewrite in_flat_map. split.
  - intros [s [Hs H]]. destruct (dget (m_sources m) s) as [ct|] eqn:E; [|destruct H].
    apply in_map_iff in H. destruct H as [c [Hc Hi]]. exists s, c, ct. auto.
  - intros [s [c [ct [Hs [He [Hi ->]]]]]]. exists s. split; [exact Hs|]. rewrite He. apply in_map_iff. exists c. split; [reflexivity|exact Hi].
Qed.
Lemma noslash_qualified : forall s c, ~ noslash (qualified s c).
Proof. intros s c H. apply H. unfold qualified. apply in_or_app. right. left. reflexivity. Qed.
(* with plain species names, a name is listed if and only if it can be read,
   apart from columns whose own name has a slash *)
Lemma columns_readable : forall m k, wf m -> (forall s, In s (m_species m) -> noslash s) ->
  (forall s c ct, In s (m_species m) -> multi_get m s = Ok (ISpecies ct) -> In c (cat_columns ct) -> noslash c) ->
  In k (multi_columns m) <-> exists l, multi_get m k = Ok (IColumn l).
Proof.
  intros m k Hw Hp Hc. rewrite columns_in. split.
  - intros [s [c [ct [Hs [He [Hi ->]]]]]].
    destruct (get_column m s c Hw Hs (Hp s Hs)) as [ct' [H1 H2]].
    + apply (Hc s c ct Hs); [|exact Hi]. unfold multi_get. rewrite (proj2 (mem_true _ _) Hs). unfold source. rewrite He. reflexivity.
    + intro Hq. apply (noslash_qualified s c). apply Hp. exact Hq.
    + assert (ct' = ct). { unfold multi_get in H1. rewrite (proj2 (mem_true _ _) Hs) in H1. unfold source in H1. rewrite He in H1. inversion H1. reflexivity. }
      subst. apply cat_columns_get in Hi. destruct (cat_get ct c) as [l|]; [|discriminate]. exists l. rewrite H2. reflexivity.
  - intros [l H]. unfold multi_get in H. destruct (mem k (m_species m)) eqn:Ek.
    + destruct (source m k); discriminate.
    + destruct (split_column k (m_species m)) as [[s c]|] eqn:Es; [|discriminate]. cbn [rbind fst snd] in H.
      destruct (split_column_ok _ _ _ _ Es) as [-> [H1 [H2 H3]]].
      destruct (source_ok m s Hw H3) as [ct [He1 He2]]. rewrite He1 in H. cbn [rbind] in H.
      exists s, c, ct. split; [exact H3|]. split; [exact He2|]. split; [|reflexivity].
      apply cat_columns_get. destruct (cat_get ct c); [reflexivity|discriminate].
Qed.
Lemma NoDup_app_intro : forall (X : Type) (l l' : list X), NoDup l -> NoDup l' -> (forall x, In x l -> ~ In x l') -> NoDup (l ++ l').
Proof.
  induction l as [|a l IH]; intros l' H1 H2 H3; [exact H2|]. cbn. inversion H1. subst. constructor.
  - rewrite in_app_iff. intros [H|H]; [contradiction|]. exact (H3 a (or_introl eq_refl) H).
  - apply IH; [assumption|assumption|]. intros x Hx. apply H3. right. exact Hx.
Qed.
Lemma columns_nodup : forall m, wf m -> (forall s, In s (m_species m) -> noslash s) -> NoDup (multi_columns m).
Proof.
  intros m [Hn _] Hp. unfold multi_columns. induction (m_species m) as [|s l IH]; [constructor|].
  cbn [flat_map]. inversion Hn. subst. apply NoDup_app_intro.
  - destruct (dget (m_sources m) s) as [ct|]; [|constructor]. apply FinFun.Injective_map_NoDup.
    + intros a b E. apply app_inv_head in E. congruence.
    + apply NoDup_nodup.
  - apply IH; [assumption|]. intros s' Hs'. apply Hp. right. exact Hs'.
  - intros k Hk Hk'. destruct (dget (m_sources m) s) as [ct|]; [|destruct Hk].
    apply in_map_iff in Hk. destruct Hk as [c [<- _]]. apply in_flat_map in Hk'. destruct Hk' as [s' [Hs' Hk']].
    destruct (dget (m_sources m) s') as [ct'|]; [|destruct Hk']. apply in_map_iff in Hk'. destruct Hk' as [c' [Hk' _]].
    destruct (qualified_inj s' c' s c) as [E _].
    + apply Hp. right. exact Hs'.
    + apply Hp. left. reflexivity.
    + exact Hk'.
    + subst. contradiction.
Qed.
Lemma last_write : forall m m1 k v ops, wf m -> ~ In k (m_species m) ->
  multi_set m k v = Ok m1 -> (forall o, In o ops -> op_names o <> k) ->
  exists s c ct, k = qualified s c /\ multi_get m s = Ok (ISpecies ct) /\
    multi_get (mexec m1 ops) k = Ok (IColumn (stored (c_size ct) v)).
Proof.
  intros m m1 k v ops Hw Hk Hs Ho. destruct (set_inv m k v m1 Hs) as [s [c [ct [H1 [H2 [H3 H4]]]]]].
  pose proof (step_wf m (MSet k v) Hw) as Hstep. unfold mstep in Hstep. rewrite Hs in Hstep. destruct Hstep as [Hw1 Hsp].
  destruct (split_column_ok _ _ _ _ H1) as [Hc [Hn [Hn' Hi]]].
  exists s, c, ct. split; [exact Hc|]. split.
  - unfold multi_get. rewrite (proj2 (mem_true _ _) Hi). unfold source. rewrite H2. reflexivity.
  - rewrite exec_frame; [|exact Hw1|exact Ho|rewrite Hsp; exact Hk]. subst m1.
    rewrite (get_at _ k s c (cat_set ct c v)); cbn [m_species m_sources].
    + unfold cat_get, cat_set. cbn [c_over c_size]. rewrite dget_set_same. destruct v; reflexivity.
    + exact H1.
    + apply dget_set_same.
    + destruct (mem k (m_species m)) eqn:E; [|reflexivity]. apply mem_true in E. contradiction.
Qed.
(* accepted assignments *)
Lemma set_ok_iff : forall m s c v, wf m -> In s (m_species m) -> noslash s -> noslash c ->
  (is_ok (multi_set m (qualified s c) v) = true <->
   exists ct, multi_get m s = Ok (ISpecies ct) /\ match v with Scalar _ => True | Array l => length l = c_size ct end).
Proof.
  intros m s c v Hw Hs Hns Hnc. destruct (source_ok m s Hw Hs) as [ct [H1 H2]].
  unfold multi_set, multi_get. rewrite (split_column_qualified s c _ Hns Hnc Hs), (proj2 (mem_true _ _) Hs). cbn [rbind fst snd]. rewrite H1. cbn [rbind].
  split.
  - intros H. exists ct. split; [reflexivity|]. destruct v as [a|l]; [exact I|].
    destruct (length l =? c_size ct) eqn:E; [apply Nat.eqb_eq; exact E|discriminate].
  - intros [ct' [E H]]. inversion E. subst. destruct v as [a|l]; [reflexivity|]. rewrite (proj2 (Nat.eqb_eq _ _) H). reflexivity.
Qed.
Lemma set_needs_species : forall m k v m', multi_set m k v = Ok m' -> exists s c, In s (m_species m) /\ noslash s /\ noslash c /\ k = qualified s c.
Proof.
  intros m k v m' H. destruct (set_inv _ _ _ _ H) as [s [c [ct [H1 _]]]]. exists s, c. apply split_column_ok in H1. tauto.
Qed.
End Species.

(* ---- metadata ---- *)
Lemma metadata_ok : forall V (eqv : V -> V -> bool), (forall a b, eqv a b = true <-> a = b) ->
  forall name attrs species v,
  check_species_metadata eqv name attrs species = Ok v <->
  (exists k, (k = name \/ exists s, In s species /\ k = s ++ dot :: name) /\ dget attrs k = Some v) /\
  (forall k w, (k = name \/ exists s, In s species /\ k = s ++ dot :: name) -> dget attrs k = Some w -> w = v).
Proof.
  intros V eqv He name attrs species v.
  set (opt := fun k => match dget attrs k with Some v0 => [v0] | None => [] end).
  set (vals := opt name ++ flat_map (fun s => opt (s ++ dot :: name)) species).
  assert (Hin : forall w, In w vals <-> exists k, (k = name \/ exists s, In s species /\ k = s ++ dot :: name) /\ dget attrs k = Some w).
  { intro w. unfold vals. rewrite in_app_iff, in_flat_map.
    assert (Ho : forall k, In w (opt k) <-> dget attrs k = Some w).
    { intro k. unfold opt. destruct (dget attrs k) as [x|]; cbn [In]; split; intros H.
      - destruct H as [->|[]]. reflexivity.
      - left. congruence.
      - destruct H.
      - discriminate. }
    rewrite Ho. split.
    - intros [H|[s [Hs H]]]; [exists name; auto|]. apply Ho in H. exists (s ++ dot :: name). split; [|exact H]. right. exists s. auto.
    - intros [k [[->|[s [Hs ->]]] H]]; [left; exact H|]. right. exists s. split; [exact Hs|]. apply Ho. exact H. }
  assert (Hd : check_species_metadata eqv name attrs species =
    match vals with [] => Err ValueError | v0 :: _ => if forallb (eqv v0) vals then Ok v0 else Err ValueError end) by reflexivity.
  rewrite Hd. clear Hd. split.
  - intros H. destruct vals as [|x l] eqn:Ev; [discriminate|].
    destruct (forallb (eqv x) (x :: l)) eqn:Ef; [|discriminate]. inversion H. subst x. split.
    + apply Hin. left. reflexivity.
    + intros k w Hk Hg. assert (In w (v :: l)) as Hw by (apply Hin; exists k; split; assumption).
      rewrite forallb_forall in Ef. symmetry. apply He. apply Ef. exact Hw.
  - intros [H1 H2]. apply Hin in H1. destruct vals as [|x l] eqn:Ev; [destruct H1|].
    assert (Hx : x = v). { destruct (proj1 (Hin x) (or_introl eq_refl)) as [k [Hk Hg]]. apply (H2 k); assumption. }
    subst x. replace (forallb (eqv v) (v :: l)) with true; [reflexivity|]. symmetry. apply forallb_forall. intros w Hw.
    apply He. symmetry. destruct (proj1 (Hin w) Hw) as [k [Hk Hg]]. apply (H2 k); assumption.
Qed.
Lemma metadata_err : forall V (eqv : V -> V -> bool) name attrs species e,
  check_species_metadata eqv name attrs species = Err e -> e = ValueError.
Proof.
  intros V eqv name attrs species e. unfold check_species_metadata.
  destruct (_ ++ _) as [|x l]; [congruence|]. destruct (forallb _ _); congruence.
Qed.
