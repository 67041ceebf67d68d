From Coq Require Import Ascii String.
From Verif Require Import Base BaseProofs NamesModel NamesSpec NamesProofs TomModel TomSpec.
Local Open Scope nat_scope.
Local Notation length := List.length.

Lemma insert_in : forall x l y, In y (insert_str x l) <-> y = x \/ In y l.
Proof.
  induction l as [ | z l IH]; intros y; cbn [insert_str].
  - cbn [In]. intuition.
  - destruct (str_ltb z x); cbn [In]; [rewrite IH | ]; cbn [In]; intuition.
Qed.
Lemma sorted_in : forall l y, In y (sorted l) <-> In y l.
Proof.
  induction l as [ | x l IH]; intros y; cbn [sorted fold_right].
  - reflexivity.
  - rewrite insert_in. fold (sorted l). rewrite IH. cbn [In]. intuition.
Qed.

Section C.
Variable V : Type.
Implicit Types (mro : list (klass V)) (i : inst V).

(* the finder *)
Definition says (d : bool) (n : str) (nm : str * member V) : Prop :=
  m_column (snd nm) = Some n /\ n <> [] /\ m_default (snd nm) = d.
Definition side (d : bool) (r : list str * list str) : list str := if d then fst r else snd r.
Lemma note_in : forall d n (nm : str * member V) r, In n (side d (note r nm)) <-> says d n nm \/ In n (side d r).
Proof.
  intros d n [k m] r. unfold says, note. cbn [fst snd].
  destruct (m_column m) as [[ | a l] | ] eqn:E.
  - split; [right; assumption | intros [[A [B _]] | A]; [congruence | assumption]].
  - destruct (m_default m) eqn:D; destruct d; cbn [side fst snd In]; split; intros H.
    + destruct H as [<- | H]; [left; repeat split; congruence | right; exact H].
    + destruct H as [[A [_ _]] | H]; [left; congruence | right; exact H].
    + right; exact H.
    + destruct H as [[_ [_ A]] | H]; [congruence | exact H].
    + right; exact H.
    + destruct H as [[_ [_ A]] | H]; [congruence | exact H].
    + destruct H as [<- | H]; [left; repeat split; congruence | right; exact H].
    + destruct H as [[A [_ _]] | H]; [left; congruence | right; exact H].
  - split; [right; assumption | intros [[A [B _]] | A]; [congruence | assumption]].
Qed.
Lemma notes_in : forall d n (c : klass V) r, In n (side d (fold_left note c r)) <-> (exists nm, In nm c /\ says d n nm) \/ In n (side d r).
Proof.
  induction c as [ | nm c IH]; intros r; cbn [fold_left].
  - split; [right; assumption | intros [[? [[] _]] | H]; exact H].
  - rewrite IH, note_in. split.
    + intros [[x [A B]] | [A | A]]; [left; exists x; split; [right | ]; assumption | left; exists nm; split; [left; reflexivity | exact A] | right; exact A].
    + intros [[x [[<- | A] B]] | A]; [right; left; exact B | left; exists x; split; assumption | right; right; exact A].
Qed.
Lemma classes_in : forall d n (l : list (klass V)) r, In n (side d (fold_left (fun r c => fold_left note c r) l r)) <->
  (exists c nm, In c l /\ In nm c /\ says d n nm) \/ In n (side d r).
Proof.
  induction l as [ | c l IH]; intros r; cbn [fold_left].
  - split; [right; assumption | intros [[? [? [[] _]]] | H]; exact H].
  - rewrite IH, notes_in. split.
    + intros [[x [y [A B]]] | [[y A] | A]]; [left; exists x, y; split; [right | ]; assumption | left; exists c, y; split; [left; reflexivity | exact A] | right; exact A].
    + intros [[x [y [[<- | A] B]]] | A]; [right; left; exists y; exact B | left; exists x, y; split; assumption | right; right; exact A].
Qed.
Lemma finder_in : forall d n mro, In n (side d (finder mro)) <-> exists c nm, In c mro /\ In nm c /\ says d n nm.
Proof.
  intros d n mro. unfold finder. rewrite classes_in. split.
  - intros [[c [nm [A B]]] | A]; [exists c, nm; split; [apply in_rev; exact A | exact B] | destruct d; destruct A].
  - intros [c [nm [A B]]]. left. exists c, nm. split; [apply in_rev; rewrite rev_involutive; exact A | exact B].
Qed.
Lemma declared_iff : forall mro n d, well_made mro -> In n (side d (finder mro)) <-> declared mro n d.
Proof.
  intros mro n d W. rewrite finder_in. split.
  - intros [c [[k m] [A [B [E [F D]]]]]]. cbn [snd] in *. destruct (W c A) as [_ W2].
    destruct (W2 k m n B E) as [<- _]. exists c, m. split; [exact A | split; [exact B | split; [exact E | exact D]]].
  - intros [c [m [A [B [E D]]]]]. exists c, (n, m). split; [exact A | split; [exact B | ]].
    destruct (W c A) as [_ W2]. destruct (W2 n m n B E) as [_ N]. split; [exact E | split; [exact N | exact D]].
Qed.

(* resolution *)
Lemma dget_some_in : forall X (d : list (str * X)) k v, dget d k = Some v -> In (k, v) d.
Proof.
  induction d as [ | [x w] d IH]; intros k v H; cbn [dget] in H; [discriminate | ].
  destruct (str_eq_dec x k) as [<- | N]; [left; congruence | right; apply IH; exact H].
Qed.
Lemma dget_in_some : forall X (d : list (str * X)) k v, NoDup (map fst d) -> In (k, v) d -> dget d k = Some v.
Proof.
  induction d as [ | [x w] d IH]; intros k v H H1; [destruct H1 | ].
  cbn [map fst] in H. inversion H as [ | a l Hn Hd]; subst. cbn [dget]. destruct H1 as [E | H1].
  - injection E as <- <-. destruct (str_eq_dec x x); [reflexivity | congruence].
  - destruct (str_eq_dec x k) as [<- | N]; [ | apply IH; assumption].
    exfalso. apply Hn. apply in_map_iff. exists (x, v). split; [reflexivity | exact H1].
Qed.
Lemma dget_none : forall X (d : list (str * X)) k, dget d k = None <-> ~ In k (map fst d).
Proof.
  intros X d k. pose proof (dget_in d k) as H. destruct (dget d k) as [x | ].
  - split; [discriminate | ]. intros A. exfalso. apply A. apply H. discriminate.
  - split; [ | reflexivity]. intros _ A. apply H in A. congruence.
Qed.
Lemma call_resolves : forall mro n m, (forall c, In c mro -> NoDup (map fst c)) -> resolves mro n m -> call_attr mro n = Ok (m_call m).
Proof.
  induction mro as [ | c mro IH]; intros n m W [pre [c0 [post [E [P I]]]]].
  - destruct pre; discriminate.
  - cbn [call_attr]. destruct pre as [ | c' pre].
    + cbn [app] in E. injection E as <- <-. rewrite (dget_in_some _ c n m (W c (or_introl eq_refl)) I). reflexivity.
    + cbn [app] in E. injection E as <- E. assert (N : dget c n = None) by (apply dget_none; apply P; left; reflexivity).
      rewrite N. apply IH; [intros; apply W; right; assumption | ].
      exists pre, c0, post. split; [exact E | split; [intros; apply P; right; assumption | exact I]].
Qed.
Lemma resolves_ex : forall mro n, (exists c, In c mro /\ In n (map fst c)) -> exists m, resolves mro n m.
Proof.
  induction mro as [ | c mro IH]; intros n [c0 [A B]]; [destruct A | ].
  destruct (in_dec str_eq_dec n (map fst c)) as [H | H].
  - apply in_map_iff in H. destruct H as [[k m] [<- H]]. exists m. exists [], c, mro.
    split; [reflexivity | split; [intros ? [] | exact H]].
  - destruct A as [<- | A]; [contradiction | ]. destruct (IH n) as [m [pre [c1 [post [E [P I]]]]]]; [exists c0; split; assumption | ].
    exists m, (c :: pre), c1, post. split; [cbn [app]; congruence | split; [ | exact I]].
    intros c' [<- | Q]; [exact H | apply P; exact Q].
Qed.
Lemma declared_has : forall mro n d, declared mro n d -> exists c, In c mro /\ In n (map fst c).
Proof.
  intros mro n d [c [m [A [B _]]]]. exists c. split; [exact A | apply in_map_iff; exists (n, m); split; [reflexivity | exact B]].
Qed.

Lemma hard_in : forall i n, In n (hardcolumns i) <-> In n (side false (finder (i_mro i))).
Proof. intros i n. unfold hardcolumns. rewrite sorted_in, nodup_In. reflexivity. Qed.
Lemma columns_raw : forall i n, In n (columns i) <->
  In n (map fst (i_over i)) \/ In n (side false (finder (i_mro i))) \/ In n (side true (finder (i_mro i))).
Proof.
  intros i n. unfold columns. rewrite sorted_in, nodup_In, !in_app_iff, hard_in. cbn [side]. tauto.
Qed.
Lemma columns_iff : forall i n, well_made (i_mro i) ->
  In n (columns i) <-> In n (map fst (i_over i)) \/ exists d, declared (i_mro i) n d.
Proof.
  intros i n W. rewrite columns_raw, !(declared_iff _ _ _ W). split.
  - intros [A | [A | A]]; [left; exact A | right; exists false; exact A | right; exists true; exact A].
  - intros [A | [d A]]; [left; exact A | destruct d; [right; right | right; left]; exact A].
Qed.
Lemma get_over : forall i n v, dget (i_over i) n = Some v -> getitem i n = Ok (v, false).
Proof. intros i n v H. unfold getitem. rewrite H. reflexivity. Qed.
Lemma mem_false : forall a l, ~ In a l -> mem a l = false.
Proof. intros a l H. destruct (mem a l) eqn:E; [apply mem_true in E; contradiction | reflexivity]. Qed.
Lemma get_class : forall i n, well_made (i_mro i) -> ~ In n (map fst (i_over i)) -> (exists d, declared (i_mro i) n d) ->
  exists m b, resolves (i_mro i) n m /\ getitem i n = Ok (m_call m, b) /\ (b = false <-> declared (i_mro i) n false).
Proof.
  intros i n W No [d D]. destruct (resolves_ex _ _ (declared_has _ _ _ D)) as [m R].
  assert (C : call_attr (i_mro i) n = Ok (m_call m)) by (apply call_resolves; [intros c Hc; apply (W c Hc) | exact R]).
  exists m. unfold getitem. rewrite (proj2 (dget_none _ _ _) No).
  destruct (in_dec str_eq_dec n (side false (finder (i_mro i)))) as [F | F].
  - exists false. split; [exact R | ]. rewrite (proj2 (mem_true _ _)) by (apply hard_in; exact F).
    unfold get_hardcolumn. cbn [side] in F. rewrite (proj2 (mem_true _ _) F), C. cbn [rbind].
    split; [reflexivity | ]. split; [ | reflexivity]. intros _. apply (declared_iff _ _ false W). exact F.
  - exists true. split; [exact R | ]. rewrite mem_false by (rewrite hard_in; exact F).
    assert (T : In n (side true (finder (i_mro i)))).
    { destruct d; [apply (declared_iff _ _ true W); exact D | ]. exfalso. apply F. apply (declared_iff _ _ false W). exact D. }
    cbn [side] in T. rewrite (proj2 (mem_true _ _) T), C. cbn [rbind]. split; [reflexivity | ].
    split; [discriminate | ]. intros D'. exfalso. apply F. apply (declared_iff _ _ false W). exact D'.
Qed.
Lemma get_missing : forall i n, ~ In n (columns i) -> getitem i n = Err KeyError.
Proof.
  intros i n H. rewrite columns_raw in H. unfold getitem.
  rewrite (proj2 (dget_none _ _ _)) by tauto.
  rewrite mem_false by (rewrite hard_in; tauto). cbn [side] in H. rewrite mem_false by tauto. reflexivity.
Qed.
End C.
