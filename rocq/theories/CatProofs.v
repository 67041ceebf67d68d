(* Proofs about CatModel. *)
From Verif Require Import Base BaseProofs CatModel CatSpec.
From Coq Require Import Sorted.
Local Open Scope nat_scope.

(* ---------- dictionaries ---------- *)
Lemma aget_aset {V} (d : list (nat * V)) k v j : aget (aset d k v) j = if j =? k then Some v else aget d j.
Proof.
  induction d as [|[k' v'] d IH]; cbn [aset aget].
  - destruct (j =? k); reflexivity.
  - destruct (Nat.eqb_spec k k') as [<-|Hk]; cbn [aget].
    + destruct (j =? k); reflexivity.
    + destruct (Nat.eqb_spec j k') as [->|Hj]; [|exact IH].
      destruct (Nat.eqb_spec k' k); [congruence|reflexivity].
Qed.
Lemma aget_adel {V} (d : list (nat * V)) k j : aget (adel d k) j = if j =? k then None else aget d j.
Proof.
  induction d as [|[k' v'] d IH]; cbn [adel filter aget fst].
  - destruct (j =? k); reflexivity.
  - destruct (Nat.eqb_spec k k') as [<-|Hk]; cbn [negb].
    + unfold adel in IH. rewrite IH. destruct (j =? k); reflexivity.
    + cbn [aget]. unfold adel in IH. rewrite IH.
      destruct (Nat.eqb_spec j k') as [->|Hj]; [|reflexivity].
      destruct (Nat.eqb_spec k' k); [congruence|reflexivity].
Qed.
Lemma aget_in {V} (d : list (nat * V)) k v : aget d k = Some v -> In (k, v) d.
Proof.
  induction d as [|[k' v'] d IH]; cbn [aget]; [discriminate|].
  destruct (Nat.eqb_spec k k') as [->|]; intros H; [injection H as ->; left; reflexivity|right; auto].
Qed.
Lemma amem_keys {V} (d : list (nat * V)) k : amem d k = true <-> In k (map fst d).
Proof.
  unfold amem. induction d as [|[k' v'] d IH]; cbn [aget map fst In]; [split; [discriminate|tauto]|].
  destruct (Nat.eqb_spec k k') as [->|Hk]; [tauto|]. rewrite IH. split; [auto|]. intros [H|H]; [congruence|exact H].
Qed.
Lemma aget_none {V} (d : list (nat * V)) k : aget d k = None <-> ~ In k (map fst d).
Proof.
  rewrite <- amem_keys. unfold amem. destruct (aget d k); split; intros H; try discriminate; auto; exfalso; apply H; reflexivity.
Qed.

(* ---------- sorted(set(...)) ---------- *)
Lemma insert_name_in x l y : In y (insert_name x l) <-> y = x \/ In y l.
Proof.
  induction l as [|z l IH]; cbn [insert_name]; [simpl; intuition auto|].
  destruct (Nat.ltb_spec x z); [simpl; intuition auto|].
  destruct (Nat.eqb_spec x z) as [->|]; [simpl; intuition auto|].
  cbn [In]. rewrite IH. intuition auto.
Qed.
Lemma sorted_set_in l y : In y (sorted_set l) <-> In y l.
Proof.
  unfold sorted_set. induction l as [|x l IH]; cbn [fold_right In]; [tauto|].
  rewrite insert_name_in, IH. intuition auto.
Qed.
Lemma insert_name_sorted x l : StronglySorted lt l -> StronglySorted lt (insert_name x l).
Proof.
  induction 1 as [|z l Hs IH Hz]; cbn [insert_name]; [repeat constructor|].
  destruct (Nat.ltb_spec x z).
  - constructor; [constructor; assumption|]. constructor; [assumption|].
    eapply Forall_impl; [|exact Hz]. cbv beta. intros; lia.
  - destruct (Nat.eqb_spec x z) as [->|]; [constructor; assumption|].
    constructor; [exact IH|]. apply Forall_forall. intros y Hy. apply insert_name_in in Hy.
    rewrite Forall_forall in Hz. destruct Hy as [->|Hy]; [lia|auto].
Qed.
Lemma sorted_set_sorted l : StronglySorted lt (sorted_set l).
Proof. unfold sorted_set. induction l; cbn [fold_right]; [constructor|apply insert_name_sorted; assumption]. Qed.

Lemma sorted_lt_ext (l1 l2 : list nat) : StronglySorted lt l1 -> StronglySorted lt l2 ->
  (forall x, In x l1 <-> In x l2) -> l1 = l2.
Proof.
  intros H1. revert l2. induction H1 as [|x l1 Hs IH Hx]; intros l2 H2 Hin.
  - destruct l2 as [|y l2]; [reflexivity|]. exfalso. apply (Hin y). left; reflexivity.
  - inversion H2 as [|y l2' Hs2 Hy]; subst.
    + exfalso. apply (Hin x). left; reflexivity.
    + rewrite Forall_forall in Hx, Hy.
      assert (x = y) as ->.
      { destruct (proj1 (Hin x) (or_introl eq_refl)) as [->|Hxy]; [reflexivity|].
        destruct (proj2 (Hin y) (or_introl eq_refl)) as [->|Hyx]; [reflexivity|].
        specialize (Hx _ Hyx). specialize (Hy _ Hxy). lia. }
      f_equal. apply IH; [exact Hs2|]. intros z. split; intros Hz.
      * destruct (proj1 (Hin z) (or_intror Hz)) as [<-|]; [|assumption]. specialize (Hx _ Hz). lia.
      * destruct (proj2 (Hin z) (or_intror Hz)) as [<-|]; [|assumption]. specialize (Hy _ Hz). lia.
Qed.

(* ---------- lists ---------- *)
Lemma replace_length {B} (l : list B) i x : length (replace l i x) = length l.
Proof. revert i; induction l as [|y l IH]; intros [|i]; simpl; auto. Qed.
Lemma nth_error_replace {B} (l : list B) i x j :
  nth_error (replace l i x) j = if j =? i then (if i <? length l then Some x else None) else nth_error l j.
Proof.
  revert i j; induction l as [|y l IH]; intros i j.
  - cbn [replace length]. replace (i <? 0) with false by (symmetry; apply Nat.ltb_ge; lia).
    destruct (j =? i); [|reflexivity]. destruct j; reflexivity.
  - destruct i as [|i], j as [|j]; cbn [replace nth_error]; try reflexivity.
    rewrite IH. cbn [length]. change (S j =? S i) with (j =? i). change (S i <? S (length l)) with (i <? length l). reflexivity.
Qed.

(* ---------- indices ---------- *)
Lemma slice_size_range_len a b s : (s <> 0)%Z -> slice_size a b s = range_len a b s.
Proof.
  intros Hs. unfold slice_size, range_len.
  destruct (Z.ltb_spec 0 s) as [H|H].
  - destruct (Z.ltb_spec a b) as [Hab|Hab].
    + replace (b - a + (s - 1))%Z with (b - a - 1 + 1 * s)%Z by lia. rewrite Z.div_add by lia.
      assert (0 <= (b - a - 1) / s)%Z by (apply Z.div_pos; lia). lia.
    + assert ((b - a + (s - 1)) / s < 1)%Z; [|lia]. apply Z.div_lt_upper_bound; lia.
  - destruct (Z.ltb_spec s 0) as [H'|]; [|lia].
    destruct (Z.ltb_spec b a) as [Hab|Hab].
    + replace ((b - a + (s - -1)) / s)%Z with ((a - b - 1 + 1 * (- s)) / (- s))%Z.
      * rewrite Z.div_add by lia. assert (0 <= (a - b - 1) / - s)%Z by (apply Z.div_pos; lia). lia.
      * rewrite <- (Z.div_opp_opp (b - a + (s - -1)) s) by lia. f_equal; lia.
    + assert ((b - a + (s - -1)) / s < 1)%Z; [|lia].
      rewrite <- (Z.div_opp_opp (b - a + (s - -1)) s) by lia. apply Z.div_lt_upper_bound; lia.
Qed.

Lemma true_positions_range m : forall i, Forall (fun x => i <= x < i + zlen m)%Z (true_positions i m).
Proof.
  induction m as [|b m IH]; intros i; [constructor|].
  assert (Forall (fun x => i <= x < i + zlen (b :: m))%Z (true_positions (i + 1) m)) as H.
  { eapply Forall_impl; [|apply IH]. cbv beta. intros x Hx. rewrite zlen_cons. lia. }
  cbn [true_positions]. destruct b; [|exact H]. constructor; [|exact H].
  rewrite zlen_cons. pose proof (zlen_nonneg m). lia.
Qed.
Lemma true_positions_count m : forall i, length (true_positions i m) = count_true m.
Proof.
  induction m as [|b m IH]; intros i; [reflexivity|]. cbn [true_positions]. unfold count_true in *. cbn [filter].
  destruct b; cbn [length]; rewrite IH; reflexivity.
Qed.

Lemma resolve_ok n i rows sz : resolve n i = Ok (rows, sz) ->
  zlen rows = sz /\ Forall (fun x => 0 <= x < Z.of_nat n)%Z rows.
Proof.
  destruct i as [|a b s|m|l]; cbn [resolve].
  - intros H. assert (rows = py_range 0 (Z.of_nat n) 1) as -> by congruence. assert (sz = Z.of_nat n) as -> by congruence.
    split.
    + rewrite py_range_length. unfold range_len. replace (0 <? 1)%Z with true by reflexivity.
      destruct (Z.ltb_spec 0 (Z.of_nat n)); [rewrite Z.div_1_r; lia|lia].
    + apply Forall_forall. intros x Hx. apply in_py_range_pos in Hx; lia.
  - destruct (slice_indices a b s (Z.of_nat n)) as [[[st sp] se]|] eqn:E; cbn [rbind]; [|discriminate].
    intros H. assert (rows = py_range st sp se) as -> by congruence. assert (sz = slice_size st sp se) as -> by congruence.
    pose proof (slice_indices_spec _ _ _ _ _ _ _ (Zle_0_nat n) E) as (H0 & Hp & Hm). split.
    + rewrite py_range_length, slice_size_range_len by exact H0. reflexivity.
    + apply Forall_forall. intros x Hx. destruct (Z.ltb_spec 0 se) as [Hs|Hs].
      * apply in_py_range_pos in Hx; [|exact Hs]. specialize (Hp Hs). lia.
      * assert (se < 0)%Z as Hs' by lia. apply in_py_range_neg in Hx; [|exact Hs']. specialize (Hm Hs'). lia.
  - destruct (Nat.eqb_spec (length m) n) as [<-|]; [|discriminate]. intros H. injection H as <- <-. split.
    + unfold zlen. rewrite true_positions_count. reflexivity.
    + eapply Forall_impl; [|apply true_positions_range]. cbv beta. unfold zlen. intros; lia.
  - destruct (forallb _ l) eqn:F; [|discriminate]. intros H. injection H as <- <-. rewrite zlen_map. split; [reflexivity|].
    rewrite forallb_forall in F. apply Forall_forall. intros x Hx. apply in_map_iff in Hx.
    destruct Hx as (y & <- & Hy). specialize (F y Hy). destruct (Z.ltb_spec y 0); lia.
Qed.

Lemma select_masked {A} (col : list A) m : length m = length col ->
  forall pre, select (pre ++ col) (true_positions (zlen pre) m) = map fst (filter snd (combine col m)).
Proof.
  revert m. induction col as [|x col IH]; intros [|b m] HL pre; simpl in HL; try lia; [reflexivity|].
  specialize (IH m ltac:(lia) (pre ++ [x])).
  rewrite <- app_assoc in IH. cbn [app] in IH.
  assert (zlen (pre ++ [x]) = zlen pre + 1)%Z as EL by (rewrite zlen_app; reflexivity). rewrite EL in IH.
  cbn [true_positions combine filter snd]. destruct b; [|exact IH].
  cbn [map fst]. change (zlen pre :: true_positions (zlen pre + 1) m) with ([zlen pre] ++ true_positions (zlen pre + 1) m).
  rewrite select_app, IH. cbn [select flat_map app]. unfold znth, zlen.
  destruct (Z.ltb_spec (Z.of_nat (length pre)) 0); [lia|]. rewrite Nat2Z.id.
  rewrite nth_error_app2, Nat.sub_diag by lia. reflexivity.
Qed.

(* selecting the resolved rows is numpy indexing *)
Lemma resolve_numpy {A} n i rows sz (col : list A) : resolve n i = Ok (rows, sz) -> length col = n ->
  numpy_index i col = Ok (select col rows).
Proof.
  intros H <-. destruct i as [|a b s|m|l]; cbn [resolve numpy_index] in *.
  - assert (rows = py_range 0 (zlen col) 1) as -> by (unfold zlen; congruence). f_equal.
    rewrite <- sub_select by (pose proof (zlen_nonneg col); lia). symmetry. apply sub_full.
  - unfold py_slice, zlen. destruct (slice_indices a b s (Z.of_nat (length col))) as [[[st sp] se]|]; cbn [rbind] in *; [|discriminate].
    congruence.
  - destruct (Nat.eqb_spec (length m) (length col)) as [E|]; [|discriminate]. injection H as <- <-. f_equal. symmetry.
    apply (select_masked col m E []).
  - destruct (forallb _ l) eqn:F; [|discriminate]. injection H as <- <-.
    induction l as [|i l IH]; [reflexivity|]. cbn [forallb] in F. apply andb_prop in F. destruct F as [F1 F2].
    specialize (IH F2). cbn [map rall]. cbn [select flat_map].
    change (Z.of_nat (length col)) with (zlen col) in *.
    destruct (znth_some col (if (i <? 0)%Z then (i + zlen col)%Z else i)) as [x Hx].
    { destruct (Z.ltb_spec i 0); lia. }
    rewrite Hx. cbn [rbind]. rewrite IH. reflexivity.
Qed.

Lemma resolve_fails {A} n i e (col : list A) : resolve n i = Err e -> length col = n -> numpy_index i col = Err e.
Proof.
  intros H <-. destruct i as [|a b s|m|l]; cbn [resolve numpy_index] in *.
  - discriminate.
  - unfold py_slice, zlen. destruct (slice_indices a b s (Z.of_nat (length col))) as [[[st sp] se]|]; cbn [rbind] in *; [discriminate|].
    congruence.
  - destruct (Nat.eqb_spec (length m) (length col)); congruence.
  - destruct (forallb _ l) eqn:F; [discriminate|]. injection H as <-.
    induction l as [|i l IH]; [discriminate|]. cbn [forallb] in F. cbn [map rall].
    change (Z.of_nat (length col)) with (zlen col) in *.
    destruct (znth col _) as [x|] eqn:Hx; [|reflexivity]. cbn [rbind].
    rewrite IH; [reflexivity|]. apply andb_false_iff in F. destruct F as [F|F]; [|exact F]. exfalso.
    assert (znth col (if (i <? 0)%Z then (i + zlen col)%Z else i) = None); [|congruence].
    apply znth_none. destruct (Z.ltb_spec i 0); lia.
Qed.

(* a dictionary built column by column *)
Lemma aget_build {V} (F : nat -> option V) names : forall d n,
  aget (fold_left (fun d (c : nat * V) => aset d (fst c) (snd c))
          (flat_map (fun n => match F n with Some v => [(n, v)] | None => [] end) names) d) n =
  if existsb (Nat.eqb n) names then match F n with Some v => Some v | None => aget d n end else aget d n.
Proof.
  induction names as [|k names IH]; intros d n; [reflexivity|].
  cbn [flat_map existsb]. rewrite fold_left_app, IH.
  destruct (Nat.eqb_spec n k) as [->|Hn]; cbn [orb].
  - destruct (F k) as [v|] eqn:E; cbn [fold_left fst snd].
    + rewrite aget_aset, Nat.eqb_refl. destruct (existsb (Nat.eqb k) names); reflexivity.
    + destruct (existsb (Nat.eqb k) names); reflexivity.
  - destruct (F k) as [v|]; cbn [fold_left fst snd]; [|reflexivity].
    rewrite aget_aset. destruct (Nat.eqb_spec n k); [contradiction|reflexivity].
Qed.

Section Cat.
Context {A : Type}.
Variable base_dflt : list (nat * A).

Notation heap := (heap A). Notation obj := (obj A).
Notation step := (step A base_dflt). Notation exec := (exec A base_dflt).
Notation get := (get A). Notation columns := (columns A). Notation size := (size A). Notation owner := (owner A).
Notation olook := (olook A). Notation objs := (objs A). Notation dicts := (dicts A). Notation attrs := (attrs A).
Notation o_base := (o_base A). Notation o_size := (o_size A). Notation o_over := (o_over A).
Notation o_hard := (o_hard A). Notation o_dflt := (o_dflt A). Notation o_attrs := (o_attrs A).

Definition live (h : heap) (r : nat) : Prop := r < length (objs h).

Definition sized (n : nat) (cols : list (nat * list A)) : Prop := forall k v, In (k, v) cols -> length v = n.

Record wf (h : heap) : Prop := {
  wf_base : forall r o b, olook h r = Some o -> o_base o = Some b ->
     b < r /\ o_over o = [] /\ exists ob, olook h b = Some ob /\ o_hard ob = o_hard o /\ o_dflt ob = o_dflt o;
  wf_size : forall r o, olook h r = Some o -> o_base o = None -> sized (o_size o) (o_over o) /\ sized (o_size o) (o_hard o);
  wf_attrs : forall r o d, olook h r = Some o -> o_attrs o = Some d -> d < length (dicts h)
}.

Lemma live_look h r : live h r <-> exists o, olook h r = Some o.
Proof.
  unfold live, CatModel.olook. split.
  - intros H. destruct (nth_error (objs h) r) eqn:E; [eauto|]. apply nth_error_None in E. lia.
  - intros [o H]. apply nth_error_Some. congruence.
Qed.

Notation rootof := (rootof A). Notation ro_here := (ro_here A). Notation ro_base := (ro_base A).

Lemma rootof_fun h r q q' : rootof h r q -> rootof h r q' -> q = q'.
Proof.
  intros H. revert q'. induction H as [r o E B|r o b q E B H IH]; intros q' H'; inversion H'; subst; try congruence.
  apply IH. assert (b = b0) as -> by congruence. assumption.
Qed.
Lemma rootof_root h fuel r : wf h -> live h r -> r < fuel -> rootof h r (root A fuel h r).
Proof.
  intros W. revert r. induction fuel as [|fuel IH]; intros r V L; [lia|].
  apply live_look in V. destruct V as [o E]. cbn [root]. rewrite E.
  destruct (o_base o) as [b|] eqn:B.
  - destruct (wf_base h W r o b E B) as (Hb & _ & ob & Eb & _). apply (ro_base h r o b); auto.
    apply IH; [apply live_look; eauto|lia].
  - apply (ro_here h r o); auto.
Qed.
Lemma owner_rootof h r : wf h -> live h r -> rootof h r (owner h r).
Proof. intros W V. apply rootof_root; auto. Qed.

Lemma rootof_class h r q : wf h -> rootof h r q ->
  exists o oq, olook h r = Some o /\ olook h q = Some oq /\ o_base oq = None /\ o_hard oq = o_hard o /\ o_dflt oq = o_dflt o.
Proof.
  intros W. induction 1 as [r o E B|r o b q E B H IH].
  - exists o, o. auto.
  - destruct IH as (ob & oq & Eb & Eq & Bq & H1 & H2). exists o, oq.
    destruct (wf_base h W r o b E B) as (_ & _ & ob' & Eb' & H3 & H4).
    assert (ob = ob') as -> by congruence. repeat split; congruence.
Qed.

Lemma owner_look h r : wf h -> live h r -> exists o oq, olook h r = Some o /\ olook h (owner h r) = Some oq /\
  o_base oq = None /\ o_hard oq = o_hard o /\ o_dflt oq = o_dflt o.
Proof. intros W V. apply (rootof_class h r (owner h r) W), owner_rootof; auto. Qed.

Lemma owner_valid h r : wf h -> live h r -> live h (owner h r).
Proof. intros W V. destruct (owner_look h r W V) as (o & oq & _ & E & _). apply live_look. eauto. Qed.

(* two heaps agree on the base pointers of the objects of the first *)
Definition same_bases (h h' : heap) : Prop :=
  forall r o, olook h r = Some o -> exists o', olook h' r = Some o' /\ o_base o' = o_base o.

Lemma rootof_same h h' r q : same_bases h h' -> rootof h r q -> rootof h' r q.
Proof.
  intros S. induction 1 as [r o E B|r o b q E B H IH]; destruct (S r o E) as (o' & E' & B').
  - apply (ro_here h' r o'); congruence.
  - apply (ro_base h' r o' b); congruence.
Qed.
Lemma owner_same h h' r : wf h -> wf h' -> same_bases h h' -> live h r -> owner h' r = owner h r.
Proof.
  intros W W' S V. assert (live h' r) as V'.
  { apply live_look in V. destruct V as [o E]. destruct (S r o E) as (o' & E' & _). apply live_look. eauto. }
  apply (rootof_fun h' r); [apply owner_rootof; auto|]. apply (rootof_same h h'); [exact S|apply owner_rootof; auto].
Qed.

(* the objects of h keep everything but (possibly) their attribute reference *)
Definition keeps (h h' : heap) : Prop :=
  forall r o, olook h r = Some o -> exists o', olook h' r = Some o' /\
    o_base o' = o_base o /\ o_size o' = o_size o /\ o_over o' = o_over o /\ o_hard o' = o_hard o /\ o_dflt o' = o_dflt o.

Lemma keeps_same h h' : keeps h h' -> same_bases h h'.
Proof. intros K r o E. destruct (K r o E) as (o' & E' & B & _). eauto. Qed.
Lemma keeps_refl h : keeps h h.
Proof. intros r o E. exists o. auto 7. Qed.
Lemma keeps_trans h1 h2 h3 : keeps h1 h2 -> keeps h2 h3 -> keeps h1 h3.
Proof.
  intros K1 K2 r o E. destruct (K1 r o E) as (o' & E' & a & b & c & d & e).
  destruct (K2 r o' E') as (o'' & E'' & a' & b' & c' & d' & e'). exists o''. repeat split; congruence.
Qed.

Lemma keeps_get h h' r n : wf h -> wf h' -> keeps h h' -> live h r ->
  get h' r n = get h r n /\ columns h' r = columns h r /\ size h' r = size h r.
Proof.
  intros W W' K V. pose proof (owner_same h h' r W W' (keeps_same _ _ K) V) as EO.
  destruct (owner_look h r W V) as (o & oq & _ & Eq & _).
  destruct (K _ _ Eq) as (oq' & Eq' & a & b & c & d & e).
  unfold CatModel.get, CatModel.columns, CatModel.size. rewrite EO, Eq, Eq', b, c, d, e. auto.
Qed.

Lemma look_app (h : heap) o r ds : olook {| CatModel.objs := objs h ++ [o]; CatModel.dicts := ds |} r =
  if r =? length (objs h) then Some o else olook h r.
Proof.
  unfold CatModel.olook. cbn [CatModel.objs]. destruct (Nat.eqb_spec r (length (objs h))) as [->|H].
  - rewrite nth_error_app2, Nat.sub_diag by lia. reflexivity.
  - destruct (Nat.ltb_spec r (length (objs h))).
    + apply nth_error_app1. assumption.
    + rewrite (proj2 (nth_error_None _ _)) by (rewrite app_length; simpl; lia).
      symmetry. apply nth_error_None. lia.
Qed.

Lemma keeps_add h o ds : keeps h {| CatModel.objs := objs h ++ [o]; CatModel.dicts := ds |}.
Proof.
  intros r x E. exists x. rewrite look_app. destruct (Nat.eqb_spec r (length (objs h))) as [->|]; [|auto 7].
  exfalso. assert (live h (length (objs h))) by (apply live_look; eauto). unfold live in *. lia.
Qed.

Lemma look_put h q oq r : olook h q = Some oq -> forall o', olook (put A h q o') r = if r =? q then Some o' else olook h r.
Proof.
  intros E o'. unfold CatModel.olook, put. cbn [CatModel.objs]. rewrite nth_error_replace.
  assert (q < length (objs h)) by (apply live_look; eauto).
  destruct (Nat.eqb_spec r q) as [->|]; [|reflexivity]. destruct (Nat.ltb_spec q (length (objs h))); [reflexivity|lia].
Qed.

(* ---------- the invariant ---------- *)
Lemma wf_empty : wf (empty A).
Proof. constructor; intros r o; unfold CatModel.olook; cbn; destruct r; discriminate. Qed.

Lemma wf_put_over h q oq d : wf h -> olook h q = Some oq -> o_base oq = None -> sized (o_size oq) d ->
  wf (put A h q (with_over A oq d)).
Proof.
  intros W E B S. destruct W as [W1 W2 W3]. constructor.
  - intros r o b. rewrite (look_put h q oq) by exact E. destruct (Nat.eqb_spec r q) as [->|Hr].
    + intros H. injection H as <-. cbn. congruence.
    + intros Er Bb. destruct (W1 r o b Er Bb) as (L & O & ob & Eb & H1 & H2). split; [exact L|split; [exact O|]].
      destruct (Nat.eqb_spec b q) as [->|Hb].
      * exists (with_over A oq d). split; [rewrite (look_put h q oq), Nat.eqb_refl by exact E; reflexivity|].
        cbn. assert (ob = oq) as -> by congruence. auto.
      * exists ob. rewrite (look_put h q oq) by exact E. destruct (Nat.eqb_spec b q); [contradiction|auto].
  - intros r o. rewrite (look_put h q oq) by exact E. destruct (Nat.eqb_spec r q) as [->|Hr].
    + intros H _. injection H as <-. cbn. split; [exact S|]. apply (W2 q oq E B).
    + apply W2.
  - intros r o a. rewrite (look_put h q oq) by exact E. cbn [put CatModel.dicts]. destruct (Nat.eqb_spec r q) as [->|Hr].
    + intros H. injection H as <-. cbn. apply (W3 q oq a E).
    + apply W3.
Qed.

Lemma wf_add h o ds : wf h -> length (dicts h) <= length ds ->
  (forall b, o_base o = Some b -> o_over o = [] /\ exists ob, olook h b = Some ob /\ o_hard ob = o_hard o /\ o_dflt ob = o_dflt o) ->
  (o_base o = None -> sized (o_size o) (o_over o) /\ sized (o_size o) (o_hard o)) ->
  (forall d, o_attrs o = Some d -> d < length ds) ->
  wf {| CatModel.objs := objs h ++ [o]; CatModel.dicts := ds |}.
Proof.
  intros [W1 W2 W3] HL HB HS HA. constructor.
  - intros r x b. rewrite look_app. destruct (Nat.eqb_spec r (length (objs h))) as [->|Hr].
    + intros H B. injection H as <-. destruct (HB b B) as (O & ob & Eb & H1 & H2).
      assert (b < length (objs h)) as Lb by (apply live_look; eauto).
      split; [exact Lb|split; [exact O|]]. exists ob. rewrite look_app.
      destruct (Nat.eqb_spec b (length (objs h))); [lia|auto].
    + intros E B. destruct (W1 r x b E B) as (L & O & ob & Eb & H1 & H2). split; [exact L|split; [exact O|]].
      exists ob. rewrite look_app. destruct (Nat.eqb_spec b (length (objs h))) as [->|]; [|auto].
      assert (length (objs h) < length (objs h)) by (apply live_look; eauto). lia.
  - intros r x. rewrite look_app. destruct (Nat.eqb_spec r (length (objs h))) as [->|Hr]; [|apply W2].
    intros H B. injection H as <-. auto.
  - intros r x d. rewrite look_app. cbn [CatModel.dicts]. destruct (Nat.eqb_spec r (length (objs h))) as [->|Hr].
    + intros H B. injection H as <-. auto.
    + intros E D. specialize (W3 r x d E D). lia.
Qed.

Lemma sized_aset n d k v : sized n d -> length v = n -> sized n (aset d k v).
Proof.
  intros S L. induction d as [|[k' v'] d IH]; cbn [aset].
  - intros k0 v0 [H|[]]. injection H as <- <-. exact L.
  - destruct (k =? k').
    + intros k0 v0 [H|H]; [injection H as <- <-; exact L|apply (S k0); right; exact H].
    + intros k0 v0 [H|H]; [injection H as <- <-; apply (S k'); left; reflexivity|].
      apply (IH (fun a b c => S a b (or_intror c)) k0 v0 H).
Qed.
Lemma sized_adel n d k : sized n d -> sized n (adel d k).
Proof. intros S k0 v0 H. apply filter_In in H. apply (S k0), H. Qed.

Lemma size_eq h r q oq : owner h r = q -> olook h q = Some oq -> size h r = o_size oq.
Proof. intros <- E. unfold CatModel.size. rewrite E. reflexivity. Qed.

Lemma setitem_inv h r n v h' : wf h -> setitem A h r n v = Ok h' ->
  exists oq, olook h (owner h r) = Some oq /\ o_base oq = None /\ length (expand A (o_size oq) v) = o_size oq /\
    h' = put A h (owner h r) (with_over A oq (aset (o_over oq) n (expand A (o_size oq) v))).
Proof.
  intros W H. unfold setitem in H.
  destruct (Nat.eqb_spec (length (expand A (size h r) v)) (size h r)) as [L|]; [cbn [negb] in H|discriminate].
  destruct (olook h (owner h r)) as [oq|] eqn:E; [|discriminate]. injection H as <-.
  assert (size h r = o_size oq) as ES by (unfold CatModel.size; rewrite E; reflexivity).
  exists oq. rewrite ES in *. repeat split; auto.
  destruct (Nat.ltb_spec r (length (objs h))) as [V|V].
  - destruct (owner_look h r W V) as (o & oq' & _ & E' & B & _). congruence.
  - (* dangling reference: root stays there *)
    assert (olook h r = None) as N by (apply nth_error_None; exact V).
    assert (forall f, root A f h r = r) as Hr by (intros [|f]; cbn [root]; [reflexivity|rewrite N; reflexivity]).
    unfold CatModel.owner in E. rewrite Hr in E. congruence.
Qed.

Lemma delitem_inv h r n h' : wf h -> delitem A h r n = Ok h' ->
  exists oq, olook h (owner h r) = Some oq /\ o_base oq = None /\ amem (o_hard oq) n = false /\ amem (o_over oq) n = true /\
    h' = put A h (owner h r) (with_over A oq (adel (o_over oq) n)).
Proof.
  intros W H. unfold delitem in H. destruct (olook h (owner h r)) as [oq|] eqn:E; [|discriminate].
  destruct (negb _); [discriminate|]. destruct (amem (o_hard oq) n) eqn:Eh; [discriminate|].
  destruct (amem (o_over oq) n) eqn:Eo; [|discriminate]. injection H as <-. exists oq. repeat split; auto.
  destruct (Nat.ltb_spec r (length (objs h))) as [V|V].
  - destruct (owner_look h r W V) as (o & oq' & _ & E' & B & _). congruence.
  - assert (olook h r = None) as N by (apply nth_error_None; exact V).
    assert (forall f, root A f h r = r) as Hr by (intros [|f]; cbn [root]; [reflexivity|rewrite N; reflexivity]).
    unfold CatModel.owner in E. rewrite Hr in E. congruence.
Qed.

(* attrs_ref keeps everything but creates the dictionary *)
Lemma attrs_ref_inv h r d h' : wf h -> attrs_ref A h r = Some (d, h') ->
  wf h' /\ keeps h h' /\ live h r /\ length (objs h') = length (objs h) /\ length (dicts h) <= length (dicts h') /\
  d < length (dicts h') /\
  (forall r', attrs h' r' = attrs h r') /\
  (forall r' o, olook h' r' = Some o -> r' <> r -> olook h r' = Some o) /\
  (exists o, olook h' r = Some o /\ o_attrs o = Some d).
Proof.
  intros W H. pose proof W as [W1 W2 W3]. unfold attrs_ref in H. destruct (olook h r) as [o|] eqn:E; [|discriminate].
  destruct (o_attrs o) as [d0|] eqn:Ea.
  - injection H as <- <-. split; [exact W|]. split; [apply keeps_refl|]. split; [apply live_look; eauto|].
    split; [reflexivity|]. split; [lia|]. split; [eapply W3; eassumption|]. split; [reflexivity|]. split; [auto|].
    exists o. auto.
  - injection H as <- <-.
    set (h' := {| CatModel.objs := replace (objs h) r (with_attrs A o (Some (length (dicts h)))); CatModel.dicts := dicts h ++ [[]] |}).
    assert (V : r < length (objs h)) by (apply live_look; eauto).
    assert (HL : forall r', olook h' r' = if r' =? r then Some (with_attrs A o (Some (length (dicts h)))) else olook h r').
    { intros r'. unfold CatModel.olook, h'. cbn [CatModel.objs]. rewrite nth_error_replace.
      destruct (r' =? r); [|reflexivity]. destruct (Nat.ltb_spec r (length (objs h))); [reflexivity|lia]. }
    assert (HD : length (dicts h') = S (length (dicts h))) by (unfold h'; cbn; rewrite app_length; simpl; lia).
    assert (HK : keeps h h').
    { intros r' x E'. rewrite HL. destruct (Nat.eqb_spec r' r) as [->|]; [|exists x; auto 7].
      exists (with_attrs A o (Some (length (dicts h)))). assert (x = o) as -> by congruence. cbn. auto 7. }
    assert (W' : wf h').
    { constructor.
      - intros r' x b. rewrite HL. intros Hx B.
        assert (exists ox, olook h r' = Some ox /\ o_base ox = Some b /\ o_over ox = o_over x /\ o_hard ox = o_hard x /\ o_dflt ox = o_dflt x) as (ox & Ex & Bx & Ox & Hhx & Dx).
        { destruct (Nat.eqb_spec r' r) as [->|Hr]; [injection Hx as <-; exists o; auto 6|exists x; auto 6]. }
        destruct (W1 r' ox b Ex Bx) as (L & O & ob & Eb & H1 & H2). split; [exact L|]. split; [congruence|].
        destruct (HK b ob Eb) as (ob' & Eb' & _ & _ & _ & H3 & H4). exists ob'. split; [exact Eb'|]. split; congruence.
      - intros r' x. rewrite HL. destruct (Nat.eqb_spec r' r) as [->|Hr].
        + intros Hx B. injection Hx as <-. apply (W2 r o E B).
        + intros Hx B. apply (W2 _ _ Hx B).
      - intros r' x d. rewrite HL, HD. destruct (Nat.eqb_spec r' r) as [->|Hr].
        + intros Hx B. injection Hx as <-. cbn in B. injection B as <-. lia.
        + intros Hx B. specialize (W3 _ _ _ Hx B). lia. }
    split; [exact W'|]. split; [exact HK|]. split; [exact V|]. split; [unfold h'; cbn; apply replace_length|].
    split; [lia|]. split; [lia|]. split; [|split].
    + intros r'. unfold CatModel.attrs. rewrite HL. destruct (Nat.eqb_spec r' r) as [->|Hr].
      * rewrite E, Ea. cbn. unfold dict_of, h'. cbn. rewrite app_nth2, Nat.sub_diag by lia. reflexivity.
      * destruct (olook h r') as [x|] eqn:Ex; [|reflexivity]. destruct (o_attrs x) as [d|] eqn:Ed; [|reflexivity].
        unfold dict_of, h'. cbn. rewrite app_nth1; [reflexivity|]. apply (W3 _ _ _ Ex Ed).
    + intros r' x. rewrite HL. destruct (Nat.eqb_spec r' r); [congruence|auto].
    + exists (with_attrs A o (Some (length (dicts h)))). rewrite HL, Nat.eqb_refl. auto.
Qed.

Lemma from_columns_inv sz cols hard dflt a o : from_columns A sz cols hard dflt a = Ok o ->
  o_base o = None /\ o_size o = sz /\ o_hard o = hard /\ o_dflt o = dflt /\ o_attrs o = a /\
  o_over o = fold_left (fun d c => aset d (fst c) (snd c)) cols [] /\ sized sz cols /\ sized sz (o_over o).
Proof.
  unfold from_columns. destruct (forallb (fun c => length (snd c) =? sz) cols) eqn:F; [|discriminate].
  intros H. injection H as <-. cbn. rewrite forallb_forall in F.
  assert (S : sized sz cols).
  { intros k v Hin. specialize (F _ Hin). cbn in F. apply Nat.eqb_eq in F. exact F. }
  repeat split; auto.
  assert (forall l d, sized sz l -> sized sz d -> sized sz (fold_left (fun d c => aset d (fst c) (snd c)) l d)) as G.
  { induction l as [|[k v] l IH]; intros d Sl Sd; [exact Sd|]. cbn [fold_left fst snd]. apply IH.
    - intros a0 b0 H0. apply (Sl a0). right; exact H0.
    - apply sized_aset; [exact Sd|]. apply (Sl k). left; reflexivity. }
  apply G; [exact S|]. intros k v [].
Qed.

(* class columns of an object have the size of its owner *)
Lemma hard_sized h r o : wf h -> olook h r = Some o -> sized (size h r) (o_hard o).
Proof.
  intros W E. assert (V : live h r) by (apply live_look; eauto).
  destruct (owner_look h r W V) as (o' & oq & E' & Eq & B & H1 & H2).
  assert (o' = o) as -> by congruence. rewrite (size_eq h r _ oq eq_refl Eq), <- H1.
  apply (wf_size h W _ _ Eq B).
Qed.

(* get and columns in terms of the owner *)
Lemma get_layered h r oq n : olook h (owner h r) = Some oq ->
  get h r n = layered (aget (o_over oq) n) (aget (o_hard oq) n) (aget (o_dflt oq) n) (o_size oq).
Proof.
  intros E. unfold CatModel.get, layered. rewrite E.
  destruct (aget (o_over oq) n); [reflexivity|]. destruct (aget (o_hard oq) n); [reflexivity|].
  destruct (aget (o_dflt oq) n); reflexivity.
Qed.

Lemma columns_spec h r : wf h -> live h r ->
  StronglySorted lt (columns h r) /\ forall n, In n (columns h r) <-> is_ok (get h r n) = true.
Proof.
  intros W V. destruct (owner_look h r W V) as (o & oq & _ & E & _).
  rewrite <- (app_nil_l (columns h r)). unfold CatModel.columns. rewrite E. cbn [app].
  split; [apply sorted_set_sorted|]. intros n. rewrite sorted_set_in, !in_app_iff, <- !amem_keys.
  rewrite (get_layered h r oq n E). unfold layered, amem.
  destruct (aget (o_over oq) n), (aget (o_hard oq) n), (aget (o_dflt oq) n); simpl; intuition congruence.
Qed.

Lemma get_sized h r n v b : wf h -> live h r -> get h r n = Ok (v, b) -> length v = size h r.
Proof.
  intros W V. destruct (owner_look h r W V) as (o & oq & _ & E & B & _).
  rewrite (get_layered h r oq n E), (size_eq h r _ oq eq_refl E). unfold layered.
  destruct (wf_size h W _ _ E B) as [S1 S2].
  destruct (aget (o_over oq) n) eqn:E1; [intros H; injection H as <- <-; apply (S1 n), aget_in, E1|].
  destruct (aget (o_hard oq) n) eqn:E2; [intros H; injection H as <- <-; apply (S2 n), aget_in, E2|].
  destruct (aget (o_dflt oq) n); [|discriminate]. intros H. injection H as <- <-. apply repeat_length.
Qed.

Lemma all_columns_filter h r (keep : list A * bool -> bool) (f : list A -> list A) :
  map (fun c => (fst c, f (fst (snd c)))) (filter (fun c => keep (snd c)) (all_columns A h r)) =
  flat_map (fun n => match (match get h r n with Ok v => if keep v then Some (f (fst v)) else None | Err _ => None end) with
                     | Some v => [(n, v)] | None => [] end) (columns h r).
Proof.
  unfold all_columns. induction (columns h r) as [|n l IH]; [reflexivity|].
  cbn [flat_map]. rewrite filter_app, map_app, IH. f_equal.
  destruct (get h r n) as [v|]; [|reflexivity]. cbn [filter snd]. destruct (keep v); reflexivity.
Qed.
Lemma all_columns_map h r (f : list A -> list A) :
  map (fun c => (fst c, f (fst (snd c)))) (all_columns A h r) =
  flat_map (fun n => match (match get h r n with Ok v => Some (f (fst v)) | Err _ => None end) with
                     | Some v => [(n, v)] | None => [] end) (columns h r).
Proof.
  unfold all_columns. induction (columns h r) as [|n l IH]; [reflexivity|].
  cbn [flat_map]. rewrite map_app, IH. f_equal. destruct (get h r n) as [v|]; reflexivity.
Qed.

Lemma existsb_eqb n l : existsb (Nat.eqb n) l = true <-> In n l.
Proof.
  rewrite existsb_exists. split; [intros (x & H & E); apply Nat.eqb_eq in E; congruence|].
  intros H. exists n. split; [exact H|apply Nat.eqb_refl].
Qed.
Lemma existsb_columns h r n : wf h -> live h r -> existsb (Nat.eqb n) (columns h r) = is_ok (get h r n).
Proof.
  intros W V. destruct (columns_spec h r W V) as [_ H]. specialize (H n). rewrite <- existsb_eqb in H.
  destruct (existsb (Nat.eqb n) (columns h r)), (is_ok (get h r n)); intuition congruence.
Qed.

Lemma owner_new (h : heap) o ds : wf {| CatModel.objs := objs h ++ [o]; CatModel.dicts := ds |} -> o_base o = None ->
  owner {| CatModel.objs := objs h ++ [o]; CatModel.dicts := ds |} (length (objs h)) = length (objs h).
Proof.
  intros W B. set (h' := {| CatModel.objs := _; CatModel.dicts := _ |}) in *.
  assert (V : live h' (length (objs h))) by (unfold live, h'; cbn; rewrite app_length; simpl; lia).
  apply (rootof_fun h' (length (objs h))); [apply owner_rootof; auto|].
  apply (ro_here h' _ o); [|exact B]. unfold h'. rewrite look_app, Nat.eqb_refl. reflexivity.
Qed.

Lemma from_columns_build sz (F : nat -> option (list A)) names hard dflt a :
  (forall n v, F n = Some v -> length v = sz) ->
  exists o', from_columns A sz (flat_map (fun n => match F n with Some v => [(n, v)] | None => [] end) names) hard dflt a = Ok o' /\
    o_base o' = None /\ o_size o' = sz /\ o_hard o' = hard /\ o_dflt o' = dflt /\ o_attrs o' = a /\ sized sz (o_over o') /\
    (forall n, aget (o_over o') n = if existsb (Nat.eqb n) names then F n else None).
Proof.
  intros HF. set (cols := flat_map _ names).
  assert (forallb (fun c => length (snd c) =? sz) cols = true) as HB.
  { apply forallb_forall. intros [k v] Hin. apply in_flat_map in Hin. destruct Hin as (n & _ & Hin).
    destruct (F n) as [w|] eqn:EF; [|destruct Hin]. destruct Hin as [Hin|[]]. injection Hin as <- <-.
    apply Nat.eqb_eq, (HF n _ EF). }
  destruct (from_columns A sz cols hard dflt a) as [o'|e] eqn:E.
  - destruct (from_columns_inv _ _ _ _ _ _ E) as (H1 & H2 & H3 & H4 & H5 & H6 & H7 & H8).
    exists o'. repeat split; auto. intros n. rewrite H6. unfold cols. rewrite aget_build.
    destruct (existsb (Nat.eqb n) names); [|reflexivity]. destruct (F n); reflexivity.
  - unfold from_columns in E. rewrite HB in E. discriminate.
Qed.

(* ---------- slices ---------- *)
Lemma slice_ok h r i rows sz : wf h -> live h r -> i <> IEllipsis -> resolve (size h r) i = Ok (rows, sz) ->
  exists o o', olook h r = Some o /\ slice A h r i = Ok (add A h o') /\
    o_base o' = None /\ o_size o' = Z.to_nat sz /\ o_hard o' = map (fun c => (fst c, select (snd c) rows)) (o_hard o) /\
    o_dflt o' = o_dflt o /\ o_attrs o' = o_attrs o /\ sized (Z.to_nat sz) (o_over o') /\
    (forall n, aget (o_over o') n = match get h r n with Ok (v, false) => Some (select v rows) | _ => None end).
Proof.
  intros W V Hi HR. destruct (resolve_ok _ _ _ _ HR) as [HL HF].
  assert (Hsel : forall v : list A, length v = size h r -> length (select v rows) = Z.to_nat sz).
  { intros v Hv. rewrite select_length; [unfold zlen in HL; lia|]. eapply Forall_impl; [|exact HF].
    unfold in_range, zlen. cbv beta. intros; lia. }
  pose proof V as V'. apply live_look in V'. destruct V' as [o E].
  set (F := fun n => match get h r n with Ok v => if negb (snd v) then Some (select (fst v) rows) else None | Err _ => None end).
  destruct (from_columns_build (Z.to_nat sz) F (columns h r) (map (fun c => (fst c, select (snd c) rows)) (o_hard o)) (o_dflt o) (o_attrs o))
    as (o' & E' & H1 & H2 & H3 & H4 & H5 & H6 & H7).
  { intros n v EF. unfold F in EF. destruct (get h r n) as [[w d]|] eqn:EG; [|discriminate]. cbn [snd fst] in EF.
    destruct d; [discriminate|]. injection EF as <-. apply Hsel. eapply get_sized; eassumption. }
  exists o, o'. unfold F in E'; cbv beta in E'. repeat split; auto.
  - unfold slice. rewrite E. destruct i; [congruence| | |]; rewrite HR; cbn [rbind];
      rewrite (all_columns_filter h r (fun v => negb (snd v)) (fun v => select v rows)); rewrite E'; reflexivity.
  - intros n. rewrite H7, existsb_columns by assumption. unfold F. destruct (get h r n) as [[v [|]]|]; reflexivity.
Qed.

Lemma aget_map {V W : Type} (f : V -> W) (d : list (nat * V)) n :
  aget (map (fun c => (fst c, f (snd c))) d) n = match aget d n with Some v => Some (f v) | None => None end.
Proof. induction d as [|[k v] d IH]; cbn [map aget fst snd]; [reflexivity|]. destruct (n =? k); [reflexivity|exact IH]. Qed.

Lemma wf_slice h r i rows sz o' o : wf h -> live h r -> resolve (size h r) i = Ok (rows, sz) ->
  olook h r = Some o -> o_base o' = None -> o_size o' = Z.to_nat sz ->
  o_hard o' = map (fun c => (fst c, select (snd c) rows)) (o_hard o) -> o_attrs o' = o_attrs o ->
  sized (Z.to_nat sz) (o_over o') -> wf (snd (add A h o')).
Proof.
  intros W V HR E H1 H2 H3 H5 H6. cbn [add snd]. apply wf_add; auto.
  - congruence.
  - intros _. rewrite H2, H3. split; [exact H6|]. intros k v Hin. apply in_map_iff in Hin. destruct Hin as ([k0 v0] & Heq & Hin).
    cbn [fst snd] in Heq. injection Heq as <- <-. destruct (resolve_ok _ _ _ _ HR) as [HL HF].
    rewrite select_length; [unfold zlen in HL; lia|]. eapply Forall_impl; [|exact HF].
    unfold in_range, zlen. cbv beta. rewrite (hard_sized h r o W E k0 v0 Hin). intros; lia.
  - intros d Hd. rewrite H5 in Hd. apply (wf_attrs h W r o d E Hd).
Qed.

(* full description of a slice *)
Lemma slice_spec h r i r' h' : wf h -> live h r -> i <> IEllipsis -> slice A h r i = Ok (r', h') ->
  wf h' /\ keeps h h' /\ live h' r' /\ ~ live h r' /\ columns h' r' = columns h r /\
  (forall n, match get h r n with
             | Ok (v, false) => exists v', numpy_index i v = Ok v' /\ length v' = size h' r' /\ get h' r' n = Ok (v', false)
             | Ok (v, true) => exists c, v = repeat c (size h r) /\ get h' r' n = Ok (repeat c (size h' r'), true)
             | Err e => get h' r' n = Err e
             end) /\
  (exists u, numpy_index i (repeat tt (size h r)) = Ok u /\ length u = size h' r') /\
  attrs h' r' = attrs h r.
Proof.
  intros W V Hi HS. destruct (resolve (size h r) i) as [[rows sz]|e] eqn:HR.
  2:{ exfalso. unfold slice in HS. destruct (olook h r); [|destruct i; congruence]. destruct i; [congruence| | |]; rewrite HR in HS; discriminate. }
  destruct (slice_ok h r i rows sz W V Hi HR) as (o & o' & E & ES & H1 & H2 & H3 & H4 & H5 & H6 & H7).
  rewrite ES in HS. unfold add in HS. assert (h' = snd (add A h o')) as -> by (unfold add; cbn [snd]; congruence). assert (r' = length (objs h)) as -> by congruence.
  clear HS. pose proof (wf_slice h r i rows sz o' o W V HR E H1 H2 H3 H5 H6) as W'. cbn [add snd] in *.
  set (h' := {| CatModel.objs := objs h ++ [o']; CatModel.dicts := dicts h |}) in *.
  assert (EO : owner h' (length (objs h)) = length (objs h)) by (apply owner_new; assumption).
  assert (EL : olook h' (length (objs h)) = Some o') by (unfold h'; rewrite look_app, Nat.eqb_refl; reflexivity).
  assert (ESZ : size h' (length (objs h)) = Z.to_nat sz) by (rewrite (size_eq h' _ _ o' EO EL); exact H2).
  assert (V' : live h' (length (objs h))) by (unfold live, h'; cbn; rewrite app_length; simpl; lia).
  destruct (resolve_ok _ _ _ _ HR) as [HL HF].
  assert (Hsel : forall (B : Type) (v : list B), length v = size h r -> length (select v rows) = Z.to_nat sz).
  { intros B v Hv. rewrite select_length; [unfold zlen in HL; lia|]. eapply Forall_impl; [|exact HF].
    unfold in_range, zlen. cbv beta. intros; lia. }
  assert (HG : forall n, match get h r n with
             | Ok (v, false) => exists v', numpy_index i v = Ok v' /\ length v' = size h' (length (objs h)) /\ get h' (length (objs h)) n = Ok (v', false)
             | Ok (v, true) => exists c, v = repeat c (size h r) /\ get h' (length (objs h)) n = Ok (repeat c (size h' (length (objs h))), true)
             | Err e => get h' (length (objs h)) n = Err e
             end).
  { intros n. rewrite ESZ.
    assert (EG : get h' (length (objs h)) n = layered (aget (o_over o') n) (aget (o_hard o') n) (aget (o_dflt o') n) (o_size o')).
    { apply get_layered. rewrite EO. exact EL. }
    rewrite EG, H7, H2, H3, H4, (aget_map (fun x => select x rows) (o_hard o) n).
    destruct (owner_look h r W V) as (x & oq & Ex & Eq & B & HH & HD). assert (x = o) as -> by congruence.
    pose proof (get_layered h r oq n Eq) as GL. rewrite HH, HD in GL.
    rewrite (size_eq h r _ oq eq_refl Eq).
    destruct (get h r n) as [[v d]|e] eqn:EGn.
    - destruct d.
      + unfold layered in GL. destruct (aget (o_over oq) n); [discriminate|]. destruct (aget (o_hard o) n); [discriminate|].
        destruct (aget (o_dflt o) n) as [c|]; [|discriminate]. injection GL as ->. exists c. split; reflexivity.
      + exists (select v rows). split; [|split].
        * apply (resolve_numpy (size h r) i rows sz); [exact HR|]. eapply get_sized; eassumption.
        * apply Hsel. eapply get_sized; eassumption.
        * reflexivity.
    - unfold layered in *. destruct (aget (o_over oq) n); [discriminate|]. destruct (aget (o_hard o) n); [discriminate|].
      destruct (aget (o_dflt o) n); [discriminate|]. exact (eq_sym GL). }
  split; [exact W'|]. split; [apply keeps_add|]. split; [exact V'|]. split; [unfold live; lia|].
  split.
  { destruct (columns_spec h r W V) as [S1 C1]. destruct (columns_spec h' _ W' V') as [S2 C2].
    apply sorted_lt_ext; auto. intros n. rewrite C1, C2. specialize (HG n).
    destruct (get h r n) as [[v [|]]|e].
    - destruct HG as (c & _ & ->). cbn. tauto.
    - destruct HG as (v' & _ & _ & ->). cbn. tauto.
    - rewrite HG. cbn. tauto. }
  split; [exact HG|]. split.
  - exists (select (repeat tt (size h r)) rows). split.
    + apply (resolve_numpy (size h r) i rows sz); [exact HR|apply repeat_length].
    + rewrite ESZ. apply Hsel, repeat_length.
  - unfold CatModel.attrs. rewrite E, EL, H5. reflexivity.
Qed.

(* slicing fails only when numpy indexing fails *)
Lemma slice_fails h r i e : wf h -> live h r -> slice A h r i = Err e ->
  forall (B : Type) (col : list B), length col = size h r -> numpy_index i col = Err e.
Proof.
  intros W V H B col HL. destruct i as [|a b s|m|l] eqn:Ei; [discriminate| | |]; rewrite <- Ei in *;
  (assert (i <> IEllipsis) as Hi by congruence);
  (destruct (resolve (size h r) i) as [[rows sz]|e'] eqn:HR;
   [destruct (slice_ok h r i rows sz W V Hi HR) as (o & o' & _ & ES & _); congruence|]);
  (assert (e' = e) as -> by (apply live_look in V; destruct V as [o E]; unfold slice in H; rewrite E in H; rewrite Ei in H, HR; rewrite HR in H; cbn [rbind] in H; congruence));
  eapply resolve_fails; eassumption.
Qed.

(* ---------- copies, views, column selections ---------- *)
Lemma keeps_dict h (o : obj) ds : keeps h {| CatModel.objs := objs h ++ [o]; CatModel.dicts := ds |}.
Proof. apply keeps_add. Qed.

Lemma copy_spec h r r' h' : wf h -> live h r -> copy A h r = Ok (r', h') ->
  wf h' /\ keeps h h' /\ live h' r' /\ ~ live h r' /\
  (forall n, get h' r' n = match get h r n with Ok (v, _) => Ok (v, false) | Err e => Err e end) /\
  columns h' r' = columns h r /\ size h' r' = size h r /\ attrs h' r' = attrs h r /\
  (forall x, live h x -> attrs h' x = attrs h x) /\
  (exists o' d, olook h' r' = Some o' /\ o_attrs o' = Some d /\ ~ d < length (dicts h) /\ o_base o' = None).
Proof.
  intros W V HC. unfold copy in HC. destruct (olook h r) as [o|] eqn:E; [|discriminate].
  destruct (o_attrs o) as [d|] eqn:Ea; [|discriminate]. unfold add_dict in HC.
  rewrite (all_columns_map h r (fun v => v)) in HC.
  set (F := fun n => match get h r n with Ok v => Some (fst v) | Err _ => None end).
  destruct (from_columns_build (size h r) F (columns h r) (o_hard o) (o_dflt o) (Some (length (dicts h))))
    as (o' & E' & H1 & H2 & H3 & H4 & H5 & H6 & H7).
  { intros n v EF. unfold F in EF. destruct (get h r n) as [[w b]|] eqn:EG; [|discriminate]. injection EF as <-.
    eapply get_sized; eassumption. }
  unfold F in E'; cbv beta in E'. rewrite E' in HC. cbn [rbind] in HC. unfold add in HC. cbn [CatModel.objs CatModel.dicts] in HC.
  set (hh := {| CatModel.objs := objs h ++ [o']; CatModel.dicts := dicts h ++ [dict_of A h d] |}) in HC.
  assert (h' = hh) as -> by congruence. assert (r' = length (objs h)) as -> by congruence. clear HC.
  assert (W' : wf hh).
  { apply wf_add; auto.
    - rewrite app_length. simpl. lia.
    - congruence.
    - intros _. rewrite H2, H3. split; [exact H6|apply (hard_sized h r o W E)].
    - intros d0 Hd0. rewrite app_length. simpl. assert (d0 = length (dicts h)) by congruence. lia. }
  assert (EO : owner hh (length (objs h)) = length (objs h)) by (apply owner_new; assumption).
  assert (EL : olook hh (length (objs h)) = Some o') by (unfold hh; rewrite look_app, Nat.eqb_refl; reflexivity).
  assert (ESZ : size hh (length (objs h)) = size h r) by (rewrite (size_eq hh _ _ o' EO EL); exact H2).
  assert (V' : live hh (length (objs h))) by (unfold live, hh; cbn; rewrite app_length; simpl; lia).
  assert (HG : forall n, get hh (length (objs h)) n = match get h r n with Ok (v, _) => Ok (v, false) | Err e => Err e end).
  { intros n. rewrite (get_layered hh _ o' n) by (rewrite EO; exact EL).
    rewrite H7, existsb_columns by assumption. rewrite H2, H3, H4. unfold F.
    destruct (owner_look h r W V) as (x & oq & Ex & Eq & B & HH & HD). assert (x = o) as -> by congruence.
    pose proof (get_layered h r oq n Eq) as GL. rewrite HH, HD in GL.
    destruct (get h r n) as [[v b]|e]; [reflexivity|]. cbn [is_ok]. unfold layered in *.
    destruct (aget (o_over oq) n); [discriminate|]. destruct (aget (o_hard o) n); [discriminate|].
    destruct (aget (o_dflt o) n); [discriminate|]. congruence. }
  split; [exact W'|]. split; [apply keeps_add|]. split; [exact V'|]. split; [unfold live; lia|]. split; [exact HG|].
  split.
  { destruct (columns_spec h r W V) as [S1 C1]. destruct (columns_spec hh _ W' V') as [S2 C2].
    apply sorted_lt_ext; auto. intros n. rewrite C1, C2, HG. destruct (get h r n) as [[v b]|]; cbn; tauto. }
  split; [exact ESZ|]. split; [|split].
  - unfold CatModel.attrs. rewrite E, EL, H5, Ea. unfold dict_of, hh. cbn. rewrite app_nth2, Nat.sub_diag by lia. reflexivity.
  - intros x Vx. unfold CatModel.attrs. unfold hh at 1. rewrite look_app. unfold live in Vx.
    destruct (Nat.eqb_spec x (length (objs h))); [lia|].
    destruct (olook h x) as [ox|] eqn:Ex; [|reflexivity]. destruct (o_attrs ox) as [dx|] eqn:Ed; [|reflexivity].
    unfold dict_of, hh. cbn. rewrite app_nth1; [reflexivity|]. apply (wf_attrs h W x ox dx Ex Ed).
  - exists o', (length (dicts h)). repeat split; auto. lia.
Qed.

Lemma view_spec h r r' h' : wf h -> live h r -> view A h r = Ok (r', h') ->
  wf h' /\ keeps h h' /\ live h' r' /\ ~ live h r' /\ owner h' r' = owner h r /\
  (forall n, get h' r' n = get h r n) /\ columns h' r' = columns h r /\ size h' r' = size h r /\ attrs h' r' = attrs h r /\
  (forall x, live h x -> attrs h' x = attrs h x).
Proof.
  intros W V HV. unfold view in HV. destruct (olook h r) as [o|] eqn:E; [|discriminate]. unfold add in HV.
  set (o' := {| CatModel.o_base := Some r; CatModel.o_size := size h r; CatModel.o_over := []; CatModel.o_hard := o_hard o;
                CatModel.o_dflt := o_dflt o; CatModel.o_attrs := o_attrs o |}) in HV.
  set (hh := {| CatModel.objs := objs h ++ [o']; CatModel.dicts := dicts h |}) in HV.
  assert (h' = hh) as -> by congruence. assert (r' = length (objs h)) as -> by congruence. clear HV.
  assert (W' : wf hh).
  { apply wf_add; auto.
    - intros b Hb. assert (b = r) as -> by (cbn in Hb; congruence). split; [reflexivity|]. exists o. auto.
    - cbn. discriminate.
    - intros d Hd. cbn in Hd. apply (wf_attrs h W r o d E Hd). }
  assert (EL : olook hh (length (objs h)) = Some o') by (unfold hh; rewrite look_app, Nat.eqb_refl; reflexivity).
  assert (V' : live hh (length (objs h))) by (unfold live, hh; cbn; rewrite app_length; simpl; lia).
  assert (K : keeps h hh) by apply keeps_add.
  assert (EO : owner hh (length (objs h)) = owner h r).
  { apply (rootof_fun hh (length (objs h))); [apply owner_rootof; auto|].
    apply (ro_base hh _ o' r); [exact EL|reflexivity|].
    apply (rootof_same h hh); [apply keeps_same, K|apply owner_rootof; auto]. }
  assert (EO2 : owner hh (length (objs h)) = owner hh r).
  { rewrite EO. symmetry. apply owner_same; auto. apply keeps_same, K. }
  assert (forall n, get hh (length (objs h)) n = get hh r n /\ columns hh (length (objs h)) = columns hh r /\ size hh (length (objs h)) = size hh r) as HG.
  { intros n. unfold CatModel.get, CatModel.columns, CatModel.size. rewrite EO2. auto. }
  split; [exact W'|]. split; [exact K|]. split; [exact V'|]. split; [unfold live; lia|]. split; [exact EO|].
  split; [intros n; destruct (HG n) as (-> & _); apply (keeps_get h hh r n W W' K V)|].
  split; [destruct (HG 0) as (_ & -> & _); apply (keeps_get h hh r 0 W W' K V)|].
  split; [destruct (HG 0) as (_ & _ & ->); apply (keeps_get h hh r 0 W W' K V)|].
  split.
  - unfold CatModel.attrs. rewrite E, EL. reflexivity.
  - intros x Vx. unfold CatModel.attrs. unfold hh at 1. rewrite look_app. unfold live in Vx.
    destruct (Nat.eqb_spec x (length (objs h))); [lia|reflexivity].
Qed.

Lemma select_spec h r names r' h' : wf h -> live h r -> names <> [] -> select_columns A base_dflt h r names = Ok (r', h') ->
  wf h' /\ keeps h h' /\ live h' r' /\ ~ live h r' /\
  (forall n, get h' r' n =
     if existsb (Nat.eqb n) names then match get h r n with Ok (v, _) => Ok (v, false) | Err e => Err e end
     else match aget base_dflt n with Some c => Ok (repeat c (size h r), true) | None => Err KeyError end) /\
  (forall n, In n names -> is_ok (get h r n) = true) /\
  size h' r' = size h r /\ attrs h' r' = attrs h r /\ (forall x, live h x -> attrs h' x = attrs h x) /\
  (exists o' d, olook h' r' = Some o' /\ o_attrs o' = Some d /\ (forall x ox, live h x -> olook h' x = Some ox -> o_attrs ox <> Some d) /\ o_base o' = None).
Proof.
  intros W V Hn HS.
  set (cond := forallb (fun n => existsb (Nat.eqb n) (columns h r)) names) in *.
  set (cols := flat_map (fun n => match get h r n with Ok v => [(n, fst v)] | Err _ => [] end) names).
  assert (HS' : (if negb cond then Err KeyError else
      match attrs_ref A h r with
      | None => Err AttributeError
      | Some (d, h) =>
          let '(d', h') := add_dict A h (dict_of A h d) in
          let! o' := from_columns A (size h r) cols [] base_dflt (Some d') in
          Ok (add A h' o')
      end) = Ok (r', h')).
  { rewrite <- HS. destruct names; [congruence|reflexivity]. }
  clear HS. rename HS' into HS.
  destruct cond eqn:EC; [cbn [negb] in HS|discriminate].
  assert (HIN : forall n, In n names -> is_ok (get h r n) = true).
  { intros n Hin. unfold cond in EC. rewrite forallb_forall in EC. specialize (EC n Hin).
    rewrite existsb_columns in EC by assumption. exact EC. }
  destruct (attrs_ref A h r) as [[d h1]|] eqn:EA; [|discriminate]. unfold add_dict in HS.
  destruct (attrs_ref_inv h r d h1 W EA) as (W1 & K1 & _ & L1 & D1 & Dd & HA1 & Hother & (or & Eor & Aor)).
  set (F := fun n => match get h r n with Ok v => Some (fst v) | Err _ => None end).
  assert (Ecols : cols = flat_map (fun n => match F n with Some v => [(n, v)] | None => [] end) names).
  { unfold cols, F. clear. induction names as [|n l IH]; [reflexivity|]. cbn [flat_map]. rewrite IH. destruct (get h r n); reflexivity. }
  rewrite Ecols in HS.
  assert (V1 : live h1 r) by (unfold live in *; lia).
  destruct (keeps_get h h1 r 0 W W1 K1 V) as (_ & _ & ES1).
  destruct (from_columns_build (size h1 r) F names [] base_dflt (Some (length (dicts h1))))
    as (o' & E' & H1 & H2 & H3 & H4 & H5 & H6 & H7).
  { intros n v EF. unfold F in EF. destruct (get h r n) as [[w b]|] eqn:EG; [|discriminate]. injection EF as <-.
    rewrite ES1. eapply get_sized; eassumption. }
  rewrite E' in HS. cbn [rbind] in HS. unfold add in HS. cbn [CatModel.objs CatModel.dicts] in HS.
  set (hh := {| CatModel.objs := objs h1 ++ [o']; CatModel.dicts := dicts h1 ++ [dict_of A h1 d] |}) in HS.
  assert (h' = hh) as -> by congruence. assert (r' = length (objs h1)) as -> by congruence. clear HS.
  assert (W' : wf hh).
  { apply wf_add; auto.
    - rewrite app_length. simpl. lia.
    - congruence.
    - intros _. rewrite H2, H3. split; [exact H6|]. intros k v [].
    - intros d0 Hd0. rewrite app_length. simpl. assert (d0 = length (dicts h1)) by congruence. lia. }
  assert (EO : owner hh (length (objs h1)) = length (objs h1)) by (apply owner_new; assumption).
  assert (EL : olook hh (length (objs h1)) = Some o') by (unfold hh; rewrite look_app, Nat.eqb_refl; reflexivity).
  assert (ESZ : size hh (length (objs h1)) = size h r) by (rewrite (size_eq hh _ _ o' EO EL); congruence).
  assert (V' : live hh (length (objs h1))) by (unfold live, hh; cbn; rewrite app_length; simpl; lia).
  split; [exact W'|]. split; [eapply keeps_trans; [exact K1|apply keeps_add]|]. split; [exact V'|]. split; [unfold live; lia|].
  split; [|split; [exact HIN|]].
  - intros n. rewrite (get_layered hh _ o' n) by (rewrite EO; exact EL).
    rewrite H7, H2, H3, H4, ES1. unfold F.
    destruct (existsb (Nat.eqb n) names) eqn:En; [|unfold layered; cbn [aget]; destruct (aget base_dflt n); reflexivity].
    apply existsb_eqb in En. specialize (HIN n En). destruct (get h r n) as [[v b]|]; [reflexivity|discriminate].
  - split; [exact ESZ|]. split; [|split].
    + unfold CatModel.attrs. rewrite EL, H5. unfold dict_of at 1. unfold hh at 1. cbn. rewrite app_nth2, Nat.sub_diag by lia. cbn.
      specialize (HA1 r). unfold CatModel.attrs in HA1. rewrite Eor, Aor in HA1. exact HA1.
    + intros x Vx. rewrite <- HA1. unfold CatModel.attrs. unfold hh at 1. rewrite look_app. unfold live in Vx.
      destruct (Nat.eqb_spec x (length (objs h1))); [lia|].
      destruct (olook h1 x) as [ox|] eqn:Ex; [|reflexivity]. destruct (o_attrs ox) as [dx|] eqn:Ed; [|reflexivity].
      unfold dict_of, hh. cbn. rewrite app_nth1; [reflexivity|]. apply (wf_attrs h1 W1 x ox dx Ex Ed).
    + exists o', (length (dicts h1)). repeat split; auto. intros x ox Vx. unfold hh. rewrite look_app. unfold live in Vx.
      destruct (Nat.eqb_spec x (length (objs h1))); [lia|]. intros Ex Ed. pose proof (wf_attrs h1 W1 x ox _ Ex Ed). lia.
Qed.
End Cat.
