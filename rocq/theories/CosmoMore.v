From Coq Require Import String QArith Qcanon Qround.
From Verif Require Import Base Num CosmoModel CosmoSpec CosmoProofs.
Local Open Scope nat_scope.

(* ---- the conflict table against the quantities ---- *)
Definition members (q : quantity) : list key :=
  match q with
  | QHubble => [h; H0; theta_s100]
  | QPhotons => [T_cmb; Omega_g; omega_g; Omega0_g]
  | QBaryons => [Omega_b; omega_b; Omega0_b]
  | QFluid => [Omega_fld; Omega0_fld]
  | QLambda => [Omega_Lambda; Omega0_Lambda]
  | QUr => [N_ur; Omega_ur; omega_ur; Omega0_ur]
  | QCdm => [Omega_cdm; omega_cdm; Omega0_cdm]
  | QNcdm => [m_ncdm; Omega_ncdm; omega_ncdm; Omega0_ncdm]
  | QCurvature => []
  | QKmax => [P_k_max; P_k_max_h_Mpc; P_k_max_1_Mpc]
  | QZmax => [P_z_max; z_max_pk]
  | QNonlinear => [nonlinear; non_linear]
  | QAmplitude => [A_s; ln10_10_A_s]
  end.

Lemma eqcls_spec a : find_eqcls a =
  if orphan a then [] else match quantity_of a with Some q => members q | None => [] end.
Proof. destruct a; try reflexivity; destruct m; reflexivity. Qed.

Lemma in_members q b : In b (members q) <-> quantity_of b = Some q /\ orphan b = false /\ q <> QCurvature.
Proof.
  split.
  - intros H. destruct q; cbn in H;
      repeat (destruct H as [H|H]; [subst b; repeat split; discriminate|]); destruct H.
  - intros (H1 & H2 & H3). destruct q; try congruence;
      destruct b; try discriminate; cbn; tauto.
Qed.

Lemma eqcls_iff a b : In b (find_eqcls a) <->
  orphan a = false /\ orphan b = false /\ quantity_of a <> None /\ quantity_of a <> Some QCurvature /\ quantity_of a = quantity_of b.
Proof.
  rewrite eqcls_spec. destruct (orphan a) eqn:Eo; [split; [intros []|intros (C & _); discriminate]|].
  destruct (quantity_of a) as [q|] eqn:Eq.
  - rewrite in_members. split.
    + intros (H1 & H2 & H3). repeat split; try congruence.
    + intros (_ & H2 & _ & H3 & H4). repeat split; congruence.
  - split; [intros []|intros (_ & _ & C & _); congruence].
Qed.

Lemma rivals_eqcls a b : orphan a = false -> orphan b = false -> (rivals a b <-> a <> b /\ In b (find_eqcls a)).
Proof.
  intros Ha Hb. rewrite eqcls_iff. unfold rivals. split.
  - intros (H1 & H2 & H3). repeat split; try assumption. intros C. rewrite C in H3.
    destruct a; try discriminate C; try discriminate Ha; destruct b; try discriminate H3; try discriminate Hb; congruence.
  - intros (H1 & _ & _ & H2 & _ & H3). repeat split; assumption.
Qed.

Lemma in_table a b : In b (find_eqcls a) -> In a (List.concat CONFLICTS).
Proof.
  intros H. apply eqcls_iff in H. destruct H as (Ho & _ & Hq & Hc & _).
  destruct a; try discriminate Ho; try (exfalso; apply Hq; reflexivity); try (exfalso; apply Hc; reflexivity);
    cbn; tauto.
Qed.

Lemma memk_iff k l : memk k l = true <-> In k l.
Proof.
  unfold memk. rewrite existsb_exists. split.
  - intros (x & Hx & E). apply key_eqb_true in E. now subst.
  - intros H. exists k. split; [assumption|apply key_eqb_refl].
Qed.

Lemma has_iff d k : has d k = true <-> d k <> None.
Proof. unfold has. destruct (d k); split; congruence. Qed.

Lemma popped_iff more k : popped more k = true <-> exists n, more n <> None /\ In k (find_eqcls n).
Proof.
  unfold popped. rewrite existsb_exists. split.
  - intros (n & _ & E). apply andb_prop in E. destruct E as [E1 E2].
    exists n. split; [now apply has_iff|now apply memk_iff].
  - intros (n & H1 & H2). exists n. split; [now apply (in_table n k)|].
    apply andb_true_intro. split; [now apply has_iff|now apply memk_iff].
Qed.

Lemma check_iff args : check_args args = Ok tt <->
  forall a b, args a <> None -> args b <> None -> a <> b -> ~ In b (find_eqcls a).
Proof.
  unfold check_args. destruct (existsb _ _) eqn:E.
  - split; [discriminate|]. intros H. exfalso.
    apply existsb_exists in E. destruct E as (a & _ & E). apply andb_prop in E. destruct E as [Ha E].
    apply has_iff in Ha. unfold conflict_of in E.
    destruct (filter _ (find_eqcls a)) as [|b l] eqn:Ef; [discriminate|].
    assert (Hb : In b (filter (fun eq => negb (key_eqb eq a) && has args eq) (find_eqcls a))) by (rewrite Ef; left; reflexivity).
    apply filter_In in Hb. destruct Hb as [Hb1 Hb2]. apply andb_prop in Hb2. destruct Hb2 as [Hb2 Hb3].
    apply has_iff in Hb3. apply (H a b Ha Hb3); [|assumption].
    intros ->. rewrite key_eqb_refl in Hb2. discriminate.
  - split; [|reflexivity]. intros _ a b Ha Hb Hne Hin.
    rewrite <- not_true_iff_false in E. apply E. apply existsb_exists. exists a.
    split; [now apply (in_table a b)|]. apply andb_true_intro. split; [now apply has_iff|].
    assert (Hf : In b (conflict_of args a)).
    { unfold conflict_of. apply filter_In. split; [assumption|].
      rewrite key_eqb_ne by congruence. cbn [negb andb]. now apply has_iff. }
    destruct (conflict_of args a); [destruct Hf|reflexivity].
Qed.

Lemma check_err args : check_args args = Ok tt \/ check_args args = Err ValueError.
Proof. unfold check_args. destruct (existsb _ _); auto. Qed.

Lemma check_refuses args a b :
  orphan a = false -> orphan b = false -> args a <> None -> args b <> None -> rivals a b ->
  check_args args = Err ValueError.
Proof.
  intros Oa Ob Ha Hb R. destruct (check_err args) as [E|E]; [|assumption].
  exfalso. apply rivals_eqcls in R; [|assumption..]. destruct R as [R1 R2].
  exact (proj1 (check_iff args) E a b Ha Hb R1 R2).
Qed.

(* ---- compiled dictionaries ---- *)
Lemma clean_none o : clean o <> Some VNone.
Proof. destruct o as [[]|]; discriminate. Qed.
Lemma clean_some o v : clean o = Some v -> o = Some v.
Proof. destruct o as [[]|]; cbn; congruence. Qed.
Lemma clean_id o : o <> Some VNone -> clean o = o.
Proof. destruct o as [[]|]; cbn; congruence. Qed.

Lemma compile_class args p :
  compile_args args = Ok p -> args output <> Some VNone -> args extra_metric <> Some VNone -> class_pars p.
Proof.
  intros H Ho He. destruct (proj1 (compile_pt args) p H) as (Hm & Hg & Hl & Hp).
  split.
  - intros k. rewrite Hp. destruct k; cbn [F A1 clean class_name]; intros C; try congruence; split; (reflexivity || discriminate).
  - intros k. rewrite Hp. apply clean_none.
  - rewrite !Hp. cbn [F A1]. split.
    + destruct (args output) as [[]|]; cbn; congruence.
    + destruct (args extra_metric) as [[]|]; cbn; congruence.
  - intros v Hv. rewrite Hp in Hv. apply clean_some in Hv. cbn [F] in Hv.
    unfold mass_ok in Hm. destruct (args m_ncdm) as [w|] eqn:Em; [|discriminate].
    destruct Hm as (l & El & Hz & Hn & Hlen). rewrite El in Hv.
    exists l. destruct l as [|x l]; [discriminate|]. injection Hv as <-.
    split; [reflexivity|]. split; [discriminate|]. split; [assumption|].
    rewrite !Hp. cbn [F]. rewrite Em, El. split; [reflexivity|].
    destruct (args N_ur) as [n|] eqn:En; [|congruence].
    assert (Hcase : n = VNone \/ n <> VNone) by (destruct n; [left; reflexivity|right..]; discriminate).
    destruct Hcase as [-> |Hc].
    + specialize (Hlen eq_refl). destruct (nth_error N_ur_table (List.length (x :: l))) as [q|] eqn:Eq.
      * discriminate.
      * apply nth_error_None in Eq. cbn [N_ur_table List.length] in Eq, Hlen. lia.
    + destruct n; cbn; congruence.
  - intros v Hv. rewrite Hp in Hv. apply clean_some in Hv. cbn [F A1] in Hv. now apply Hg.
  - intros Hf. rewrite Hp. cbn [F].
    assert (Hh : has args w0_fld || has args wa_fld = true).
    { apply orb_true_intro. destruct Hf as [Hf|Hf]; [left|right]; apply has_iff; intros C; apply Hf;
        rewrite Hp; cbn [F A1]; rewrite C; reflexivity. }
    rewrite Hh. reflexivity.
  - intros v Hv. rewrite Hp in Hv. apply clean_some in Hv. cbn [F] in Hv.
    destruct (orelse _ _) as [w|]; [|discriminate]. destruct (truthy w); congruence.
Qed.

Lemma class_alias_none p : class_pars p -> forall k, class_name k <> k -> p k = None.
Proof.
  intros H k Hk. destruct (p k) eqn:E; [|reflexivity].
  exfalso. apply Hk. apply (cp_names p H k). congruence.
Qed.
Lemma class_verbose_none p : class_pars p -> p verbose = None.
Proof.
  intros H. destruct (p verbose) eqn:E; [|reflexivity].
  exfalso. apply (proj2 (cp_names p H verbose ltac:(congruence))). reflexivity.
Qed.

(* what class parameters compile to, for args that agree with them at a name *)
Lemma compile_fix p : class_pars p -> exists p', compile_args p = Ok p' /\ same_dict p' p.
Proof.
  intros H. destruct (proj2 (compile_pt p)) as (p' & E).
  - unfold mass_ok. destruct (p m_ncdm) as [v|] eqn:Em; [|exact I].
    destruct (cp_ncdm p H v Em) as (l & -> & Hl & Hz & _ & Hn).
    exists l. split; [reflexivity|]. split; [assumption|]. split; [assumption|].
    intros C. exfalso. exact (cp_none p H N_ur C).
  - intros v Hv. exact (cp_gauge p H v Hv).
  - intros Hf. apply orb_prop in Hf.
    assert (HL : p Omega_Lambda = Some (VNum 0)).
    { apply (cp_fluid p H). destruct Hf as [Hf|Hf]; [left|right]; now apply has_iff. }
    cbn [A1]. rewrite HL. cbn [orelse positive].
    destruct (Qclt_le_dec 0 0) as [C|C]; [exfalso; revert C; apply Qcle_not_lt; apply Qcle_refl|reflexivity].
  - exists p'. split; [assumption|]. intros k.
    rewrite (proj2 (proj2 (proj2 (proj1 (compile_pt p) p' E))) k).
    assert (Hal : forall k, class_name k <> k -> p k = None) by now apply class_alias_none.
    assert (Hn : forall k, clean (p k) = p k) by (intros; apply clean_id, (cp_none p H)).
    destruct k; cbn [F A1];
      rewrite ?(Hal T0_cmb), ?(Hal Omega0_cdm), ?(Hal Omega0_b), ?(Hal Omega0_k), ?(Hal Omega0_ur),
        ?(Hal Omega_lambda), ?(Hal Omega0_lambda), ?(Hal Omega0_Lambda), ?(Hal Omega0_fld),
        ?(Hal Omega0_ncdm), ?(Hal Omega0_g), ?(Hal P_k_max), ?(Hal P_z_max), ?(Hal nonlinear) by discriminate;
      try (match goal with |- clean (orelse (p ?x) None) = _ =>
             replace (orelse (p x) None) with (p x) by (destruct (p x); reflexivity) end);
      try apply Hn; try reflexivity.
    + (* Omega_Lambda *)
      destruct (has p w0_fld || has p wa_fld) eqn:Hf.
      * rewrite (cp_fluid p H); [reflexivity|]. apply orb_prop in Hf.
        destruct Hf as [Hf|Hf]; [left|right]; now apply has_iff.
      * replace (orelse (p Omega_Lambda) (orelse None (orelse None None))) with (p Omega_Lambda)
          by (destruct (p Omega_Lambda); reflexivity). apply Hn.
    + (* N_ur *)
      destruct (p N_ur) as [v|] eqn:En; [|reflexivity].
      assert (v <> VNone) by (intros ->; exact (cp_none p H N_ur En)).
      destruct v; cbn; congruence.
    + (* m_ncdm *)
      destruct (p m_ncdm) as [v|] eqn:Em; [|reflexivity].
      destruct (cp_ncdm p H v Em) as (l & -> & Hl & _). cbn [mass_list]. destruct l; [congruence|reflexivity].
    + (* N_ncdm *)
      destruct (p m_ncdm) as [v|] eqn:Em; [|apply Hn].
      destruct (cp_ncdm p H v Em) as (l & -> & _ & _ & -> & _). reflexivity.
    + (* non_linear *)
      destruct (p non_linear) as [v|] eqn:E1; [|reflexivity].
      rewrite (cp_nonlin p H v E1). reflexivity.
    + now rewrite (class_verbose_none p H).
    + destruct (cp_output p H) as [Ho _]. destruct (p output) as [v|] eqn:E1; [|congruence].
      cbn [orelse]. apply clean_id. rewrite <- E1. apply (cp_none p H).
    + destruct (cp_output p H) as [_ Ho]. destruct (p extra_metric) as [v|] eqn:E1; [|congruence].
      cbn [orelse]. apply clean_id. rewrite <- E1. apply (cp_none p H).
    + unfold verbose_on. rewrite (class_verbose_none p H). apply Hn.
Qed.

Lemma A1_ext a b k : same_dict a b -> A1 a k = A1 b k.
Proof. intros H. destruct k; cbn [A1]; rewrite ?H; reflexivity. Qed.
Lemma has_ext a b k : same_dict a b -> has a k = has b k.
Proof. intros H. unfold has. now rewrite H. Qed.
Lemma F_ext a b k : same_dict a b -> F a k = F b k.
Proof.
  intros H. destruct k; cbn [F]; unfold verbose_on; rewrite ?(H verbose), ?(H m_ncdm), ?(H N_ncdm), ?(H N_ur),
    ?(H non_linear), ?(H nonlinear), ?(H P_k_max_h_Mpc), ?(H P_k_max), ?(H z_max_pk), ?(H P_z_max),
    ?(has_ext a b _ H), ?(A1_ext a b _ H); try reflexivity. rewrite ?H. reflexivity.
Qed.
Lemma compile_ext a b p : same_dict a b -> compile_args a = Ok p -> exists q, compile_args b = Ok q /\ same_dict q p.
Proof.
  intros H E. destruct (proj1 (compile_pt a) p E) as (Hm & Hg & Hl & Hp).
  destruct (proj2 (compile_pt b)) as (q & Eq).
  - unfold mass_ok in *. rewrite <- (H m_ncdm), <- (H N_ur). assumption.
  - unfold gauge_ok in *. now rewrite <- (H gauge).
  - unfold lambda_ok in *. now rewrite <- (A1_ext a b _ H), <- !(has_ext a b _ H).
  - exists q. split; [assumption|]. intros k.
    rewrite (proj2 (proj2 (proj2 (proj1 (compile_pt b) q Eq))) k), Hp. f_equal. symmetry. now apply F_ext.
Qed.

(* ---- merge ---- *)
Lemma merge_given p kw k v : kw k = Some v -> merge_args p kw k = Some v.
Proof. intros H. unfold merge_args, update. now rewrite H. Qed.
Lemma merge_popped p kw k n : kw k = None -> kw n <> None -> In k (find_eqcls n) -> merge_args p kw k = None.
Proof.
  intros H Hn Hin. unfold merge_args, update. rewrite H.
  now rewrite (proj2 (popped_iff kw k) (ex_intro _ n (conj Hn Hin))).
Qed.
Lemma merge_kept p kw k : kw k = None -> (forall n, kw n <> None -> ~ In k (find_eqcls n)) -> merge_args p kw k = p k.
Proof.
  intros H Hn. unfold merge_args, update. rewrite H. destruct (popped kw k) eqn:E; [|reflexivity].
  apply popped_iff in E. destruct E as (n & H1 & H2). exfalso. exact (Hn n H1 H2).
Qed.
Lemma merge_absent p kw k : kw k = None -> p k = None -> merge_args p kw k = None.
Proof. intros H Hp. unfold merge_args, update. rewrite H. destruct (popped kw k); [reflexivity|assumption]. Qed.

Lemma clone_inv p kw p' : clone p kw = Ok p' ->
  check_args (merge_args p kw) = Ok tt /\ compile_args (merge_args p kw) = Ok p'.
Proof.
  unfold clone. cbv zeta. destruct (check_args _) as [[]|]; cbn [rbind]; [auto|discriminate].
Qed.

(* every name of the same class as a given one, other than it, is absent from args *)
Lemma merge_rival p kw k v k' : check_args (merge_args p kw) = Ok tt ->
  kw k = Some v -> k <> k' -> In k' (find_eqcls k) -> merge_args p kw k' = None.
Proof.
  intros Hc Hk Hne Hin. destruct (merge_args p kw k') eqn:E; [|reflexivity].
  exfalso. refine (proj1 (check_iff _) Hc k k' _ _ Hne Hin); [|congruence].
  rewrite (merge_given p kw k v Hk). discriminate.
Qed.

Lemma alias_eqcls k : orphan k = false -> class_name k <> k -> In (class_name k) (find_eqcls k).
Proof. destruct k; cbn; intros H1 H2; try discriminate H1; try congruence; tauto. Qed.

(* ---- the theorems about clone ---- *)
Lemma clone_sets p kw p' k v :
  clone p kw = Ok p' -> kw k = Some v ->
  orphan k = false -> translated k = false ->
  (k = N_ur -> v <> VNone) ->
  (class_name k = Omega_Lambda -> forall f, f = w0_fld \/ f = wa_fld -> kw f = None /\ p f = None) ->
  p' (class_name k) = given v.
Proof.
  intros Hc Hk Ho Ht HN HL. apply clone_inv in Hc. destruct Hc as [Hchk Hcmp].
  destruct (proj1 (compile_pt _) p' Hcmp) as (_ & _ & _ & Hp). rewrite Hp.
  set (args := merge_args p kw) in *.
  assert (Hak : args k = Some v) by now apply merge_given.
  assert (Hcn : class_name k <> k -> args (class_name k) = None).
  { intros Hne. apply (merge_rival p kw k v _ Hchk Hk); [congruence|]. now apply alias_eqcls. }
  assert (Hgiven : clean (Some v) = given v) by (destruct v; reflexivity).
  assert (HLam : class_name k = Omega_Lambda -> has args w0_fld || has args wa_fld = false).
  { intros E. apply orb_false_intro.
    - unfold has, args. destruct (HL E w0_fld (or_introl eq_refl)) as [H1 H2]. now rewrite merge_absent.
    - unfold has, args. destruct (HL E wa_fld (or_intror eq_refl)) as [H1 H2]. now rewrite merge_absent. }
  destruct k; try discriminate Ho; try discriminate Ht; cbn [class_name F A1] in *;
    try (rewrite Hcn by discriminate); rewrite ?Hak; cbn [orelse]; try assumption;
    try (rewrite HLam by reflexivity; cbn [A1]; rewrite ?Hcn by discriminate; rewrite ?Hak; assumption).
  - (* N_ur *) specialize (HN eq_refl). destruct v; cbn; congruence.
  - (* verbose *) destruct (verbose_on args); assumption.
Qed.

Lemma clone_translated p kw p' v : clone p kw = Ok p' ->
  (kw m_ncdm = Some v ->
     exists l, mass_list v = Ok l /\ ~ In 0%Qc l /\
       p' m_ncdm = match l with [] => None | _ => Some (VList l) end /\
       p' N_ncdm = Some (VNum (zq (Z.of_nat (List.length l))))) /\
  (kw nonlinear = Some v \/ kw non_linear = Some v ->
     p' non_linear = if truthy v then Some (VStr "halofit") else None) /\
  (kw w0_fld <> None \/ kw wa_fld <> None -> p' Omega_Lambda = Some (VNum 0)).
Proof.
  intros Hc. apply clone_inv in Hc. destruct Hc as [Hchk Hcmp].
  destruct (proj1 (compile_pt _) p' Hcmp) as (Hm & _ & _ & Hp).
  set (args := merge_args p kw) in *. split; [|split].
  - intros Hk. rewrite !Hp. cbn [F]. assert (Ha : args m_ncdm = Some v) by now apply merge_given.
    unfold mass_ok in Hm. rewrite Ha in *. destruct Hm as (l & El & Hz & _).
    exists l. rewrite El. split; [reflexivity|]. split; [assumption|]. split; [destruct l; reflexivity|reflexivity].
  - intros Hk. rewrite Hp. cbn [F].
    assert (Hv : orelse (args non_linear) (args nonlinear) = Some v).
    { destruct Hk as [Hk|Hk].
      - unfold args. rewrite (merge_rival p kw nonlinear v non_linear Hchk Hk) by (discriminate || (cbn; tauto)).
        cbn [orelse]. now apply merge_given.
      - unfold args. now rewrite (merge_given p kw non_linear v Hk). }
    rewrite Hv. destruct (truthy v); reflexivity.
  - intros Hf. rewrite Hp. cbn [F].
    assert (Hh : has args w0_fld || has args wa_fld = true).
    { apply orb_true_intro. destruct Hf as [Hf|Hf]; [left|right]; apply has_iff; unfold args.
      - destruct (kw w0_fld) eqn:E; [|congruence]. rewrite (merge_given _ _ _ _ E). discriminate.
      - destruct (kw wa_fld) eqn:E; [|congruence]. rewrite (merge_given _ _ _ _ E). discriminate. }
    rewrite Hh. reflexivity.
Qed.

Lemma clone_conflicts_gone p kw p' k k' :
  class_pars p -> clone p kw = Ok p' ->
  (forall o, orphan o = true -> kw o = None) ->
  kw k <> None -> rivals k k' -> k' <> class_name k -> p' k' = None.
Proof.
  intros Hcp Hc Horph Hk R Hcn. apply clone_inv in Hc. destruct Hc as [Hchk Hcmp].
  destruct (proj1 (compile_pt _) p' Hcmp) as (_ & _ & _ & Hp). rewrite Hp.
  set (args := merge_args p kw) in *.
  destruct (kw k) as [v|] eqn:Ek; [|congruence].
  assert (Ok_ : orphan k = false).
  { destruct (orphan k) eqn:E; [|reflexivity]. rewrite (Horph k E) in Ek. discriminate. }
  assert (Hor : forall o, orphan o = true -> args o = None).
  { intros o Ho. unfold args. apply merge_absent; [now apply Horph|].
    apply class_alias_none; [assumption|]. destruct o; try discriminate Ho; discriminate. }
  assert (Hriv : forall x, k <> x -> quantity_of x = quantity_of k -> args x = None).
  { intros x Hne Hq. destruct (orphan x) eqn:Ex; [now apply Hor|].
    unfold args. apply (merge_rival p kw k v x Hchk Ek Hne).
    apply rivals_eqcls; [assumption..|]. destruct R as (_ & R2 & R3). repeat split; congruence. }
  destruct R as (R1 & R2 & R3).
  assert (Hr : forall x, quantity_of x = quantity_of k' -> class_name x = k' -> args x = None).
  { intros x Hq Hx. apply Hriv; [|congruence]. intros ->. congruence. }
  assert (Hr' : args k' = None) by (apply Hriv; congruence).
  clear Hriv. destruct k'; cbn [quantity_of] in R3; try congruence; cbn [F A1];
    rewrite ?Hr'; cbn [orelse clean]; try reflexivity;
    try (rewrite Hr by reflexivity; reflexivity).
  (* Omega_Lambda: its only rival in the table is an alias of it *)
  exfalso. destruct k; try discriminate R3; try discriminate Ok_; cbn in Hcn; congruence.
Qed.

Lemma clone_keeps p kw p' k :
  class_pars p -> clone p kw = Ok p' ->
  (forall n, kw n <> None -> n <> k /\ ~ rivals n k) ->
  (k = N_ncdm -> kw m_ncdm = None) ->
  (k = Omega_Lambda -> kw w0_fld = None /\ kw wa_fld = None) ->
  (forall m, k = x_verbose m -> kw verbose = None) ->
  p' k = p k.
Proof.
  intros Hcp Hc Hun H1 H2 H3. apply clone_inv in Hc. destruct Hc as [Hchk Hcmp].
  destruct (proj1 (compile_pt _) p' Hcmp) as (Hmass & _ & _ & Hp). rewrite Hp.
  set (args := merge_args p kw) in *.
  assert (Hkw : kw k = None).
  { destruct (kw k) eqn:E; [|reflexivity]. exfalso. destruct (Hun k); [congruence|]. congruence. }
  assert (Hak : args k = p k).
  { unfold args. apply merge_kept; [assumption|]. intros n Hn Hin.
    destruct (Hun n Hn) as [Hne Hr]. apply Hr.
    destruct (proj1 (eqcls_iff n k) Hin) as (Ho1 & Ho2 & _).
    apply rivals_eqcls; auto. }
  assert (Hal : forall x, class_name x <> x -> quantity_of x <> None -> quantity_of x = quantity_of k -> args x = None).
  { intros x Hx Hq1 Hq2. destruct (key_eq_dec x k) as [-> |Hne].
    - rewrite Hak. now apply class_alias_none.
    - unfold args. apply merge_absent; [|now apply class_alias_none].
      destruct (kw x) eqn:Ex; [|reflexivity]. exfalso.
      destruct (Hun x) as [_ Hr]; [congruence|]. apply Hr. repeat split; congruence. }
  assert (Hn : clean (p k) = p k) by (apply clean_id, (cp_none p Hcp)).
  destruct (class_name k) eqn:Ecn;
    (destruct k; try discriminate Ecn; cbn [F A1] in *;
     try (rewrite (class_alias_none p Hcp) by discriminate; reflexivity);
     rewrite ?Hak; try assumption;
     try (rewrite (Hal T0_cmb) by (reflexivity || discriminate));
     try (rewrite (Hal Omega0_cdm) by (reflexivity || discriminate));
     try (rewrite (Hal Omega0_b) by (reflexivity || discriminate));
     try (rewrite (Hal Omega0_k) by (reflexivity || discriminate));
     try (rewrite (Hal Omega0_ur) by (reflexivity || discriminate));
     try (rewrite (Hal Omega0_fld) by (reflexivity || discriminate));
     try (rewrite (Hal Omega0_ncdm) by (reflexivity || discriminate));
     try (rewrite (Hal Omega0_g) by (reflexivity || discriminate));
     try (rewrite (Hal P_k_max) by (reflexivity || discriminate));
     try (rewrite (Hal P_z_max) by (reflexivity || discriminate));
     try (rewrite (Hal nonlinear) by (reflexivity || discriminate));
     try (match goal with |- clean (orelse (p ?x) None) = _ => destruct (p x); exact Hn end)).
  - (* Omega_Lambda *)
    destruct (H2 eq_refl) as [Hw Ha].
    assert (Hw' : merge_args p kw w0_fld = p w0_fld).
    { apply merge_kept; [assumption|]. intros n _ Hin. destruct (proj1 (eqcls_iff n w0_fld) Hin) as (_ & _ & C1 & _ & C2). cbn [quantity_of] in C2. congruence. }
    assert (Ha' : merge_args p kw wa_fld = p wa_fld).
    { apply merge_kept; [assumption|]. intros n _ Hin. destruct (proj1 (eqcls_iff n wa_fld) Hin) as (_ & _ & C1 & _ & C2). cbn [quantity_of] in C2. congruence. }
    assert (Hhw : has args w0_fld = has p w0_fld) by (unfold has, args; now rewrite Hw').
    assert (Hha : has args wa_fld = has p wa_fld) by (unfold has, args; now rewrite Ha').
    rewrite Hhw, Hha.
    destruct (has p w0_fld || has p wa_fld) eqn:Hf.
    + rewrite (cp_fluid p Hcp); [reflexivity|]. apply orb_prop in Hf.
      destruct Hf as [Hf|Hf]; [left|right]; now apply has_iff.
    + rewrite (Hal Omega0_Lambda), (Hal Omega0_lambda), (Hal Omega_lambda) by (reflexivity || discriminate).
      destruct (p Omega_Lambda); exact Hn.
  - (* N_ur *)
    destruct (p N_ur) as [v|] eqn:En; [|reflexivity].
    assert (v <> VNone) by (intros ->; exact (cp_none p Hcp N_ur En)).
    destruct v; cbn; congruence.
  - (* m_ncdm *)
    destruct (p m_ncdm) as [v|] eqn:Em; [|reflexivity].
    destruct (cp_ncdm p Hcp v Em) as (l & -> & Hl & _). cbn [mass_list]. destruct l; [congruence|reflexivity].
  - (* N_ncdm *)
    destruct (args m_ncdm) as [v|] eqn:Em; [|assumption].
    assert (Epm : p m_ncdm = Some v).
    { unfold args, merge_args, update in Em. rewrite (H1 eq_refl) in Em. destruct (popped kw m_ncdm); congruence. }
    destruct (cp_ncdm p Hcp v Epm) as (l & -> & _ & _ & -> & _). reflexivity.
  - (* non_linear *)
    destruct (p non_linear) as [v|] eqn:E1; [|reflexivity].
    cbn [orelse]. rewrite (cp_nonlin p Hcp v E1). reflexivity.
  - now rewrite (class_verbose_none p Hcp).
  - destruct (cp_output p Hcp) as [Ho _]. destruct (p output) as [v|] eqn:E1; [|congruence]. exact Hn.
  - destruct (cp_output p Hcp) as [_ Ho]. destruct (p extra_metric) as [v|] eqn:E1; [|congruence]. exact Hn.
  - unfold verbose_on. unfold args at 1. rewrite merge_absent; [exact Hn| |now apply class_verbose_none].
    now apply (H3 m).
Qed.
