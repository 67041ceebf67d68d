From Coq Require Import String QArith Qcanon Qround Permutation.
From Verif Require Import Base Num CosmoModel CosmoSpec CosmoProofs CosmoMore.
Local Open Scope nat_scope.

Lemma init_new user p : cosmology_init user = Ok p -> cosmology_new user = Ok p.
Proof. unfold cosmology_init. destruct (has user H0); [destruct (existsb _ _); discriminate|auto]. Qed.
Lemma init_new_iff user : user H0 = None -> cosmology_init user = cosmology_new user.
Proof. intros H. unfold cosmology_init, has. rewrite H. reflexivity. Qed.
Lemma named_all k : k <> H0 -> (forall n, k <> KOther n) -> In k named_keys.
Proof. intros H1 H2. destruct k; try (exfalso; apply H1; reflexivity); try (exfalso; eapply H2; reflexivity); try (destruct m); vm_compute; tauto. Qed.
Lemma init_mixed user k : user H0 <> None -> user k <> None -> k <> H0 -> (forall n, k <> KOther n) -> cosmology_init user = Err ValueError.
Proof.
  intros A B C D. unfold cosmology_init, has at 1. destruct (user H0); [|congruence]. assert (E : existsb (has user) named_keys = true); [|rewrite E; reflexivity].
  apply existsb_exists. exists k. split; [exact (named_all k C D)|]. unfold has. destruct (user k); [reflexivity|congruence].
Qed.
Lemma consistent_check d : consistent d -> check_args d = Ok tt.
Proof.
  intros H. apply check_iff. intros a b Ha Hb Hne Hin.
  apply (H a b Ha Hb). destruct (proj1 (eqcls_iff a b) Hin) as (O1 & O2 & _).
  apply rivals_eqcls; auto.
Qed.

Lemma merge_empty p : same_dict p (merge_args p empty).
Proof.
  intros k. symmetry. apply merge_kept; [reflexivity|]. intros n C. exfalso. apply C. reflexivity.
Qed.

Lemma clone_identity p : class_pars p -> consistent p ->
  exists p', clone p empty = Ok p' /\ same_dict p' p.
Proof.
  intros Hp Hc. destruct (compile_fix p Hp) as (p1 & E1 & S1).
  destruct (compile_ext p (merge_args p empty) p1 (merge_empty p) E1) as (p2 & E2 & S2).
  exists p2. split.
  - unfold clone. cbv zeta. rewrite consistent_check; [exact E2|].
    intros a b Ha Hb. rewrite <- (merge_empty p) in Ha, Hb. now apply Hc.
  - intros k. rewrite S2. apply S1.
Qed.

Lemma clone_closed p kw p' : class_pars p -> clone p kw = Ok p' ->
  kw output <> Some VNone -> kw extra_metric <> Some VNone -> class_pars p'.
Proof.
  intros Hp Hc H1 H2. apply clone_inv in Hc. destruct Hc as [_ Hc].
  apply (compile_class _ _ Hc); unfold merge_args, update.
  - destruct (kw output) eqn:E; [congruence|]. destruct (popped kw output); [discriminate|]. apply (cp_none p Hp).
  - destruct (kw extra_metric) eqn:E; [congruence|]. destruct (popped kw extra_metric); [discriminate|]. apply (cp_none p Hp).
Qed.

(* where a parameter of a compiled dictionary comes from *)
Lemma compiled_source args p a : compile_args args = Ok p -> p a <> None -> quantity_of a <> None -> a <> Omega_Lambda ->
  exists a0, args a0 <> None /\ class_name a0 = a /\ quantity_of a0 = quantity_of a.
Proof.
  intros E Ha Hq Hl. rewrite (proj2 (proj2 (proj2 (proj1 (compile_pt args) p E))) a) in Ha.
  assert (two : forall x y, clean (orelse (args x) (args y)) <> None -> args x <> None \/ args y <> None).
  { intros x y. destruct (args x); [left; discriminate|]. destruct (args y); [right; discriminate|]. cbn. congruence. }
  assert (one : forall x, clean (args x) <> None -> args x <> None).
  { intros x. destruct (args x); [discriminate|]. cbn. congruence. }
  destruct a; cbn [quantity_of] in Hq; try congruence; cbn [F A1] in Ha;
    try (exfalso; apply Ha; reflexivity);
    try (apply two in Ha; destruct Ha as [Ha|Ha];
         match type of Ha with args ?x <> _ => exists x; split; [assumption|split; reflexivity] end);
    try (apply one in Ha; match type of Ha with args ?x <> _ => exists x; split; [assumption|split; reflexivity] end).
  - exists N_ur. split; [|split; reflexivity]. destruct (args N_ur); [discriminate|]. exfalso. apply Ha. reflexivity.
  - exists m_ncdm. split; [|split; reflexivity]. destruct (args m_ncdm); [discriminate|]. exfalso. apply Ha. reflexivity.
  - assert (Hx : args non_linear <> None \/ args nonlinear <> None).
    { destruct (args non_linear); [left; discriminate|]. destruct (args nonlinear); [right; discriminate|].
      exfalso. apply Ha. reflexivity. }
    destruct Hx as [Hx|Hx]; [exists non_linear|exists nonlinear]; split; (assumption || split; reflexivity).
Qed.

Lemma compiled_class_name args p a : compile_args args = Ok p -> p a <> None -> class_name a = a.
Proof.
  intros E Ha. rewrite (proj2 (proj2 (proj2 (proj1 (compile_pt args) p E))) a) in Ha.
  destruct a; cbn [F A1 clean class_name] in *; congruence.
Qed.

Lemma compiled_consistent args p : compile_args args = Ok p -> check_args args = Ok tt ->
  (forall o, orphan o = true -> args o = None) -> consistent p.
Proof.
  intros E Hchk Ho a b Ha Hb (R1 & R2 & R3).
  assert (Na := compiled_class_name _ _ a E Ha). assert (Nb := compiled_class_name _ _ b E Hb).
  assert (HLa : a <> Omega_Lambda).
  { intros ->. destruct b; try discriminate R3; try congruence; discriminate Nb. }
  assert (HLb : b <> Omega_Lambda).
  { intros ->. destruct a; try discriminate R3; try congruence; discriminate Na. }
  destruct (compiled_source args p a E Ha R2 HLa) as (a0 & A1' & A2 & A3).
  destruct (compiled_source args p b E Hb ltac:(congruence) HLb) as (b0 & B1 & B2 & B3).
  assert (Oa : orphan a0 = false) by (destruct (orphan a0) eqn:X; [rewrite (Ho a0 X) in A1'; congruence|reflexivity]).
  assert (Ob : orphan b0 = false) by (destruct (orphan b0) eqn:X; [rewrite (Ho b0 X) in B1; congruence|reflexivity]).
  rewrite (check_refuses args a0 b0) in Hchk; try assumption; [discriminate|].
  repeat split; congruence.
Qed.

Lemma clone_consistent p kw p' : class_pars p -> clone p kw = Ok p' ->
  (forall o, orphan o = true -> kw o = None) -> consistent p'.
Proof.
  intros Hp Hc Ho. apply clone_inv in Hc. destruct Hc as [H1 H2].
  apply (compiled_consistent _ _ H2 H1). intros o Hoo. apply merge_absent; [now apply Ho|].
  apply class_alias_none; [assumption|]. destruct o; try discriminate Hoo; discriminate.
Qed.

Lemma clone_refuses p kw a b :
  orphan a = false -> orphan b = false -> kw a <> None -> kw b <> None -> rivals a b ->
  clone p kw = Err ValueError /\ cosmology_init kw = Err ValueError.
Proof.
  intros Oa Ob Ha Hb R. split.
  - unfold clone. cbv zeta. rewrite (check_refuses (merge_args p kw) a b); try assumption; [reflexivity| |].
    + destruct (kw a) eqn:E; [|congruence]. rewrite (merge_given _ _ _ _ E). discriminate.
    + destruct (kw b) eqn:E; [|congruence]. rewrite (merge_given _ _ _ _ E). discriminate.
  - assert (NO : forall k n, quantity_of k <> None -> k <> KOther n) by (intros k n Q ->; apply Q; reflexivity). destruct R as (R1 & R2 & R3).
    destruct (kw H0) eqn:E0.
    + destruct (key_eq_dec a H0) as [->|NA].
      * apply (init_mixed kw b); [congruence|exact Hb|congruence|intros n; apply NO; congruence].
      * apply (init_mixed kw a); [congruence|exact Ha|exact NA|intros n; apply NO; exact R2].
    + rewrite init_new_iff by exact E0. unfold cosmology_new. cbv zeta. rewrite (check_refuses kw a b); [reflexivity|assumption..|split; [exact R1|split; assumption]].
Qed.

(* plain keyword arguments that do not contradict each other are always accepted *)
Lemma clone_total p kw : class_pars p -> consistent p -> consistent kw ->
  (forall k, kw k <> None -> plain k = true) -> exists p', clone p kw = Ok p'.
Proof.
  intros Hp Hc Hkc Hpl.
  assert (Hpo : forall k, kw k <> None -> orphan k = false).
  { intros k Hk. specialize (Hpl k Hk). unfold plain in Hpl. destruct (orphan k); [discriminate|reflexivity]. }
  assert (Hchk : check_args (merge_args p kw) = Ok tt).
  { apply check_iff. intros a b Ha Hb Hne Hin.
    destruct (proj1 (eqcls_iff a b) Hin) as (Oa & Ob & Hqa & _ & Hq).
    assert (R : rivals a b) by (apply rivals_eqcls; auto).
    destruct (kw a) as [va|] eqn:Ea; destruct (kw b) as [vb|] eqn:Eb.
    - apply (Hkc a b); [congruence..|assumption].
    - apply Hb. apply (merge_popped p kw b a); congruence.
    - apply Ha. apply (merge_popped p kw a b); [congruence..|].
      apply rivals_eqcls; [assumption..|]. destruct R as (R1 & R2 & R3). repeat split; congruence.
    - unfold merge_args, update in Ha, Hb. rewrite Ea in Ha. rewrite Eb in Hb.
      apply (Hc a b); [destruct (popped kw a); congruence|destruct (popped kw b); congruence|assumption]. }
  assert (Hk : forall k q, quantity_of k = Some q -> q = QUr \/ q = QLambda \/ q = QNcdm -> merge_args p kw k = p k).
  { intros k q Ek Hq. apply merge_kept.
    - destruct (kw k) eqn:E; [|reflexivity]. exfalso. assert (C := Hpl k ltac:(congruence)).
      unfold plain in C. rewrite Ek in C. destruct Hq as [-> | [-> | ->]]; rewrite andb_false_r in C; discriminate.
    - intros n Hn Hin. destruct (proj1 (eqcls_iff n k) Hin) as (_ & _ & _ & _ & H). assert (C := Hpl n Hn).
      unfold plain in C. rewrite H, Ek in C. destruct Hq as [-> | [-> | ->]]; rewrite andb_false_r in C; discriminate. }
  assert (Hg : forall k, quantity_of k = None -> plain k = false -> merge_args p kw k = p k).
  { intros k Hq Hf. apply merge_kept.
    - destruct (kw k) eqn:E; [|reflexivity]. exfalso. rewrite (Hpl k) in Hf; congruence.
    - intros n Hn Hin. destruct (proj1 (eqcls_iff n k) Hin) as (_ & _ & C1 & _ & C2). congruence. }
  assert (Hno : forall o, orphan o = true -> merge_args p kw o = None).
  { intros o Hoo. apply merge_absent.
    - destruct (kw o) eqn:E; [|reflexivity]. rewrite (Hpo o) in Hoo; congruence.
    - apply class_alias_none; [assumption|]. destruct o; try discriminate Hoo; discriminate. }
  destruct (proj2 (compile_pt (merge_args p kw))) as (p' & E).
  - unfold mass_ok. rewrite (Hk m_ncdm QNcdm), (Hk N_ur QUr) by (reflexivity || tauto).
    destruct (p m_ncdm) as [v|] eqn:Em; [|exact I].
    destruct (cp_ncdm p Hp v Em) as (l & -> & Hl & Hz & _ & Hn).
    exists l. split; [reflexivity|]. split; [assumption|]. split; [assumption|].
    intros C. exfalso. exact (cp_none p Hp N_ur C).
  - intros v. rewrite Hg by reflexivity. apply (cp_gauge p Hp).
  - intros Hf. unfold has in Hf. rewrite !Hg in Hf by reflexivity.
    assert (HL : p Omega_Lambda = Some (VNum 0)).
    { apply (cp_fluid p Hp). destruct (p w0_fld); [left; discriminate|]. destruct (p wa_fld); [right; discriminate|]. discriminate. }
    cbn [A1]. rewrite (Hk Omega_Lambda QLambda), HL by (reflexivity || tauto). cbn [orelse positive].
    destruct (Qclt_le_dec 0 0) as [C|C]; [exfalso; revert C; apply Qcle_not_lt; apply Qcle_refl|reflexivity].
  - exists p'. unfold clone. cbv zeta. rewrite Hchk. exact E.
Qed.

(* ---- the constructor ---- *)
Lemma init_sets user p k v :
  cosmology_init user = Ok p -> user k = Some v -> translated k = false ->
  (k = N_ur -> v <> VNone) ->
  (forall k', user k' <> None -> ~ rivals k k') ->
  (class_name k = Omega_Lambda -> user w0_fld = None /\ user wa_fld = None) ->
  p (class_name k) = given v.
Proof.
  intros H Hk Ht HN HR HL. apply init_new in H. unfold cosmology_new in H. cbv zeta in H.
  destruct (check_args user) as [[]|]; cbn [rbind] in H; [|discriminate].
  set (args := update init_defaults user) in *.
  rewrite (proj2 (proj2 (proj2 (proj1 (compile_pt args) p H))) (class_name k)).
  assert (Hak : args k = Some v) by (unfold args, update; now rewrite Hk).
  assert (Hu : forall x, x <> k -> quantity_of k <> None -> quantity_of x = quantity_of k -> user x = None).
  { intros x Hne Hq Hx. destruct (user x) eqn:E; [|reflexivity]. exfalso.
    apply (HR x); [congruence|]. repeat split; congruence. }
  assert (Hn : forall x, x <> k -> quantity_of k <> None -> quantity_of x = quantity_of k -> init_defaults x = None -> args x = None).
  { intros x H1 H2 H3 H4. unfold args, update. rewrite (Hu x H1 H2 H3). assumption. }
  assert (Hgiven : clean (Some v) = given v) by (destruct v; reflexivity).
  assert (HLam : class_name k = Omega_Lambda -> has args w0_fld || has args wa_fld = false).
  { intros E. destruct (HL E) as [H1 H2]. unfold has, args, update. rewrite H1, H2. reflexivity. }
  destruct k; try discriminate Ht; cbn [class_name F A1] in *;
    rewrite ?Hak; cbn [orelse]; try assumption;
    try (rewrite Hn by (discriminate || reflexivity); rewrite ?Hak; cbn [orelse]; assumption);
    try (rewrite HLam by reflexivity; cbn [A1]; rewrite ?Hak;
         repeat (cbn [orelse]; first [assumption | rewrite Hn by (discriminate || reflexivity)]); rewrite ?Hak; cbn [orelse]; assumption).
  - specialize (HN eq_refl). destruct v; cbn; congruence.
  - destruct (verbose_on args); assumption.
Qed.

(* ---- match ---- *)
Lemma kw2_spec a b va vb k : a <> b ->
  set (kw1 a va) b vb k = if key_eqb k b then Some vb else if key_eqb k a then Some va else None.
Proof. reflexivity. Qed.

Lemma match_cb_ok self D c : class_pars self -> consistent self ->
  d_Omega0_cb D = (d_Omega0_b D + d_Omega0_cdm D)%Qc -> d_Omega0_cb D <> 0%Qc ->
  exists p' b cd, match_cb self D c = Ok p' /\
    p' Omega_b = Some (VNum b) /\ p' Omega_cdm = Some (VNum cd) /\
    (b + cd)%Qc = c /\ (b * d_Omega0_cdm D)%Qc = (cd * d_Omega0_b D)%Qc /\
    forall k, quantity_of k <> Some QBaryons -> quantity_of k <> Some QCdm -> p' k = self k.
Proof.
  intros Hp Hc Hcb Hnz. unfold match_cb, qdiv.
  destruct (Qc_eq_dec (d_Omega0_cb D) 0) as [C|_]; [congruence|]. cbn [rbind].
  set (rat := (c / d_Omega0_cb D)%Qc). set (kw := set _ _ _).
  assert (Hkb : kw Omega_b = Some (VNum (rat * d_Omega0_b D))) by reflexivity.
  assert (Hkc : kw Omega_cdm = Some (VNum (rat * d_Omega0_cdm D))) by reflexivity.
  assert (Hko : forall k, kw k <> None -> k = Omega_b \/ k = Omega_cdm).
  { intros k. unfold kw, kw1, set, empty. destruct (key_eqb k Omega_cdm) eqn:E1; [apply key_eqb_true in E1; auto|].
    destruct (key_eqb k Omega_b) eqn:E2; [apply key_eqb_true in E2; auto|congruence]. }
  destruct (clone_total self kw Hp Hc) as (p' & E).
  - intros a b Ha Hb (R1 & R2 & R3). apply Hko in Ha, Hb.
    destruct Ha as [-> | ->], Hb as [-> | ->]; try congruence; discriminate R3.
  - intros k Hk. apply Hko in Hk. destruct Hk as [-> | ->]; reflexivity.
  - exists p', (rat * d_Omega0_b D)%Qc, (rat * d_Omega0_cdm D)%Qc. split; [assumption|].
    split; [apply (clone_sets self kw p' Omega_b _ E Hkb); (reflexivity || discriminate)|].
    split; [apply (clone_sets self kw p' Omega_cdm _ E Hkc); (reflexivity || discriminate)|].
    split; [|split].
    + rewrite <- Qcmult_plus_distr_r, <- Hcb. unfold rat. field. assumption.
    + ring.
    + intros k H1 H2. apply (clone_keeps self kw p' k Hp E).
      * intros n Hn. apply Hko in Hn. destruct Hn as [-> | ->]; split; try (intros <-; cbn in H1, H2; congruence);
          intros (_ & _ & R); cbn in R; congruence.
      * reflexivity.
      * split; reflexivity.
      * reflexivity.
Qed.

Lemma match_m_ok self D m : class_pars self -> consistent self ->
  d_Omega0_cb D = (d_Omega0_b D + d_Omega0_cdm D)%Qc -> d_Omega0_cb D <> 0%Qc ->
  exists p' b cd, match_ self D None None (Some m) = Ok p' /\
    p' Omega_b = Some (VNum b) /\ p' Omega_cdm = Some (VNum cd) /\
    (b + cd + (d_ncdm_tot D - d_pncdm_tot D) + d_dcdm D)%Qc = m /\ (b * d_Omega0_cdm D)%Qc = (cd * d_Omega0_b D)%Qc /\
    forall k, quantity_of k <> Some QBaryons -> quantity_of k <> Some QCdm -> p' k = self k.
Proof.
  intros H1 H2 H3 H4.
  destruct (match_cb_ok self D (m - (d_ncdm_tot D - d_pncdm_tot D) - d_dcdm D)%Qc H1 H2 H3 H4)
    as (p' & b & cd & E1 & E2 & E3 & E4 & E5 & E6).
  exists p', b, cd. split; [exact E1|]. split; [exact E2|]. split; [exact E3|]. split; [rewrite E4; ring|].
  split; [exact E5|exact E6].
Qed.

Lemma match_sigma8_ok self D s : class_pars self -> consistent self -> d_sigma8 D <> 0%Qc ->
  exists p' a, match_ self D (Some s) None None = Ok p' /\ p' A_s = Some (VNum a) /\
    (a * (d_sigma8 D * d_sigma8 D))%Qc = (d_A_s D * (s * s))%Qc /\
    p' ln10_10_A_s = None /\
    forall k, quantity_of k <> Some QAmplitude -> p' k = self k.
Proof.
  intros Hp Hc Hnz. unfold match_. cbn [isome Nat.add Nat.eqb negb]. unfold qdiv.
  destruct (Qc_eq_dec (d_sigma8 D) 0) as [C|_]; [congruence|]. cbn [rbind].
  set (a := (d_A_s D * _)%Qc). set (kw := kw1 A_s (VNum a)).
  assert (Hka : kw A_s = Some (VNum a)) by reflexivity.
  assert (Hko : forall k, kw k <> None -> k = A_s).
  { intros k. unfold kw, kw1, set, empty. destruct (key_eqb k A_s) eqn:E1; [apply key_eqb_true in E1; auto|congruence]. }
  destruct (clone_total self kw Hp Hc) as (p' & E).
  - intros x y Hx Hy (R1 & _). apply Hko in Hx, Hy. congruence.
  - intros k Hk. apply Hko in Hk. subst. reflexivity.
  - exists p', a. split; [assumption|].
    split; [apply (clone_sets self kw p' A_s _ E Hka); (reflexivity || discriminate)|].
    split; [unfold a; field; assumption|]. split.
    + apply (clone_conflicts_gone self kw p' A_s ln10_10_A_s Hp E).
      * intros o Ho. destruct (kw o) eqn:Eo; [|reflexivity].
        assert (o = A_s) by (apply Hko; congruence). subst. discriminate.
      * discriminate.
      * repeat split; discriminate.
      * discriminate.
    + intros k H1. apply (clone_keeps self kw p' k Hp E); try reflexivity.
      * intros n Hn. apply Hko in Hn. subst. split; [intros <-; cbn in H1; congruence|].
        intros (_ & _ & R). cbn in R. congruence.
      * split; reflexivity.
Qed.

(* ---- astropy ---- *)
Lemma to_astropy_w c a : to_astropy c = Ok a ->
  (b_w0 c <> (- (1))%Qc \/ b_wa c = 0%Qc) ->
  astropy_w0 a = b_w0 c /\ astropy_wa a = b_wa c.
Proof.
  unfold to_astropy. intros H Hw.
  destruct (match b_m_ncdm c with [] => _ | _ => _ end) as [m|]; cbn [rbind] in H; [|discriminate].
  injection H as <-. unfold astropy_w0, astropy_wa. cbn [a_cls a_w0 a_wa].
  destruct (Qc_eq_dec (b_wa c) 0) as [Ea|Ea]; destruct (Qc_eq_dec (b_w0 c) (- (1))) as [Ew|Ew]; cbn;
    try (split; congruence). destruct Hw; congruence.
Qed.

Lemma ins_desc_perm x l : Permutation (ins_desc x l) (x :: l).
Proof.
  induction l as [|y l IH]; [reflexivity|]. cbn. destruct (Qclt_le_dec y x); [reflexivity|].
  rewrite IH. apply perm_swap.
Qed.
Lemma sort_desc_perm l : Permutation (sort_desc l) l.
Proof. induction l as [|x l IH]; [reflexivity|]. cbn. rewrite ins_desc_perm. now constructor. Qed.

Lemma filter_pos_zeros l n : (forall m, In m l -> (0 < m)%Qc) -> filter pos (l ++ repeat 0%Qc n) = l.
Proof.
  intros H. rewrite filter_app. replace (filter pos (repeat 0%Qc n)) with (@nil Qc).
  - rewrite app_nil_r. induction l as [|x l IH]; [reflexivity|]. cbn.
    unfold pos at 1. destruct (Qclt_le_dec 0 x) as [_|C].
    + f_equal. apply IH. intros m Hm. apply H. now right.
    + exfalso. apply (Qcle_not_lt _ _ C). apply H. now left.
  - induction n; [reflexivity|]. cbn. unfold pos at 1.
    destruct (Qclt_le_dec 0 0) as [C|C]; [exfalso; revert C; apply Qcle_not_lt; apply Qcle_refl|assumption].
Qed.

Lemma astropy_roundtrip c a d Ok0 :
  to_astropy c = Ok a -> astropy_to_dict a Ok0 = Ok d ->
  (forall m, In m (b_m_ncdm c) -> (0 < m)%Qc) ->
  (Z.of_nat (List.length (b_m_ncdm c)) <= Qfloor (this (b_Neff c)))%Z ->
  d h = Some (VNum (b_h c)) /\ d T0_cmb = Some (VNum (b_Tcmb0 c)) /\
  d Omega0_b = Some (VNum (b_Omega0_b c)) /\ d Omega0_cdm = Some (VNum (b_Omega0_cdm c)) /\
  (exists l, d m_ncdm = Some (VList l) /\ Permutation l (b_m_ncdm c)) /\
  ((b_w0 c <> (- (1))%Qc \/ b_wa c = 0%Qc) ->
     (b_w0 c = (- (1))%Qc -> d w0_fld = None /\ d wa_fld = None) /\
     (b_w0 c <> (- (1))%Qc -> d w0_fld = Some (VNum (b_w0 c)) /\ d wa_fld = Some (VNum (b_wa c)) /\
                            d Omega0_Lambda = Some (VNum 0))).
Proof.
  intros Ha Hd Hm Hlen.
  assert (Hw := to_astropy_w c a Ha).
  assert (Hmass : filter pos (astropy_masses a) = b_m_ncdm c).
  { unfold to_astropy in Ha. destruct (b_m_ncdm c) as [|m0 ms] eqn:Em.
    - cbn [rbind] in Ha. injection Ha as <-. reflexivity.
    - rewrite <- Em in *. unfold fill_masses in Ha.
      destruct (List.length (b_m_ncdm c) <=? Z.to_nat (Qfloor (this (b_Neff c)))) eqn:El.
      2:{ apply Nat.leb_gt in El. lia. }
      cbn [rbind] in Ha. injection Ha as <-. unfold astropy_masses. cbn [a_m_nu].
      apply filter_pos_zeros. assumption. }
  assert (HH : a_H0 a = (zq 100 * b_h c)%Qc /\ a_Tcmb0 a = b_Tcmb0 c /\ a_Ob0 a = b_Omega0_b c /\
               a_Om0 a = (b_Omega0_b c + b_Omega0_cdm c)%Qc /\
               a_cls a = if Qc_eq_dec (b_wa c) 0 then (if Qc_eq_dec (b_w0 c) (- (1)) then LambdaCDM else wCDM) else w0waCDM).
  { unfold to_astropy in Ha. destruct (match b_m_ncdm c with [] => _ | _ => _ end) as [m|]; cbn [rbind] in Ha; [|discriminate].
    injection Ha as <-. cbn. repeat split. destruct (Qc_eq_dec (b_wa c) 0), (Qc_eq_dec (b_w0 c) (- (1))); reflexivity. }
  destruct HH as (H1 & H2 & H3 & H4 & H5). clear Ha.
  unfold astropy_to_dict in Hd. cbv zeta in Hd.
  destruct (negb (pos (a_Ob0 a))); [discriminate|]. rewrite Hmass in Hd.
  set (args0 := set (set (set (kw1 h _) _ _) _ _) _ _) in Hd.
  assert (Hh : (a_H0 a / zq 100)%Qc = b_h c).
  { rewrite H1. field. intros C. apply (f_equal this) in C. discriminate. }
  assert (Hc : (a_Om0 a - a_Ob0 a)%Qc = b_Omega0_cdm c) by (rewrite H3, H4; ring).
  assert (Hargs : exists args1 l, rbind match b_m_ncdm c with
       | [] => Ok (set (set args0 m_ncdm (VList [])) N_ur (VNum (a_Neff a)))
       | _ => match nth_error [Q2Qc (20328 # 10000); Q2Qc (10196 # 10000); Q2Qc (641 # 100000)] (List.length (b_m_ncdm c) - 1) with
         | None => Err IndexError
         | Some f => Ok (set (set args0 N_ur (VNum (a_Neff a / Q2Qc (3046 # 1000) * f)%Qc))
                             m_ncdm (VList (sort_desc (b_m_ncdm c))))
         end end (fun x => Ok x) = Ok args1 /\ args1 m_ncdm = Some (VList l) /\ Permutation l (b_m_ncdm c) /\
       (forall k, k <> m_ncdm -> k <> N_ur -> args1 k = args0 k)).
  { destruct (b_m_ncdm c) as [|m0 ms] eqn:Em.
    - eexists _, []. split; [reflexivity|]. split; [reflexivity|]. split; [reflexivity|].
      intros k K1 K2. now rewrite !set_other.
    - rewrite <- Em in *. destruct (nth_error _ _) as [f|]; [|discriminate Hd].
      eexists _, (sort_desc (b_m_ncdm c)). split; [reflexivity|]. split; [apply set_same|].
      split; [apply sort_desc_perm|]. intros k K1 K2. now rewrite !set_other. }
  destruct Hargs as (args1 & l & E1 & E2 & E3 & E4).
  match type of Hd with rbind ?X _ = _ => destruct X as [args2|]; [|discriminate] end.
  cbn [rbind] in E1, Hd. injection E1 as ->. injection Hd as <-.
  assert (G : forall d', (forall k, d' k = match a_cls a with
             | LambdaCDM => set args1 Omega0_k (VNum Ok0) k
             | wCDM => set (set (set (set args1 Omega0_k (VNum Ok0)) w0_fld (VNum (astropy_w0 a))) wa_fld (VNum 0)) Omega0_Lambda (VNum 0) k
             | w0waCDM => set (set (set (set args1 Omega0_k (VNum Ok0)) w0_fld (VNum (astropy_w0 a))) wa_fld (VNum (astropy_wa a))) Omega0_Lambda (VNum 0) k end) ->
     (forall k, k <> Omega0_k -> k <> w0_fld -> k <> wa_fld -> k <> Omega0_Lambda -> d' k = args1 k)).
  { intros d' Hd' k K1 K2 K3 K4. rewrite Hd'. destruct (a_cls a); now rewrite !set_other. }
  assert (Gd := G _ (fun k => match a_cls a as x return (match x with LambdaCDM => _ | wCDM => _ | w0waCDM => _ end k = match x with LambdaCDM => _ | wCDM => _ | w0waCDM => _ end) with
     LambdaCDM => eq_refl | wCDM => eq_refl | w0waCDM => eq_refl end)). clear G.
  rewrite !Gd by discriminate. rewrite !E4 by discriminate.
  split; [unfold args0; keys; rewrite Hh; reflexivity|].
  split; [unfold args0; keys; rewrite H2; reflexivity|].
  split; [unfold args0; keys; rewrite H3; reflexivity|].
  split; [unfold args0; keys; rewrite Hc; reflexivity|].
  split; [exists l; split; assumption|].
  intros HW. destruct (Hw HW) as [W1 W2]. rewrite H5, W1, W2.
  split.
  - intros Em1. assert (Ea : b_wa c = 0%Qc) by (destruct HW; congruence).
    destruct (Qc_eq_dec (b_wa c) 0); [|congruence]. destruct (Qc_eq_dec (b_w0 c) (- (1))); [|congruence].
    keys. rewrite !E4 by discriminate. split; reflexivity.
  - intros Hne. destruct (Qc_eq_dec (b_wa c) 0) as [Ea|Ea].
    + destruct (Qc_eq_dec (b_w0 c) (- (1))); [congruence|]. rewrite Ea. keys. auto.
    + keys. auto.
Qed.

(* ---- what goes wrong ---- *)
Lemma clone_orphan_ignored p kw p' k w v :
  class_pars p -> clone p kw = Ok p' -> orphan k = true -> kw k = Some w ->
  (forall x, kw x <> None -> x = k) -> p (class_name k) = Some v ->
  p' (class_name k) = Some v.
Proof.
  intros Hp Hc Ho Hk Honly Hv. apply clone_inv in Hc. destruct Hc as [_ Hc].
  rewrite (proj2 (proj2 (proj2 (proj1 (compile_pt _) p' Hc))) (class_name k)).
  assert (Hkept : forall x, x <> k -> merge_args p kw x = p x).
  { intros x Hx. apply merge_kept.
    - destruct (kw x) eqn:E; [|reflexivity]. exfalso. apply Hx, Honly. congruence.
    - intros n Hn Hin. apply Honly in Hn. subst n. destruct (proj1 (eqcls_iff k x) Hin) as (C & _). congruence. }
  assert (Hcl : clean (Some v) = Some v) by (rewrite <- Hv; apply clean_id, (cp_none p Hp)).
  destruct k; try discriminate Ho; cbn [class_name F A1] in *.
  - rewrite (Hkept T_cmb), Hv by discriminate. exact Hcl.
  - unfold has. rewrite (Hkept w0_fld), (Hkept wa_fld), (Hkept Omega_Lambda), Hv by discriminate.
    destruct (p w0_fld) eqn:E1; [|destruct (p wa_fld) eqn:E2]; cbn [orb orelse]; try exact Hcl.
    + rewrite <- Hv, (cp_fluid p Hp); [reflexivity|left; congruence].
    + rewrite <- Hv, (cp_fluid p Hp); [reflexivity|right; congruence].
  - unfold has. rewrite (Hkept w0_fld), (Hkept wa_fld), (Hkept Omega_Lambda), Hv by discriminate.
    destruct (p w0_fld) eqn:E1; [|destruct (p wa_fld) eqn:E2]; cbn [orb orelse]; try exact Hcl.
    + rewrite <- Hv, (cp_fluid p Hp); [reflexivity|left; congruence].
    + rewrite <- Hv, (cp_fluid p Hp); [reflexivity|right; congruence].
  - rewrite (Hkept Omega_k), Hv by discriminate. exact Hcl.
Qed.

Lemma ok_inv {A} (x : res A) : is_ok x = true -> exists a, x = Ok a.
Proof. destruct x; [eauto|discriminate]. Qed.

(* a small cosmology for the counterexamples *)
Definition small : dict := fun k => match k with
  | h => Some (VNum (Q2Qc (7 # 10)))
  | T_cmb => Some (VNum (Q2Qc (27255 # 10000)))
  | Omega_k => Some (VNum (Q2Qc (1 # 10)))
  | Omega_Lambda => Some (VNum (Q2Qc (6 # 10)))
  | output => Some (VStr "vTk dTk mPk")
  | extra_metric => Some (VStr "y")
  | _ => None
  end.

Lemma small_class : class_pars small.
Proof.
  split.
  - intros k Hk. destruct k; try (exfalso; apply Hk; reflexivity); split; (reflexivity || discriminate).
  - intros k. destruct k; discriminate.
  - split; discriminate.
  - discriminate.
  - discriminate.
  - intros [H|H]; exfalso; apply H; reflexivity.
  - discriminate.
Qed.
Lemma small_consistent : consistent small.
Proof.
  intros a b Ha Hb (R1 & R2 & R3).
  destruct a; try (exfalso; apply Ha; reflexivity); destruct b; try (exfalso; apply Hb; reflexivity);
    try discriminate R3; first [exact (R1 eq_refl) | exact (R2 eq_refl)].
Qed.

Lemma orphans_refuted k : orphan k = true ->
  exists p kw p' v, class_pars p /\ consistent p /\ kw k = Some v /\ (forall x, kw x <> None -> x = k) /\
    clone p kw = Ok p' /\ p' (class_name k) <> Some v /\ p' (class_name k) = p (class_name k).
Proof.
  intros Ho. exists small, (kw1 k (VNum (Q2Qc (5 # 10)))).
  assert (Hon : forall x, kw1 k (VNum (Q2Qc (5 # 10))) x <> None -> x = k).
  { intros x. unfold kw1, set, empty. destruct (key_eqb x k) eqn:E; [now apply key_eqb_true in E|congruence]. }
  assert (Hok : is_ok (clone small (kw1 k (VNum (Q2Qc (5 # 10))))) = true)
    by (destruct k; try discriminate Ho; vm_compute; reflexivity).
  destruct (ok_inv _ Hok) as (p' & E).
  - exists p', (VNum (Q2Qc (5 # 10))). split; [exact small_class|]. split; [exact small_consistent|].
    split; [apply set_same|]. split; [assumption|]. split; [assumption|].
    assert (Hv : exists v, small (class_name k) = Some v /\ v <> VNum (Q2Qc (5 # 10))).
    { destruct k; try discriminate Ho; (eexists; split; [reflexivity|]; intros C; injection C as C; discriminate C). }
    destruct Hv as (v & Hv & Hne).
    assert (H' := clone_orphan_ignored small _ p' k _ v small_class E Ho (set_same _ _ _) Hon Hv).
    split; congruence.
Qed.

Lemma stale_N_ur_refuted :
  exists p p' q, cosmology_init empty = Ok p /\ clone p (kw1 m_ncdm (VList [])) = Ok p' /\
    cosmology_init (kw1 m_ncdm (VList [])) = Ok q /\ p' N_ncdm = q N_ncdm /\ p' N_ur <> q N_ur.
Proof.
  destruct (ok_inv (cosmology_init empty) ltac:(vm_compute; reflexivity)) as (p & E1).
  destruct (ok_inv (cosmology_init (kw1 m_ncdm (VList []))) ltac:(vm_compute; reflexivity)) as (q & E2).
  assert (Hp : class_pars p).
  { apply init_new in E1. unfold cosmology_new in E1. cbv zeta in E1. destruct (check_args empty); cbn [rbind] in E1; [|discriminate].
    apply (compile_class _ _ E1); discriminate. }
  assert (HpN : p N_ur = Some (VNum (Q2Qc (20328 # 10000)))).
  { apply init_new in E1. unfold cosmology_new in E1. cbv zeta in E1. destruct (check_args empty); cbn [rbind] in E1; [|discriminate].
    rewrite (proj2 (proj2 (proj2 (proj1 (compile_pt _) p E1))) N_ur). reflexivity. }
  assert (HqN : q N_ur = Some (VNum (Q2Qc (3046 # 1000))) /\ q N_ncdm = Some (VNum 0)).
  { apply init_new in E2. unfold cosmology_new in E2. cbv zeta in E2. destruct (check_args (kw1 m_ncdm (VList []))); cbn [rbind] in E2; [|discriminate].
    rewrite !(proj2 (proj2 (proj2 (proj1 (compile_pt _) q E2)))). split; reflexivity. }
  assert (Hok : is_ok (let! p := cosmology_init empty in clone p (kw1 m_ncdm (VList []))) = true) by (vm_compute; reflexivity).
  rewrite E1 in Hok. cbn [rbind] in Hok. destruct (ok_inv _ Hok) as (p' & E3).
  - exists p, p', q. split; [assumption|]. split; [assumption|]. split; [assumption|].
    destruct (proj1 (clone_translated p _ p' (VList []) E3) eq_refl) as (l & El & _ & _ & EN).
    injection El as <-. split; [destruct HqN as [_ ->]; rewrite EN; reflexivity|].
    rewrite (proj1 HqN), (clone_keeps p _ p' N_ur Hp E3).
    + rewrite HpN. intros C. injection C as C. discriminate C.
    + intros n. unfold kw1, set, empty. destruct (key_eqb n m_ncdm) eqn:En; [|congruence].
      apply key_eqb_true in En. subst n. intros _. split; [discriminate|]. intros (_ & _ & R). discriminate R.
    + discriminate.
    + discriminate.
    + reflexivity.
Qed.

Lemma clone_ur_keyerror p kw k :
  class_pars p -> consistent p -> p m_ncdm <> None ->
  k = Omega_ur \/ k = omega_ur \/ k = Omega0_ur -> (forall x, kw x <> None -> x = k) -> kw k <> None ->
  clone p kw = Err KeyError.
Proof.
  intros Hp Hc Hm Hk Honly Hkw.
  assert (Hq : quantity_of k = Some QUr /\ orphan k = false /\ k <> N_ur /\ k <> m_ncdm)
    by (destruct Hk as [-> | [-> | ->]]; repeat split; discriminate).
  destruct Hq as (Hq & Ho & HN & HM).
  assert (Hno : forall x, x <> k -> kw x = None).
  { intros x Hx. destruct (kw x) eqn:E; [|reflexivity]. exfalso. apply Hx, Honly. congruence. }
  unfold clone. cbv zeta.
  rewrite (proj2 (check_iff _)).
  2:{ intros a b Ha Hb Hne Hin. destruct (proj1 (eqcls_iff a b) Hin) as (Oa & Ob & Q1 & _ & Q2).
      assert (R : rivals a b) by (apply rivals_eqcls; auto).
      destruct (key_eq_dec a k) as [-> |Hak].
      - apply Hb. apply (merge_popped p kw b k); [apply Hno; congruence|assumption..].
      - destruct (key_eq_dec b k) as [-> |Hbk].
        + apply Ha. apply (merge_popped p kw a k); [now apply Hno|assumption|].
          apply eqcls_iff. rewrite Hq. repeat split; (congruence || discriminate).
        + unfold merge_args, update in Ha, Hb. rewrite (Hno a Hak) in Ha. rewrite (Hno b Hbk) in Hb.
          apply (Hc a b); [destruct (popped kw a); congruence|destruct (popped kw b); congruence|assumption]. }
  cbn [rbind].
  assert (EN : merge_args p kw N_ur = None).
  { apply (merge_popped p kw N_ur k); [now apply Hno, not_eq_sym|assumption|].
    apply eqcls_iff. rewrite Hq. repeat split; try assumption; discriminate. }
  assert (EM : merge_args p kw m_ncdm = p m_ncdm).
  { apply merge_kept; [now apply Hno, not_eq_sym|]. intros n Hn Hin. apply Honly in Hn. subst n.
    destruct (proj1 (eqcls_iff k m_ncdm) Hin) as (_ & _ & _ & _ & C). rewrite Hq in C. discriminate. }
  destruct (p m_ncdm) as [v|] eqn:Ev; [|congruence].
  destruct (cp_ncdm p Hp v Ev) as (l & -> & _ & Hz & _).
  unfold compile_args. cbv zeta. unfold step_mncdm. rewrite EM. cbn [mass_list rbind].
  rewrite (proj2 (existsb_zero l) Hz). rewrite EN. reflexivity.
Qed.

Lemma ur_density_refuted : exists p k v, cosmology_init empty = Ok p /\ quantity_of k = Some QUr /\
  clone p (kw1 k (VNum v)) = Err KeyError.
Proof.
  destruct (ok_inv (cosmology_init empty) ltac:(vm_compute; reflexivity)) as (p & E).
  exists p, Omega_ur, (Q2Qc (1 # 1000)). split; [assumption|]. split; [reflexivity|].
  assert (H : (let! p := cosmology_init empty in
               match clone p (kw1 Omega_ur (VNum (Q2Qc (1 # 1000)))) with Err KeyError => Ok tt | _ => Err ValueError end) = Ok tt)
    by (vm_compute; reflexivity).
  rewrite E in H. cbn [rbind] in H. destruct (clone _ _) as [|[]]; congruence.
Qed.

Lemma T0_and_T_refuted : exists user p a b, cosmology_init user = Ok p /\ rivals T0_cmb T_cmb /\
  user T0_cmb = Some (VNum a) /\ user T_cmb = Some (VNum b) /\ a <> b /\ p T_cmb = Some (VNum b).
Proof.
  set (user := set (kw1 T0_cmb (VNum (zq 2))) T_cmb (VNum (zq 3))).
  destruct (ok_inv (cosmology_init user) ltac:(vm_compute; reflexivity)) as (p & E).
  exists user, p, (zq 2), (zq 3). split; [assumption|]. split; [repeat split; discriminate|].
  split; [reflexivity|]. split; [reflexivity|]. split; [intros C; discriminate C|].
  apply init_new in E. unfold cosmology_new in E. cbv zeta in E. destruct (check_args user); cbn [rbind] in E; [|discriminate].
  rewrite (proj2 (proj2 (proj2 (proj1 (compile_pt _) p E)))). reflexivity.
Qed.

Lemma init_twice_refuted : exists user p, consistent user /\ cosmology_init user = Ok p /\
  rivals Omega_b omega_b /\ p Omega_b <> None /\ p omega_b <> None.
Proof.
  destruct (ok_inv (cosmology_init (kw1 omega_b (VNum (Q2Qc (22 # 1000))))) ltac:(vm_compute; reflexivity)) as (p & E).
  exists (kw1 omega_b (VNum (Q2Qc (22 # 1000)))), p. split; [|split; [assumption|split; [repeat split; discriminate|]]].
  - intros a b Ha Hb (R & _). assert (X : forall x, kw1 omega_b (VNum (Q2Qc (22 # 1000))) x <> None -> x = omega_b).
    { intros x. unfold kw1, set, empty. destruct (key_eqb x omega_b) eqn:Ex; [now apply key_eqb_true in Ex|congruence]. }
    apply X in Ha, Hb. congruence.
  - apply init_new in E. unfold cosmology_new in E. cbv zeta in E. destruct (check_args _); cbn [rbind] in E; [|discriminate].
    rewrite !(proj2 (proj2 (proj2 (proj1 (compile_pt _) p E)))). split; discriminate.
Qed.

Lemma output_none_refuted : exists p kw q q', class_pars p /\ consistent p /\
  clone p kw = Ok q /\ clone q empty = Ok q' /\ q output = None /\ q' output <> None.
Proof.
  destruct (ok_inv (clone small (kw1 output VNone)) ltac:(vm_compute; reflexivity)) as (q & E).
  assert (Hp := proj2 (proj2 (proj2 (proj1 (compile_pt _) q (proj2 (clone_inv _ _ _ E)))))).
  assert (Hc : consistent q).
  { apply (clone_consistent small (kw1 output VNone) q small_class E).
    intros o Ho. destruct o; try discriminate Ho; reflexivity. }
  assert (Hok : is_ok (let! q := clone small (kw1 output VNone) in clone q empty) = true) by (vm_compute; reflexivity).
  rewrite E in Hok. cbn [rbind] in Hok. destruct (ok_inv _ Hok) as (q' & E2).
  - exists small, (kw1 output VNone), q, q'. split; [exact small_class|]. split; [exact small_consistent|].
    split; [assumption|]. split; [assumption|]. split; [rewrite Hp; reflexivity|].
    apply clone_inv in E2. destruct E2 as [_ E2].
    rewrite (proj2 (proj2 (proj2 (proj1 (compile_pt _) q' E2)))). cbn [F A1].
    rewrite <- (merge_empty q). rewrite Hp. discriminate.
Qed.

Definition ex_bg (w0 wa : Qc) : bg :=
  {| b_h := Q2Qc (7 # 10); b_Omega0_b := Q2Qc (5 # 100); b_Omega0_cdm := Q2Qc (25 # 100); b_Tcmb0 := Q2Qc (27 # 10);
     b_Neff := Q2Qc (3046 # 1000); b_m_ncdm := [Q2Qc (6 # 100); Q2Qc (1 # 10)]; b_Ok0 := 0; b_Ode0 := Q2Qc (7 # 10);
     b_w0 := w0; b_wa := wa |}.

Lemma astropy_w0_refuted : exists c a, to_astropy c = Ok a /\ astropy_w0 a <> b_w0 c.
Proof.
  exists (ex_bg (- (1)) (Q2Qc (1 # 10))). eexists. split; [vm_compute; reflexivity|].
  intros C. apply (f_equal this) in C. vm_compute in C. discriminate C.
Qed.
