From Coq Require Import String QArith Qcanon Qround.
From Verif Require Import Base Num CosmoModel CosmoSpec.
Local Open Scope nat_scope.

Definition orelse {A} (a b : option A) : option A := match a with Some x => Some x | None => b end.

Definition A1 (args : dict) (k : key) : option val :=
  match k with
  | T_cmb => orelse (args T_cmb) (args T0_cmb)
  | Omega_cdm => orelse (args Omega_cdm) (args Omega0_cdm)
  | Omega_b => orelse (args Omega_b) (args Omega0_b)
  | Omega_k => orelse (args Omega_k) (args Omega0_k)
  | Omega_ur => orelse (args Omega_ur) (args Omega0_ur)
  | Omega_Lambda => orelse (args Omega_Lambda) (orelse (args Omega0_Lambda) (orelse (args Omega0_lambda) (args Omega_lambda)))
  | Omega_fld => orelse (args Omega_fld) (args Omega0_fld)
  | Omega_ncdm => orelse (args Omega_ncdm) (args Omega0_ncdm)
  | Omega_g => orelse (args Omega_g) (args Omega0_g)
  | T0_cmb | Omega0_cdm | Omega0_b | Omega0_k | Omega0_ur | Omega_lambda | Omega0_lambda
  | Omega0_Lambda | Omega0_fld | Omega0_ncdm | Omega0_g => None
  | output => orelse (args output) (Some (VStr "vTk dTk mPk"))
  | extra_metric => orelse (args extra_metric) (Some (VStr "y"))
  | k => args k
  end.

Lemma key_eqb_refl k : key_eqb k k = true.
Proof. unfold key_eqb. destruct (key_eq_dec k k); congruence. Qed.
Lemma key_eqb_ne k k' : k <> k' -> key_eqb k k' = false.
Proof. unfold key_eqb. destruct (key_eq_dec k k'); congruence. Qed.
Lemma key_eqb_true k k' : key_eqb k k' = true -> k = k'.
Proof. unfold key_eqb. destruct (key_eq_dec k k'); congruence. Qed.

Lemma set_same d k v : set d k v k = Some v.
Proof. unfold set. now rewrite key_eqb_refl. Qed.
Lemma set_other d k v x : x <> k -> set d k v x = d x.
Proof. intros H. unfold set. now rewrite key_eqb_ne. Qed.
Lemma del_same d k : del d k k = None.
Proof. unfold del. now rewrite key_eqb_refl. Qed.
Lemma del_other d k x : x <> k -> del d k x = d x.
Proof. intros H. unfold del. now rewrite key_eqb_ne. Qed.

Lemma set_alias_other args p pn an k : k <> pn -> k <> an -> set_alias args p pn an k = p k.
Proof.
  intros H1 H2. unfold set_alias. destruct (args an); [|reflexivity].
  rewrite set_other by assumption. now rewrite del_other.
Qed.
Lemma set_alias_an args p pn an : pn <> an -> p an = args an -> set_alias args p pn an an = None.
Proof.
  intros H E. unfold set_alias. destruct (args an) eqn:Ea; [|assumption].
  rewrite set_other by congruence. now rewrite del_same.
Qed.
Lemma set_alias_pn args p pn an :
  set_alias args p pn an pn = match args an with Some v => Some (match args pn with Some v' => v' | None => v end) | None => p pn end.
Proof. unfold set_alias. destruct (args an); [|reflexivity]. now rewrite set_same. Qed.

Ltac keys := repeat first
  [ rewrite set_same | rewrite del_same
  | rewrite set_other by discriminate | rewrite del_other by discriminate
  | rewrite set_alias_other by discriminate
  | rewrite set_alias_pn ].

Lemma base_pt args k : update defaults args k =
  match k with output => orelse (args output) (Some (VStr "vTk dTk mPk"))
             | extra_metric => orelse (args extra_metric) (Some (VStr "y")) | k => args k end.
Proof.
  unfold update, defaults.
  destruct k; keys; match goal with |- context [args ?x] => destruct (args x); reflexivity end.
Qed.

Lemma aliases1_pt args k : run_aliases args aliases1 (update defaults args) k = A1 args k.
Proof.
  unfold aliases1, run_aliases. cbn [fold_left fst snd].
  destruct k; keys;
    try (rewrite set_alias_an; [keys; reflexivity|discriminate|keys; rewrite base_pt; reflexivity]);
    rewrite ?base_pt; cbn [A1]; unfold orelse; try reflexivity;
    repeat match goal with |- context [match args ?x with _ => _ end] => destruct (args x) end; reflexivity.
Qed.

Definition vfold (l : list clmod) (p : dict) : dict :=
  fold_left (fun p m => if has p (x_verbose m) then p else set p (x_verbose m) (VNum 1)) l p.

Lemma vfold_other l k : (forall m, k <> x_verbose m) -> forall p, vfold l p k = p k.
Proof.
  intros Hk. induction l as [|m l IH]; intros p; [reflexivity|].
  unfold vfold. cbn [fold_left]. fold (vfold l (if has p (x_verbose m) then p else set p (x_verbose m) (VNum 1))).
  rewrite IH. destruct (has p (x_verbose m)); [reflexivity|]. now rewrite set_other.
Qed.

Lemma vfold_verbose l m : forall p, In m l \/ p (x_verbose m) <> None ->
  vfold l p (x_verbose m) = orelse (p (x_verbose m)) (Some (VNum 1)).
Proof.
  induction l as [|m' l IH]; intros p H.
  - destruct H as [[]|H]. unfold vfold. cbn [fold_left]. unfold orelse. destruct (p (x_verbose m)); congruence.
  - unfold vfold. cbn [fold_left]. fold (vfold l (if has p (x_verbose m') then p else set p (x_verbose m') (VNum 1))).
    unfold has. destruct (p (x_verbose m')) as [v'|] eqn:E.
    + apply IH. destruct H as [[H|H]|H]; [right; subst; congruence|now left|now right].
    + rewrite IH.
      * unfold set, key_eqb. destruct (key_eq_dec (x_verbose m) (x_verbose m')) as [E1|E1].
        -- injection E1 as ->. now rewrite E.
        -- reflexivity.
      * destruct H as [[H|H]|H]; [|now left|].
        -- subst. right. rewrite set_same. discriminate.
        -- right. unfold set. destruct (key_eqb _ _); [discriminate|assumption].
Qed.

Definition verbose_on (args : dict) : bool := match args verbose with Some v => truthy v | None => false end.

Lemma step_verbose_pt args p k :
  p verbose = args verbose ->
  step_verbose args p k =
  match k with
  | verbose => None
  | x_verbose m => if verbose_on args then orelse (p (x_verbose m)) (Some (VNum 1)) else p (x_verbose m)
  | k => p k
  end.
Proof.
  intros E. unfold step_verbose, verbose_on. destruct (args verbose) as [v|] eqn:Ev.
  - destruct (truthy v).
    + fold (vfold all_modules (del p verbose)).
      destruct k; try (rewrite vfold_other by discriminate; keys; reflexivity).
      rewrite vfold_verbose by (left; destruct m; cbn; tauto). keys. reflexivity.
    + destruct k; keys; reflexivity.
  - destruct k; try reflexivity. assumption.
Qed.

(* the value of every parameter of a compiled dictionary *)
Definition F (args : dict) (k : key) : option val :=
  match k with
  | verbose => None
  | x_verbose m => if verbose_on args then orelse (args (x_verbose m)) (Some (VNum 1)) else args (x_verbose m)
  | N_ncdm => match args m_ncdm with
              | None => args N_ncdm
              | Some v => match mass_list v with Ok l => Some (VNum (zq (Z.of_nat (List.length l)))) | Err _ => None end
              end
  | m_ncdm => match args m_ncdm with
              | None => None
              | Some v => match mass_list v with Ok [] => None | Ok l => Some (VList l) | Err _ => None end
              end
  | N_ur => match args N_ur with
            | Some VNone => match args m_ncdm with
                            | None => Some VNone
                            | Some v => match mass_list v with
                                        | Ok l => option_map VNum (nth_error N_ur_table (List.length l))
                                        | Err _ => None end
                            end
            | x => x
            end
  | Omega_Lambda => if has args w0_fld || has args wa_fld then Some (VNum 0) else A1 args Omega_Lambda
  | P_k_max_h_Mpc => orelse (args P_k_max_h_Mpc) (args P_k_max)
  | z_max_pk => orelse (args z_max_pk) (args P_z_max)
  | P_k_max | P_z_max | nonlinear => None
  | non_linear => match orelse (args non_linear) (args nonlinear) with
                  | Some v => if truthy v then Some (VStr "halofit") else None
                  | None => None end
  | k => A1 args k
  end.

Definition clean (o : option val) : option val := match o with Some VNone => None | x => x end.

(* when the compilation of args succeeds *)
Definition mass_ok (args : dict) : Prop :=
  match args m_ncdm with
  | None => True
  | Some v => exists l, mass_list v = Ok l /\ ~ In 0%Qc l /\ args N_ur <> None /\
                        (args N_ur = Some VNone -> List.length l < 4)
  end.
Definition lambda_ok (args : dict) : Prop :=
  has args w0_fld || has args wa_fld = true ->
  match A1 args Omega_Lambda with Some v => positive v = Ok false | None => True end.

Lemma existsb_zero l : existsb (fun m => if Qc_eq_dec m 0 then true else false) l = false <-> ~ In 0%Qc l.
Proof.
  rewrite <- not_true_iff_false, existsb_exists. split; intros H C; apply H.
  - exists 0%Qc. split; [assumption|]. destruct (Qc_eq_dec 0 0); congruence.
  - destruct C as (x & Hx & E). destruct (Qc_eq_dec x 0); [now subst|discriminate].
Qed.

Lemma step_mncdm_pt args p :
  p m_ncdm = args m_ncdm -> p N_ncdm = args N_ncdm -> p N_ur = args N_ur ->
  (forall p', step_mncdm args p = Ok p' ->
     mass_ok args /\
     forall k, p' k = match k with
                      | N_ncdm => F args N_ncdm | m_ncdm => F args m_ncdm
                      | N_ur => match args m_ncdm with Some _ => F args N_ur | None => p N_ur end
                      | k => p k end) /\
  (mass_ok args -> exists p', step_mncdm args p = Ok p').
Proof.
  intros E1 E2 E3. unfold step_mncdm, mass_ok. cbn [F].
  destruct (args m_ncdm) as [v|] eqn:Em.
  2:{ split.
      - intros p' H. injection H as <-. split; [exact I|]. intros k. destruct k; try reflexivity.
        + assumption.
        + assumption.
      - intros _. eexists. reflexivity. }
  destruct (mass_list v) as [l|e] eqn:El; cbn [rbind].
  2:{ split; [discriminate|]. intros (l & H & _). discriminate. }
  destruct (existsb _ l) eqn:Ez.
  - split; [discriminate|]. intros (l' & H & Hz & _). injection H as <-.
    apply existsb_zero in Hz. congruence.
  - apply existsb_zero in Ez. set (p2 := match l with [] => _ | _ => _ end).
    assert (Hp2 : forall k, p2 k = match k with
              | N_ncdm => Some (VNum (zq (Z.of_nat (List.length l))))
              | m_ncdm => match l with [] => None | _ => Some (VList l) end
              | k => p k end).
    { intros k. unfold p2. destruct l as [|x l]; destruct k; keys; reflexivity. }
    destruct (args N_ur) as [n|] eqn:En.
    2:{ split; [discriminate|]. intros (l' & _ & _ & H & _). congruence. }
    assert (Hcase : n = VNone \/ n <> VNone) by (destruct n; [left; reflexivity|right..]; discriminate).
    destruct Hcase as [-> |Hn].
    + destruct (nth_error N_ur_table (List.length l)) as [q|] eqn:Eq.
      * split.
        -- intros p' H. injection H as <-. split.
           { exists l. split; [reflexivity|]. split; [assumption|]. split; [discriminate|].
             intros _. apply nth_error_Some_lt in Eq || (assert (nth_error N_ur_table (List.length l) <> None) by congruence; apply nth_error_Some in H; exact H). }
           intros k. destruct k; keys; rewrite ?Hp2; try reflexivity.
        -- intros _. eexists. reflexivity.
      * split; [discriminate|]. intros (l' & H & _ & _ & Hl). injection H as <-.
        exfalso. apply nth_error_None in Eq. specialize (Hl eq_refl). cbn in Eq. lia.
    + assert (Hr : match n with VNone => match nth_error N_ur_table (List.length l) with
                     | Some q => Ok (set p2 N_ur (VNum q)) | None => Err IndexError end | _ => Ok p2 end = Ok p2)
        by (destruct n; congruence).
      rewrite Hr. split.
      * intros p' H. injection H as <-. split.
        { exists l. split; [reflexivity|]. split; [assumption|]. split; [discriminate|]. congruence. }
        intros k. destruct k; rewrite ?Hp2; try reflexivity.
        rewrite E3. destruct n; congruence.
      * intros _. eexists. reflexivity.
Qed.

Definition gauge_ok (args : dict) : Prop :=
  forall v, args gauge = Some v -> v = VStr "synchronous" \/ v = VStr "newtonian".

Lemma step_gauge_iff args : step_gauge args = Ok tt <-> gauge_ok args.
Proof.
  unfold step_gauge, gauge_ok. destruct (args gauge) as [v|]; [|split; [discriminate|reflexivity]].
  split.
  - intros H w E. injection E as <-. destruct v; try discriminate.
    destruct (String.eqb s "synchronous" || String.eqb s "newtonian")%bool eqn:Es; [|discriminate].
    apply orb_prop in Es. destruct Es as [Es|Es]; apply String.eqb_eq in Es; subst; [now left|now right].
  - intros H. destruct (H v eq_refl) as [-> | ->]; reflexivity.
Qed.

Lemma step_nonlinear_pt p k :
  step_nonlinear p k =
  match k with
  | non_linear => match p non_linear with Some v => if truthy v then Some (VStr "halofit") else None | None => None end
  | k => p k
  end.
Proof.
  unfold step_nonlinear. destruct (p non_linear) as [v|] eqn:E.
  - destruct (truthy v) eqn:Et; destruct k; keys; rewrite ?E; try reflexivity; try now rewrite Et.
  - cbn [truthy]. destruct k; keys; rewrite ?E; reflexivity.
Qed.

Lemma aliases2_pt args p k :
  p P_k_max = args P_k_max -> p P_z_max = args P_z_max -> p nonlinear = args nonlinear ->
  p P_k_max_h_Mpc = args P_k_max_h_Mpc -> p z_max_pk = args z_max_pk -> p non_linear = args non_linear ->
  run_aliases args aliases2 p k =
  match k with
  | P_k_max_h_Mpc => orelse (args P_k_max_h_Mpc) (args P_k_max)
  | z_max_pk => orelse (args z_max_pk) (args P_z_max)
  | non_linear => orelse (args non_linear) (args nonlinear)
  | P_k_max | P_z_max | nonlinear => None
  | k => p k
  end.
Proof.
  intros E1 E2 E3 E4 E5 E6. unfold aliases2, run_aliases. cbn [fold_left fst snd].
  destruct k; keys;
    try (rewrite set_alias_an; [keys; reflexivity|discriminate|keys; assumption]);
    rewrite ?E1, ?E2, ?E3, ?E4, ?E5, ?E6; unfold orelse; try reflexivity;
    repeat match goal with |- context [match args ?x with _ => _ end] => destruct (args x) end; reflexivity.
Qed.

Lemma drop_none_pt p k : drop_none p k = clean (p k).
Proof. unfold drop_none, clean. destruct (p k) as [[]|]; reflexivity. Qed.

Lemma compile_pt args :
  (forall p, compile_args args = Ok p ->
     mass_ok args /\ gauge_ok args /\ lambda_ok args /\ forall k, p k = clean (F args k)) /\
  (mass_ok args -> gauge_ok args -> lambda_ok args -> exists p, compile_args args = Ok p).
Proof.
  unfold compile_args. cbv zeta.
  set (p1 := step_verbose args _).
  assert (H1 : forall k, p1 k = match k with verbose => None
     | x_verbose m => if verbose_on args then orelse (args (x_verbose m)) (Some (VNum 1)) else args (x_verbose m)
     | k => A1 args k end).
  { intros k. unfold p1. rewrite step_verbose_pt by (rewrite aliases1_pt; reflexivity).
    destruct k; rewrite ?aliases1_pt; reflexivity. }
  destruct (step_mncdm_pt args p1) as [Ha Hb]; try (rewrite H1; reflexivity).
  destruct (step_mncdm args p1) as [p2|e] eqn:E2; cbn [rbind].
  2:{ split; [discriminate|]. intros H _ _. destruct (Hb H) as (p' & C). discriminate. }
  destruct (Ha p2 eq_refl) as (Hm & H2). clear Ha Hb.
  set (p3 := step_N_ur args p2).
  assert (H3 : forall k, p3 k = match k with
     | N_ncdm => F args N_ncdm | m_ncdm => F args m_ncdm | N_ur => F args N_ur | k => p1 k end).
  { intros k. unfold p3, step_N_ur. destruct (args N_ur) as [n|] eqn:En.
    - assert (Hcase : n = VNone \/ n <> VNone) by (destruct n; [left; reflexivity|right..]; discriminate).
      destruct Hcase as [-> |Hn].
      + rewrite H2. destruct k; try reflexivity.
        cbn [F]. rewrite En. destruct (args m_ncdm); [reflexivity|]. rewrite H1. cbn [A1]. assumption.
      + replace (match n with VNone => p2 | _ => set p2 N_ur n end) with (set p2 N_ur n)
          by (destruct n; congruence).
        destruct k; keys; rewrite ?H2; try reflexivity.
        cbn [F]. rewrite En. destruct n; congruence.
    - rewrite H2. destruct k; try reflexivity.
      cbn [F]. rewrite En. destruct (args m_ncdm); [reflexivity|]. rewrite H1. cbn [A1]. assumption. }
  destruct (step_gauge args) as [[]|e] eqn:Eg; cbn [rbind].
  2:{ split; [discriminate|]. intros _ H _. apply step_gauge_iff in H. congruence. }
  apply step_gauge_iff in Eg.
  assert (HL : p3 Omega_Lambda = A1 args Omega_Lambda) by (rewrite H3, H1; reflexivity).
  assert (Hend : forall p4, (forall k, p4 k = match k with
                    | Omega_Lambda => F args Omega_Lambda | k => p3 k end) ->
            forall k, drop_none (step_nonlinear (run_aliases args aliases2 p4)) k = clean (F args k)).
  { intros p4 H4 k. rewrite drop_none_pt. f_equal. rewrite step_nonlinear_pt.
    assert (HA := fun k => aliases2_pt args p4 k).
    assert (Hk : forall k, p4 k = match k with Omega_Lambda => F args Omega_Lambda | N_ncdm => F args N_ncdm
               | m_ncdm => F args m_ncdm | N_ur => F args N_ur | verbose => None
               | x_verbose m => F args (x_verbose m) | k => A1 args k end).
    { intros k0. rewrite H4. destruct k0; rewrite ?H3, ?H1; reflexivity. }
    destruct k; rewrite HA by (rewrite Hk; reflexivity); rewrite ?Hk; reflexivity. }
  unfold step_fluid, lambda_ok. rewrite HL.
  destruct (has args w0_fld || has args wa_fld) eqn:Ef.
  - destruct (A1 args Omega_Lambda) as [v|] eqn:EA.
    + destruct (positive v) as [[]|e] eqn:Ep; cbn [rbind].
      * split; [discriminate|]. intros _ _ C. specialize (C eq_refl). discriminate.
      * split.
        -- intros p H. injection H as <-. split; [assumption|]. split; [assumption|]. split; [reflexivity|].
           apply Hend. intros k. destruct k; keys; try reflexivity. cbn [F]. now rewrite Ef.
        -- intros. eexists. reflexivity.
      * split; [discriminate|]. intros _ _ C. specialize (C eq_refl). discriminate.
    + cbn [positive]. destruct (Qclt_le_dec 0 0) as [C|C]; [exfalso; revert C; apply Qcle_not_lt; apply Qcle_refl|].
      cbn [rbind]. split.
      * intros p H. injection H as <-. split; [assumption|]. split; [assumption|]. split; [reflexivity|].
        apply Hend. intros k. destruct k; keys; try reflexivity. cbn [F]. now rewrite Ef.
      * intros. eexists. reflexivity.
  - cbn [rbind]. split.
    + intros p H. injection H as <-. split; [assumption|]. split; [assumption|]. split; [discriminate|].
      apply Hend. intros k. destruct k; try reflexivity. cbn [F]. rewrite Ef. assumption.
    + intros. eexists. reflexivity.
Qed.
