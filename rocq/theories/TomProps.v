(* C283-C291: columns of classes, and meshes made from catalogs *)
From Coq Require Import Ascii String.
From Verif Require Import Base BaseProofs NamesModel NamesSpec NamesProofs TomModel TomSpec TomProofs TomMain TomSpecies.
Local Open Scope nat_scope.
Local Notation length := List.length.

(* a class with a column Mass and its own Weight, derived from a class with the default columns Weight and Selection *)
Definition ex_base : klass nat := [column None true (s_ "Weight") 1; column None true (s_ "Selection") 2; column None true (s_ "Value") 3].
Definition ex_halo : klass nat := [column None false (s_ "Mass") 10; column None false (s_ "Position") 11; plain (s_ "helper") 12; column None true (s_ "Weight") 13].
Definition ex_inst : inst nat := {| i_mro := [ex_halo; ex_base]; i_over := [(s_ "Colour", 20)];
  i_attrs := [(s_ "BoxSize", ANum 100); (s_ "Nmesh", AVec [64; 64; 32]%Z); (s_ "seed", ANum 7)] |}.

Lemma ex_made : well_made (i_mro ex_inst).
Proof.
  intros c Hc. split.
  - destruct Hc as [<- | [<- | []]]; cbn [map fst column plain ex_base ex_halo];
      repeat (constructor; [cbn [In]; intuition discriminate | ]); constructor.
  - intros n m k Hn Hk. destruct Hc as [<- | [<- | []]]; unfold ex_halo, ex_base, column, plain in Hn; cbn [In] in Hn;
      repeat (destruct Hn as [Hn | Hn];
        [pose proof (f_equal fst Hn) as E1; pose proof (f_equal snd Hn) as E2; cbn [fst snd] in E1, E2; subst m n; cbn [m_column] in Hk;
         first [discriminate | split; [congruence | discriminate]] | ]); destruct Hn.
Qed.

(* ---- C283 ---- *)
Theorem C283_columns : forall V (i : inst V) n, well_made (i_mro i) ->
  In n (columns i) <-> In n (map fst (i_over i)) \/ exists d, declared (i_mro i) n d.
Proof. exact columns_iff. Qed.
Print Assumptions C283_columns.
Theorem C283_class_column : forall V (i : inst V) n, well_made (i_mro i) -> ~ In n (map fst (i_over i)) ->
  (exists d, declared (i_mro i) n d) ->
  exists m b, resolves (i_mro i) n m /\ getitem i n = Ok (m_call m, b) /\ (b = false <-> declared (i_mro i) n false).
Proof. exact get_class. Qed.
Print Assumptions C283_class_column.
Theorem C283_own_column : forall V (i : inst V) n v, dget (i_over i) n = Some v -> getitem i n = Ok (v, false).
Proof. exact get_over. Qed.
Print Assumptions C283_own_column.
Theorem C283_no_column : forall V (i : inst V) n, ~ In n (columns i) -> getitem i n = Err KeyError.
Proof. exact get_missing. Qed.
Print Assumptions C283_no_column.
Example C283_example : well_made (i_mro ex_inst) /\
  columns ex_inst = map s_ ["Colour"; "Mass"; "Position"; "Selection"; "Value"; "Weight"]%string /\
  getitem ex_inst (s_ "Weight") = Ok (13, true) /\ getitem ex_inst (s_ "Mass") = Ok (10, false) /\
  getitem ex_inst (s_ "Colour") = Ok (20, false) /\ getitem ex_inst (s_ "helper") = Err KeyError.
Proof. split; [exact ex_made | ]. vm_compute. repeat split. Qed.

(* ---- C284: the flag is_default of the definition that is used ---- *)
Theorem C284_default_flag_refuted : exists (i : inst nat) n m,
  well_made (i_mro i) /\ ~ In n (map fst (i_over i)) /\ resolves (i_mro i) n m /\ m_column m = Some n /\ m_default m = true /\
  getitem i n = Ok (m_call m, false).
Proof.
  exists {| i_mro := [ [column None true (s_ "Mass") 1]; [column None false (s_ "Mass") 2] ]; i_over := []; i_attrs := [] |},
    (s_ "Mass"), {| m_column := Some (s_ "Mass"); m_default := true; m_call := 1 |}.
  split; [ | split; [ | split; [ | split; [ | split]]]].
  - intros c Hc. split.
    + destruct Hc as [<- | [<- | []]]; cbn [map fst column]; (constructor; [intros [] | constructor]).
    + intros n m k Hn Hk. destruct Hc as [<- | [<- | []]]; unfold column in Hn; cbn [In] in Hn;
        (destruct Hn as [Hn | []]; pose proof (f_equal fst Hn) as E1; pose proof (f_equal snd Hn) as E2; cbn [fst snd] in E1, E2; subst m n;
         cbn [m_column] in Hk; split; [congruence | discriminate]).
  - intros [].
  - exists [], [column None true (s_ "Mass") 1], [ [column None false (s_ "Mass") 2] ].
    split; [reflexivity | split; [intros ? [] | left; reflexivity]].
  - reflexivity.
  - reflexivity.
  - vm_compute. reflexivity.
Qed.
Print Assumptions C284_default_flag_refuted.

(* ---- C285: columns with another name than their function ---- *)
Theorem C285_named_columns_unreadable : forall V n fname is_default (v : V) rest, n <> [] -> n <> fname ->
  (forall c, In c rest -> ~ In n (map fst c)) ->
  let i := {| i_mro := [column (Some n) is_default fname v] :: rest; i_over := []; i_attrs := [] |} in
  In n (columns i) /\ getitem i n = Err AttributeError.
Proof.
  intros V n fname isd v rest N Nf H i.
  assert (S0 : says V isd n (column (Some n) isd fname v)) by (split; [reflexivity | split; [exact N | reflexivity]]).
  assert (F : In n (side isd (finder (i_mro i)))).
  { apply (finder_in V isd n (i_mro i)). exists [column (Some n) isd fname v], (column (Some n) isd fname v).
    split; [left; reflexivity | split; [left; reflexivity | exact S0]]. }
  assert (C : call_attr (i_mro i) n = Err AttributeError).
  { unfold i. cbn [i_mro call_attr column dget]. destruct (str_eq_dec fname n) as [E | E]; [congruence | ].
    clear - H. induction rest as [ | c rest IH]; [reflexivity | ]. cbn [call_attr].
    rewrite (proj2 (dget_none _ c n)) by (apply H; left; reflexivity). apply IH. intros c' Hc. apply H. right. exact Hc. }
  split.
  - apply columns_raw. destruct isd; [right; right | right; left]; exact F.
  - unfold getitem. change (i_over i) with (@nil (str * V)). cbn [dget].
    destruct (mem n (hardcolumns i)) eqn:M.
    + apply mem_true in M. unfold get_hardcolumn. apply hard_in in M. cbn [side] in M.
      rewrite (proj2 (mem_true _ _) M), C. reflexivity.
    + destruct isd.
      * cbn [side] in F. rewrite (proj2 (mem_true _ _) F), C. reflexivity.
      * exfalso. assert (Q : mem n (hardcolumns i) = true) by (apply mem_true; apply hard_in; exact F). congruence.
Qed.
Print Assumptions C285_named_columns_unreadable.
Theorem C285_named_columns_refuted : exists (i : inst nat) n, In n (columns i) /\ getitem i n = Err AttributeError.
Proof.
  exists {| i_mro := [column (Some (s_ "Halo Mass")) false (s_ "get_mass") 1] :: [ex_base]; i_over := []; i_attrs := [] |}, (s_ "Halo Mass").
  apply C285_named_columns_unreadable; [discriminate | discriminate | ].
  intros c [<- | []]. vm_compute. intuition discriminate.
Qed.
Print Assumptions C285_named_columns_refuted.

(* ---- C286 ---- *)
Theorem C286_to_mesh : forall V methods (i : inst V) a g, NoDup (map fst (i_attrs i)) -> to_mesh methods i a = Ok g ->
  In (resampler_of a) methods /\
  (exists nm box n b, chosen (a_Nmesh a) (i_attrs i) (s_ "Nmesh") nm /\ chosen (a_BoxSize a) (i_attrs i) (s_ "BoxSize") box /\
     sizes nm box n b /\ mesh_attrs (i_attrs i) n b (a_interlaced a) (a_compensated a) (resampler_of a) (g_attrs g)) /\
  (exists w d, getitem i (a_weight a) = Ok (w, d) /\ g_weight g = Some w) /\
  (exists s d, getitem i (a_selection a) = Ok (s, d) /\ g_selection g = Some s) /\
  (exists v d, getitem i (a_value a) = Ok (v, d) /\ g_value g = Some v) /\
  (exists p d, getitem i (a_position a) = Ok (p, d) /\ g_position g = Some p).
Proof. exact to_mesh_ok. Qed.
Print Assumptions C286_to_mesh.
Theorem C286_made : forall V methods (i : inst V) a nm box n b, In (resampler_of a) methods ->
  chosen (a_Nmesh a) (i_attrs i) (s_ "Nmesh") nm -> chosen (a_BoxSize a) (i_attrs i) (s_ "BoxSize") box -> sizes nm box n b ->
  (forall k, In k [a_weight a; a_selection a; a_value a; a_position a] -> exists vd, getitem i k = Ok vd) ->
  exists g, to_mesh methods i a = Ok g.
Proof. exact to_mesh_total. Qed.
Print Assumptions C286_made.
Theorem C286_refused : forall V methods (i : inst V) a,
  ~ In (a_weight a) (columns i) \/ ~ In (a_selection a) (columns i) \/ ~ In (resampler_of a) methods \/
  (a_BoxSize a = None /\ dget (i_attrs i) (s_ "BoxSize") = None) \/ (a_Nmesh a = None /\ dget (i_attrs i) (s_ "Nmesh") = None) ->
  to_mesh methods i a = Err ValueError.
Proof. exact to_mesh_refuses. Qed.
Print Assumptions C286_refused.

Definition ex_methods : list str := map s_ ["cic"; "tsc"; "pcs"; "nnb"; "CIC"; "TSC"; "PCS"; "NNB"]%string.
Definition ex_args (resampler : string) (compensated : bool) : args :=
  {| a_Nmesh := None; a_BoxSize := Some (ANum 50); a_interlaced := true; a_compensated := compensated; a_resampler := s_ resampler;
     a_weight := s_ "Weight"; a_value := s_ "Value"; a_selection := s_ "Selection"; a_position := s_ "Position"; a_window := None |}.
Example C286_example : exists g, to_mesh ex_methods ex_inst (ex_args "tsc" false) = Ok g /\
  dget (g_attrs g) (s_ "BoxSize") = Some (AVec [50; 50; 50]%Z) /\ dget (g_attrs g) (s_ "Nmesh") = Some (AVec [64; 64; 32]%Z) /\
  dget (g_attrs g) (s_ "seed") = Some (ANum 7) /\ g_weight g = Some 13 /\ g_position g = Some 11 /\
  to_mesh ex_methods ex_inst (ex_args "gauss" false) = Err ValueError.
Proof. eexists. split; [vm_compute; reflexivity | ]. vm_compute. repeat split. Qed.

(* ---- C287: a catalog without Position or Value ---- *)
Theorem C287_missing_position : forall V methods (i : inst V) a g, ~ In (a_position a) (columns i) \/ ~ In (a_value a) (columns i) ->
  to_mesh methods i a <> Ok g.
Proof.
  intros V methods i a g H E. unfold to_mesh in E. fold (resampler_of a) in E.
  destruct (mem (a_weight a) (columns i)); [ | discriminate]. cbn [negb] in E.
  destruct (mem (a_selection a) (columns i)); [ | discriminate]. cbn [negb] in E.
  destruct (mem (resampler_of a) methods); [ | discriminate]. cbn [negb] in E.
  destruct (given _ _ (s_ "BoxSize")); [ | discriminate]. cbn [rbind] in E.
  destruct (given _ _ (s_ "Nmesh")); [ | discriminate]. cbn [rbind] in E.
  destruct (col_of i (a_weight a)); [ | discriminate]. cbn [rbind] in E.
  destruct (col_of i (a_selection a)); [ | discriminate]. cbn [rbind] in E.
  destruct (col_of i (a_value a)) as [v | ] eqn:Va; [ | discriminate]. cbn [rbind] in E.
  destruct (col_of i (a_position a)) as [p | ] eqn:Po; [ | discriminate].
  apply col_of_ok in Va, Po. destruct Va as [? Va], Po as [? Po]. apply get_listed in Va, Po. tauto.
Qed.
Print Assumptions C287_missing_position.
Theorem C287_missing_error_refuted : exists (i : inst nat) a, ~ In (a_position a) (columns i) /\
  to_mesh ex_methods i a = Err KeyError.
Proof.
  exists {| i_mro := [ex_base]; i_over := []; i_attrs := [(s_ "Nmesh", ANum 64)] |}, (ex_args "cic" false).
  split; [vm_compute; intuition discriminate | vm_compute; reflexivity].
Qed.
Print Assumptions C287_missing_error_refuted.

(* ---- C288: the resampler when the mesh is made, and when it is set later ---- *)
Theorem C288_lower_case : forall V methods (i : inst V) a g, NoDup (map fst (i_attrs i)) -> to_mesh methods i a = Ok g ->
  lower (resampler_of a) = resampler_of a ->
  exists g', set_resampler methods g (resampler_of a) = Ok g' /\ compensation g' = compensation g.
Proof.
  intros V methods i a g N H L. pose proof (to_mesh_ok _ _ _ _ _ N H) as [M [[nm [box [n [b [_ [_ [_ At]]]]]]] _]].
  destruct At as [_ [_ [Ai [Ac [Ar _]]]]].
  unfold set_resampler. rewrite (proj2 (mem_true _ _) M), L. eexists. split; [reflexivity | ].
  unfold compensation. cbn [g_attrs]. rewrite (dget_set_other _ (s_ "resampler") _ (s_ "compensated")) by discriminate.
  rewrite (dget_set_other _ (s_ "resampler") _ (s_ "interlaced")) by discriminate.
  rewrite dget_set_same, Ar. reflexivity.
Qed.
Print Assumptions C288_lower_case.
Theorem C288_upper_case_refuted : exists (i : inst nat) g g', to_mesh ex_methods i (ex_args "CIC" true) = Ok g /\
  compensation g = Err ValueError /\
  set_resampler ex_methods g (s_ "CIC") = Ok g' /\ compensation g' = Ok (Some (s_ "CompensateCIC")).
Proof. exists ex_inst. eexists. eexists. split; [vm_compute; reflexivity | ]. split; [reflexivity | ]. split; [vm_compute; reflexivity | reflexivity]. Qed.
Print Assumptions C288_upper_case_refuted.

(* ---- C289 ---- *)
Theorem C289_species_mesh : forall V names (cats : list (inst V)) kw c a g, species_init names cats kw = Ok c -> fair names cats kw ->
  species_to_mesh c a = Ok g ->
  (forall i k, In i cats -> In k [a_weight a; a_selection a; a_value a; a_position a] -> In k (columns i)) /\
  exists nm box n b, sizes nm box n b /\
    mesh_attrs (c_attrs c) n b (a_interlaced a) (a_compensated a) (a_resampler a) (g_attrs g) /\
    (a_Nmesh a = Some nm \/ a_Nmesh a = None /\ says_size names cats kw (s_ "Nmesh") nm /\
       forall w, says_size names cats kw (s_ "Nmesh") w -> agrees w n) /\
    (a_BoxSize a = Some box \/ a_BoxSize a = None /\ says_size names cats kw (s_ "BoxSize") box /\
       forall w, says_size names cats kw (s_ "BoxSize") w -> agrees w b).
Proof. exact species_ok. Qed.
Print Assumptions C289_species_mesh.
Theorem C289_species_made : forall V names (cats : list (inst V)) kw c a n b, species_init names cats kw = Ok c -> fair names cats kw ->
  a_window a = None -> a_Nmesh a = None -> a_BoxSize a = None ->
  (forall i k, In i cats -> In k [a_weight a; a_selection a; a_value a; a_position a] -> In k (columns i)) ->
  (exists w, says_size names cats kw (s_ "Nmesh") w) -> (exists w, says_size names cats kw (s_ "BoxSize") w) ->
  (forall w, says_size names cats kw (s_ "Nmesh") w -> w = AVec n \/ exists x, w = ANum x /\ n = [x; x; x]) ->
  (forall w, says_size names cats kw (s_ "BoxSize") w -> stands_for w b) ->
  n <> [] -> length b = length n ->
  exists g, species_to_mesh c a = Ok g.
Proof. exact species_total. Qed.
Print Assumptions C289_species_made.
Theorem C289_species_attrs : forall V names (cats : list (inst V)) kw c s i k, species_init names cats kw = Ok c -> fair names cats kw ->
  In (s, i) (combine names cats) -> dget (c_attrs c) (s ++ dot :: k) = dget (i_attrs i) k.
Proof. exact attrs_species. Qed.
Print Assumptions C289_species_attrs.

Definition ex_sp (box : aval) : inst nat := {| i_mro := [ex_halo; ex_base]; i_over := []; i_attrs := [(s_ "BoxSize", box); (s_ "Nmesh", ANum 8)] |}.
Definition no_args : args :=
  {| a_Nmesh := None; a_BoxSize := None; a_interlaced := false; a_compensated := false; a_resampler := s_ "cic";
     a_weight := s_ "Weight"; a_value := s_ "Value"; a_selection := s_ "Selection"; a_position := s_ "Position"; a_window := None |}.
Definition sp_names : list str := [s_ "data"; s_ "randoms"].
Example C289_example : exists c c' g, species_init sp_names [ex_sp (ANum 100); ex_sp (AVec [100; 100; 100]%Z)] [] = Ok c /\
  species_to_mesh c no_args = Ok g /\ dget (g_attrs g) (s_ "BoxSize") = Some (AVec [100; 100; 100]%Z) /\
  dget (g_attrs g) (s_ "randoms.Nmesh") = Some (ANum 8) /\ fair sp_names [ex_sp (ANum 100); ex_sp (AVec [100; 100; 100]%Z)] [] /\
  species_init sp_names [ex_sp (ANum 100); ex_sp (ANum 101)] [] = Ok c' /\ species_to_mesh c' no_args = Err ValueError.
Proof.
  eexists. eexists. eexists. split; [vm_compute; reflexivity | ]. split; [vm_compute; reflexivity | ].
  split; [vm_compute; reflexivity | ]. split; [vm_compute; reflexivity | ]. split; [ | split; [vm_compute; reflexivity | vm_compute; reflexivity]].
  split; [ | split; [ | split; [constructor | intros k []]]].
  - intros n [<- | [<- | []]]; vm_compute; intuition discriminate.
  - intros i [<- | [<- | []]]; (constructor; [intros [H | []]; discriminate | constructor; [intros [] | constructor]]).
Qed.

(* ---- C290: names of species with dots ---- *)
Theorem C290_dotted_names_refuted : exists names (cats : list (inst nat)) c g,
  NoDup names /\ species_init names cats [] = Ok c /\ species_to_mesh c no_args = Ok g /\
  dget (g_attrs g) (s_ "BoxSize") = Some (AVec [7; 7; 7]%Z) /\
  (forall i v, In i cats -> dget (i_attrs i) (s_ "BoxSize") = Some v -> v = ANum 100).
Proof.
  exists [s_ "sim.halos"; s_ "sim"],
    [ex_sp (ANum 100); {| i_mro := [ex_halo; ex_base]; i_over := []; i_attrs := [(s_ "halos.BoxSize", ANum 7)] |}].
  eexists. eexists. split; [constructor; [intros [H | []]; discriminate | constructor; [intros [] | constructor]] | ].
  split; [vm_compute; reflexivity | ]. split; [vm_compute; reflexivity | ]. split; [vm_compute; reflexivity | ].
  intros i v [<- | [<- | []]] H; vm_compute in H; congruence.
Qed.
Print Assumptions C290_dotted_names_refuted.

(* ---- C291: resamplers that do not exist ---- *)
Theorem C291_unknown_resampler_refuted : exists (i : inst nat) c g,
  species_init sp_names [i; i] [] = Ok c /\
  to_mesh ex_methods i (ex_args "gauss" false) = Err ValueError /\ species_to_mesh c (ex_args "gauss" false) = Ok g.
Proof. exists (ex_sp (ANum 100)). eexists. eexists. split; [vm_compute; reflexivity | ]. split; [vm_compute; reflexivity | vm_compute; reflexivity]. Qed.
Print Assumptions C291_unknown_resampler_refuted.
