From Verif Require Import Base BaseProofs HalModel HalProofs.
From Coq Require Import String.
Local Open Scope nat_scope.
Local Notation length := List.length.

(* C231: the seed and parameters in attrs describe the galaxies, after any sequence of operations *)
Theorem C231_attrs : forall (H G : Type) (fill : H -> dict -> Z -> list G) rng n l j c, Forall (op_ok n) l ->
  nth_error (w_cats (run fill rng empty_world l)) j = Some c ->
  exists m halos, nth_error (w_models (run fill rng empty_world l)) (g_model c) = Some m /\ m_mock m = Some halos /\
    (csize (g_data c) = 0 \/ galaxies fill rng halos (g_params c) (g_seeds c) (g_data c)).
Proof. intros H G fill rng n l j c F E. exact (attrs_describe fill rng n l c j F E). Qed.
Print Assumptions C231_attrs.
(* halos: a number of them per rank; a galaxy per halo, that shows the parameter alpha and the seed; no galaxy if alpha < 0 *)
Definition demo_fill (h : nat) (ps : dict) (s : Z) : list Z := match HalModel.get ps "alpha" with Some a => if (a <? 0)%Z then [] else repeat (1000 * a + s)%Z h | None => [] end.
Definition demo_rng (s : Z) (n : nat) : list Z := map (fun i => (s + Z.of_nat i)%Z) (seq 0 n).
Definition demo_ops : list (op nat) :=
  [ NewModel [("alpha"%string, 1%Z)]; Populate [2; 1] 0 (Some 7%Z) [0; 0]%Z []; Repopulate 0 (Some 8%Z) [0; 0]%Z [("alpha"%string, 3%Z)]; Repopulate 0 (Some 9%Z) [0; 0]%Z [] ].
Example C231_example : Forall (op_ok 2) demo_ops /\
  w_cats (run demo_fill demo_rng empty_world demo_ops) = [{| g_data := [[3009; 3009]; [3010]]%Z; g_params := [("alpha"%string, 3%Z)]; g_seeds := [9; 9]%Z; g_model := 0 |}].
Proof. split; [repeat constructor|vm_compute; reflexivity]. Qed.

(* C232: populate and repopulate *)
Theorem C232_populate : forall (H G : Type) (fill : H -> dict -> Z -> list G) rng w mi m halos seed draws ps w',
  nth_error (w_models w) mi = Some m -> m_mock m = None -> length draws = length halos ->
  exec fill rng w (Populate halos mi seed draws ps) = (w', Ok tt) ->
  exists c, w_cats w' = w_cats w ++ [c] /\ g_model c = mi /\ g_params c = update (m_params m) ps /\ g_seeds c = rank_seeds (length halos) seed draws /\ galaxies fill rng halos (g_params c) (g_seeds c) (g_data c) /\
    nth_error (w_models w') mi = Some {| m_params := update (m_params m) ps; m_mock := Some halos |}.
Proof. intros H G fill rng. exact (populate_fresh fill rng). Qed.
Print Assumptions C232_populate.
Theorem C232_repopulate : forall (H G : Type) (fill : H -> dict -> Z -> list G) rng w ci c m halos seed draws ps w',
  nth_error (w_cats w) ci = Some c -> nth_error (w_models w) (g_model c) = Some m -> m_mock m = Some halos -> length draws = length halos ->
  exec fill rng w (Repopulate ci seed draws ps) = (w', Ok tt) ->
  exists c', w_cats w' = set (w_cats w) ci c' /\ g_model c' = g_model c /\ g_params c' = update (m_params m) ps /\ g_seeds c' = rank_seeds (length halos) seed draws /\ galaxies fill rng halos (g_params c') (g_seeds c') (g_data c').
Proof. intros H G fill rng. exact (repopulate_ok fill rng). Qed.
Print Assumptions C232_repopulate.
Theorem C232_reproduce : forall (H G : Type) (fill : H -> dict -> Z -> list G) rng n w mi m halos s draws ps w1 l draws2 w3,
  nth_error (w_models w) mi = Some m -> m_mock m = None -> length halos = n -> length draws = n -> length draws2 = n ->
  (forall k, In k (map fst (m_params m)) -> In k (map fst ps)) ->
  exec fill rng w (Populate halos mi (Some s) draws ps) = (w1, Ok tt) ->
  let ci := length (w_cats w) in
  exec fill rng (run fill rng w1 l) (Repopulate ci (Some s) draws2 ps) = (w3, Ok tt) ->
  exists c c', nth_error (w_cats w1) ci = Some c /\ nth_error (w_cats w3) ci = Some c' /\ g_data c' = g_data c /\ g_params c' = g_params c /\ g_seeds c' = g_seeds c.
Proof. intros H G fill rng. exact (reproduce fill rng). Qed.
Print Assumptions C232_reproduce.
Theorem C232_invalid : forall (H G : Type) (fill : H -> dict -> Z -> list G) rng w halos mi m seed draws ps k v, nth_error (w_models w) mi = Some m -> In (k, v) ps -> ~ In k (map fst (m_params m)) ->
  exec fill rng w (Populate halos mi seed draws ps) = (w, Err ValueError) /\
  (forall ci c, nth_error (w_cats w) ci = Some c -> g_model c = mi -> exec fill rng w (Repopulate ci seed draws ps) = (w, Err ValueError)).
Proof.
  intros H G fill rng w halos mi m seed draws ps k v E Hin Hn. assert (N : ~ names_ok m ps) by (intros K; apply Hn; eapply K; exact Hin).
  split; [apply (invalid_names fill rng w mi m); assumption|]. intros ci c Ec <-. cbn [exec]. rewrite Ec. apply (invalid_names fill rng w (g_model c) m); assumption.
Qed.
Print Assumptions C232_invalid.
Definition w0 : world nat Z := {| w_models := [{| m_params := [("alpha"%string, 1%Z)]; m_mock := None |}]; w_cats := [] |}.
Example C232_example : exists w1 w3, exec demo_fill demo_rng w0 (Populate [2; 1] 0 (Some 7%Z) [0; 0]%Z [("alpha"%string, 2%Z)]) = (w1, Ok tt) /\
  exec demo_fill demo_rng (run demo_fill demo_rng w1 [Repopulate 0 None [5; 6]%Z [("alpha"%string, 4%Z)]; Populate [9; 9] 0 (Some 1%Z) [0; 0]%Z []])
    (Repopulate 0 (Some 7%Z) [3; 3]%Z [("alpha"%string, 2%Z)]) = (w3, Ok tt) /\
  map (fun c => g_data c) (w_cats w1) = [[[2007; 2007]; [2008]]]%Z /\ nth 0 (map (fun c => g_data c) (w_cats w3)) [] = [[2007; 2007]; [2008]]%Z.
Proof. eexists _, _. repeat split; vm_compute; reflexivity. Qed.
Example C232_invalid_example : exec demo_fill demo_rng w0 (Populate [2; 1] 0 (Some 7%Z) [0; 0]%Z [("beta"%string, 2%Z)]) = (w0, Err ValueError).
Proof. refine (proj1 (C232_invalid _ _ demo_fill demo_rng w0 [2; 1] 0 _ (Some 7%Z) [0; 0]%Z [("beta"%string, 2%Z)] "beta"%string 2%Z eq_refl _ _)); [left; reflexivity|cbn; intuition discriminate]. Qed.

(* C233: a halotools model that was used for another halo catalog *)
Theorem C233_reused : forall (H G : Type) (fill : H -> dict -> Z -> list G) rng w mi m old halos seed draws ps w',
  nth_error (w_models w) mi = Some m -> m_mock m = Some old -> length draws = length old ->
  exec fill rng w (Populate halos mi seed draws ps) = (w', Ok tt) ->
  exists c, w_cats w' = w_cats w ++ [c] /\ galaxies fill rng old (g_params c) (g_seeds c) (g_data c).
Proof.
  intros H G fill rng w mi m old halos seed draws ps w' E Em L. cbn [exec]. unfold populate_mock. rewrite E, Em. destruct (existsb _ ps); [intros X; discriminate|].
  destruct (csize _ =? 0); [intros X; discriminate|]. intros X. injection X as <-. cbn [w_cats].
  eexists. split; [reflexivity|]. apply galaxies_fill, rank_seeds_length; exact L.
Qed.
Print Assumptions C233_reused.
Theorem C233_model_reuse_refuted : exists (H G : Type) (fill : H -> dict -> Z -> list G) rng l halos c, Forall (op_ok 1) (l ++ [Populate halos 0 (Some 7%Z) [0%Z] []]) /\
  w_cats (run fill rng empty_world (l ++ [Populate halos 0 (Some 7%Z) [0%Z] []])) = w_cats (run fill rng empty_world l) ++ [c] /\
  ~ galaxies fill rng halos (g_params c) (g_seeds c) (g_data c).
Proof.
  exists nat, Z, demo_fill, demo_rng, [NewModel [("alpha"%string, 1%Z)]; Populate [2] 0 (Some 7%Z) [0%Z] []], [5]. eexists. split; [repeat constructor|]. split; [vm_compute; reflexivity|].
  intros (_ & _ & K). specialize (K 0 5 7%Z eq_refl eq_refl). vm_compute in K. discriminate.
Qed.
Print Assumptions C233_model_reuse_refuted.

(* C234: repopulate without any galaxy raises, the catalog is changed *)
Theorem C234_failed_repopulate_refuted : exists (H G : Type) (fill : H -> dict -> Z -> list G) rng w o c c', 
  snd (exec fill rng w o) = Err ValueError /\ nth_error (w_cats w) 0 = Some c /\ nth_error (w_cats (fst (exec fill rng w o))) 0 = Some c' /\
  g_data c' <> g_data c /\ g_params c' = g_params c /\ g_seeds c' = g_seeds c.
Proof.
  exists nat, Z, demo_fill, demo_rng, (run demo_fill demo_rng empty_world [NewModel [("alpha"%string, 1%Z)]; Populate [2] 0 (Some 7%Z) [0%Z] []]), (Repopulate 0 (Some 8%Z) [0%Z] [("alpha"%string, (-1)%Z)]).
  eexists _, _. split; [vm_compute; reflexivity|]. split; [vm_compute; reflexivity|]. split; [vm_compute; reflexivity|]. split; [discriminate|]. split; reflexivity.
Qed.
Print Assumptions C234_failed_repopulate_refuted.

(* C235: without a seed every rank draws its own *)
Theorem C235_seed_none_refuted : exists (H G : Type) (fill : H -> dict -> Z -> list G) rng w halos draws c, length halos = 2 /\ length draws = 2 /\
  w_cats (fst (exec fill rng w (Populate halos 0 None draws []))) = [c] /\
  (exists s, In s (g_seeds c) /\ exists s', In s' (g_seeds c) /\ s <> s') /\
  (forall s, g_data c <> fill_all fill rng halos (g_params c) [s; s]).
Proof.
  exists nat, Z, demo_fill, demo_rng, w0, [2; 1], [5; 9]%Z. eexists. split; [reflexivity|]. split; [reflexivity|]. split; [vm_compute; reflexivity|]. split.
  - exists 5%Z. split; [left; reflexivity|]. exists 9%Z. split; [right; left; reflexivity|lia].
  - intros s. unfold fill_all, seed1, demo_rng, demo_fill. cbn [g_data g_params length seq combine map nth fst snd HalModel.get find option_map String.eqb Ascii.eqb Bool.eqb].
    change (1 <? 0)%Z with false. cbn [repeat]. intros K. apply (f_equal (map (fun l => hd 0%Z l))) in K. cbn [map hd] in K. assert (K1 := f_equal (fun l => nth 0 l 0%Z) K). assert (K2 := f_equal (fun l => nth 1 l 0%Z) K). cbn [nth] in K1, K2. lia.
Qed.
Print Assumptions C235_seed_none_refuted.
Theorem C235_given : forall (H G : Type) (fill : H -> dict -> Z -> list G) rng w halos mi s draws ps w', exec fill rng w (Populate halos mi (Some s) draws ps) = (w', Ok tt) ->
  exists c, w_cats w' = w_cats w ++ [c] /\ Forall (eq s) (g_seeds c).
Proof.
  intros H G fill rng w halos mi s draws ps w'. cbn [exec]. unfold populate_mock. destruct (nth_error (w_models w) mi) as [m|]; [|intros X; discriminate]. destruct (existsb _ ps); [intros X; discriminate|].
  destruct (match m_mock m with Some h => Some h | None => Some halos end) as [h|]; [|intros X; discriminate].
  destruct (csize _ =? 0); [intros X; discriminate|]. intros X. injection X as <-. cbn [w_cats]. eexists. split; [reflexivity|]. cbn.
  apply Forall_forall. intros x Hx. apply repeat_spec in Hx. congruence.
Qed.
Print Assumptions C235_given.

(* C236: the column given as concentration_key *)
Theorem C236_concentration_key_refuted : exists m redshift mdef k k', k <> k' /\ to_halotools m redshift mdef (Some k) None = to_halotools m redshift mdef (Some k') None.
Proof. exists Zheng07, 0%Z, "vir"%string, "halo_nfw_conc"%string, "my_conc"%string. split; [discriminate|reflexivity]. Qed.
Print Assumptions C236_concentration_key_refuted.
Theorem C236_none_refuted : exists m redshift mdef k, to_halotools m redshift mdef (Some k) None = to_halotools m redshift mdef None None.
Proof. exists Leauthaud11, 0%Z, "vir"%string, "halo_nfw_conc"%string. reflexivity. Qed.
Print Assumptions C236_none_refuted.
Theorem C236_ignored : forall m redshift mdef md k k', m <> Zheng07 \/ (k <> None <-> k' <> None) -> to_halotools m redshift mdef k md = to_halotools m redshift mdef k' md.
Proof.
  intros m redshift mdef md k k' [N|N]; unfold to_halotools.
  - destruct m; [congruence|reflexivity|reflexivity].
  - assert ((match k with None => "dutton_maccio14" | Some _ => "direct_from_halo_catalog" end = match k' with None => "dutton_maccio14" | Some _ => "direct_from_halo_catalog" end)%string) as ->; [|reflexivity].
    destruct k, k'; try reflexivity; exfalso; destruct N as [A B]; [apply A|apply B]; congruence.
Qed.
Print Assumptions C236_ignored.
Example C236_zheng : c_conc_model (to_halotools Zheng07 0 "vir" None None) = Some "dutton_maccio14"%string /\ c_conc_model (to_halotools Zheng07 0 "vir" (Some "halo_nfw_conc"%string) None) = Some "direct_from_halo_catalog"%string.
Proof. split; reflexivity. Qed.
