From Verif Require Import Base BaseProofs HalModel.
From Coq Require Import String.
Local Open Scope nat_scope.
Local Notation length := List.length.

Lemma set_length {A} (l : list A) i x : length (set l i x) = length l.
Proof. revert i; induction l; intros [|i]; cbn; auto. Qed.
Lemma set_same {A} (l : list A) i x : i < length l -> nth_error (set l i x) i = Some x.
Proof. revert i; induction l; intros [|i]; cbn; intros H; try lia; [reflexivity|]. apply IHl; lia. Qed.
Lemma set_other {A} (l : list A) i j x : i <> j -> nth_error (set l i x) j = nth_error l j.
Proof. revert i j; induction l; intros [|i] [|j]; cbn; intros H; try reflexivity; try congruence. apply IHl; lia. Qed.
Lemma set_nth {A} (l : list A) i j x y : nth_error (set l i x) j = Some y -> (i = j /\ y = x) \/ (i <> j /\ nth_error l j = Some y).
Proof.
  destruct (Nat.eq_dec i j) as [->|E].
  - intros H. left. assert (j < length l) by (rewrite <- (set_length l j x); apply nth_error_Some; congruence). rewrite set_same in H by assumption. split; [reflexivity|congruence].
  - intros H. rewrite set_other in H by exact E. auto.
Qed.
Lemma nth_error_seq n r : r < n -> nth_error (seq 0 n) r = Some r.
Proof. intros H. rewrite (nth_error_nth' _ 0) by (rewrite seq_length; lia). rewrite seq_nth by lia. reflexivity. Qed.
Lemma nth_error_combine' {A B} (l : list A) (l' : list B) r : nth_error (combine l l') r = match nth_error l r, nth_error l' r with Some a, Some b => Some (a, b) | _, _ => None end.
Proof. revert l' r; induction l as [|a l IH]; intros [|b l'] [|r]; cbn; try reflexivity; [destruct (nth_error l r); reflexivity|apply IH]. Qed.

Lemma rank_seeds_length n seed draws : length draws = n -> length (rank_seeds n seed draws) = n.
Proof. intros L. unfold rank_seeds. destruct seed; [apply repeat_length|]. rewrite firstn_length. lia. Qed.

Lemma update_names d ps : map fst (update d ps) = map fst d.
Proof. unfold update. rewrite map_map. reflexivity. Qed.
Lemma has_iff d k : has d k = true <-> In k (map fst d).
Proof.
  unfold has. rewrite existsb_exists, in_map_iff. split.
  - intros (kv & Hin & E). apply String.eqb_eq in E. eauto.
  - intros (kv & E & Hin). exists kv. split; [exact Hin|]. apply String.eqb_eq. exact E.
Qed.
Lemma update_all d d' ps : map fst d = map fst d' -> (forall k, In k (map fst d) -> In k (map fst ps)) -> update d ps = update d' ps.
Proof.
  revert d'. induction d as [|[k v] d IH]; intros [|[k' v'] d'] E A; cbn in E; try discriminate; [reflexivity|].
  injection E as -> E. unfold update. cbn [map fst snd]. f_equal.
  - assert (In k' (map fst ps)) as Hk by (apply A; left; reflexivity). unfold HalModel.get.
    destruct (find (fun kv => String.eqb (fst kv) k') ps) as [kv|] eqn:F; cbn [option_map]; [reflexivity|]. exfalso.
    apply in_map_iff in Hk. destruct Hk as (kv & Ek & Hin). pose proof (find_none _ _ F kv Hin) as N. cbn beta in N. apply String.eqb_neq in N. congruence.
  - apply IH; [exact E|]. intros x Hx. apply A. right. exact Hx.
Qed.
Section Populate.
Context {H G : Type}.
Variable fill : H -> dict -> Z -> list G.
Variable rng : Z -> nat -> list Z.

(* the galaxies of every rank are those of its halos for the parameters ps, with number r of the stream of the seed of rank r *)
Definition galaxies (halos : list H) (ps : dict) (seeds : list Z) (data : list (list G)) : Prop :=
  length data = length halos /\ length seeds = length halos /\
  forall r h s, nth_error halos r = Some h -> nth_error seeds r = Some s -> nth_error data r = Some (fill h ps (nth r (rng s (length halos)) 0%Z)).
Lemma galaxies_fill halos ps seeds : length seeds = length halos -> galaxies halos ps seeds (fill_all fill rng halos ps seeds).
Proof.
  intros L. unfold galaxies, fill_all, seed1. rewrite map_length, combine_length, map_length, combine_length, seq_length. split; [lia|]. split; [exact L|].
  intros r h s Hh Hs. assert (r < length halos) by (apply nth_error_Some; congruence).
  rewrite nth_error_map', nth_error_combine', Hh, nth_error_map', nth_error_combine', Hs, nth_error_seq by assumption. reflexivity.
Qed.
Lemma galaxies_unique halos ps seeds d d' : galaxies halos ps seeds d -> galaxies halos ps seeds d' -> d = d'.
Proof.
  intros (L & L2 & A) (L' & _ & A'). apply nth_error_ext. intros r.
  destruct (nth_error halos r) as [h|] eqn:Eh.
  - assert (r < length halos) by (apply nth_error_Some; congruence). destruct (nth_error seeds r) as [s|] eqn:Es; [|apply nth_error_None in Es; lia].
    rewrite (A r h s), (A' r h s) by assumption. reflexivity.
  - apply nth_error_None in Eh. assert (nth_error d r = None) as -> by (apply nth_error_None; lia). symmetry. apply nth_error_None; lia.
Qed.
(* every operation is made by n ranks *)
Definition op_ok (n : nat) (o : op H) : Prop := match o with
  | NewModel _ => True | Populate halos _ _ draws _ => length halos = n /\ length draws = n | Repopulate _ _ draws _ => length draws = n end.
Definition described (w : world H G) (c : gcat G) : Prop :=
  exists m halos, nth_error (w_models w) (g_model c) = Some m /\ m_mock m = Some halos /\ (csize (g_data c) = 0 \/ galaxies halos (g_params c) (g_seeds c) (g_data c)).
Definition inv (n : nat) (w : world H G) : Prop :=
  (forall i m halos, nth_error (w_models w) i = Some m -> m_mock m = Some halos -> length halos = n) /\
  (forall j c, nth_error (w_cats w) j = Some c -> described w c).

(* models keep their halos and the names of their parameters *)
Definition kept (w w' : world H G) : Prop := forall i m, nth_error (w_models w) i = Some m ->
  exists m', nth_error (w_models w') i = Some m' /\ map fst (m_params m') = map fst (m_params m) /\ (forall h, m_mock m = Some h -> m_mock m' = Some h).
Lemma kept_refl w : kept w w. Proof. intros i m E. exists m. auto. Qed.
Lemma kept_trans w1 w2 w3 : kept w1 w2 -> kept w2 w3 -> kept w1 w3.
Proof. intros A B i m E. destruct (A i m E) as (m' & E' & K1 & K2). destruct (B i m' E') as (m2 & E2 & K3 & K4). exists m2. split; [exact E2|]. split; [congruence|]. auto. Qed.
Lemma kept_set (w : world H G) mi m params mock cats : nth_error (w_models w) mi = Some m -> map fst params = map fst (m_params m) -> (forall h, m_mock m = Some h -> mock = Some h) ->
  kept w {| w_models := set (w_models w) mi {| m_params := params; m_mock := mock |}; w_cats := cats |}.
Proof.
  intros E Hp Hm i m0 E0. cbn [w_models]. destruct (Nat.eq_dec mi i) as [->|Hne].
  - rewrite set_same by (apply nth_error_Some; congruence). assert (m0 = m) as -> by congruence. eexists. split; [reflexivity|]. split; assumption.
  - rewrite set_other by exact Hne. exists m0. auto.
Qed.
Lemma populate_kept w mi seed draws halocat inplace ps : kept w (fst (populate_mock fill rng w mi seed draws halocat inplace ps)).
Proof.
  unfold populate_mock. destruct (nth_error (w_models w) mi) as [m|] eqn:E; [|apply kept_refl].
  destruct (existsb _ ps); [apply kept_refl|].
  pose proof (update_names (m_params m) ps) as Hn.
  destruct (m_mock m) as [halos|] eqn:Em; [|destruct halocat as [halos|]].
  - destruct inplace as [ci|]; [destruct (nth_error (w_cats w) ci)|]; try (destruct (_ =? 0)); cbn [fst]; apply (kept_set w mi m); auto; intros; congruence.
  - destruct inplace as [ci|]; [destruct (nth_error (w_cats w) ci)|]; try (destruct (_ =? 0)); cbn [fst]; apply (kept_set w mi m); auto; intros; congruence.
  - cbn [fst]. apply (kept_set w mi m); auto. intros; congruence.
Qed.
Lemma exec_kept w o : kept w (fst (exec fill rng w o)).
Proof.
  destruct o as [ps|halos mi seed draws ps|ci seed draws ps]; cbn [exec].
  - intros i m E. cbn [fst w_models]. exists m. rewrite nth_error_app1 by (apply nth_error_Some; congruence). auto.
  - apply populate_kept.
  - destruct (nth_error (w_cats w) ci); [apply populate_kept|apply kept_refl].
Qed.
Lemma run_kept l : forall w, kept w (run fill rng w l).
Proof. induction l as [|o l IH]; intros w; [apply kept_refl|]. cbn [run fold_left]. eapply kept_trans; [apply exec_kept|apply IH]. Qed.
Lemma described_kept w w' c : kept w w' -> described w c -> described w' c.
Proof. intros K (m & halos & E & Em & D). destruct (K _ _ E) as (m' & E' & _ & Hm). exists m', halos. auto. Qed.

Lemma populate_inv n w mi seed draws halocat inplace ps : inv n w -> length draws = n -> (forall h, halocat = Some h -> length h = n) ->
  inv n (fst (populate_mock fill rng w mi seed draws halocat inplace ps)).
Proof.
  intros I Hd Hh. pose proof (populate_kept w mi seed draws halocat inplace ps) as K. destruct I as [I1 I2].
  unfold populate_mock in *. destruct (nth_error (w_models w) mi) as [m|] eqn:E; [|split; assumption].
  destruct (existsb _ ps); [split; assumption|].
  set (x := match m_mock m with Some h => Some h | None => halocat end) in *.
  destruct x as [halos|] eqn:Ex.
  2:{ split; cbn [fst w_models w_cats] in *.
      - intros i m0 h E0 Em. apply set_nth in E0. destruct E0 as [[-> ->]|[_ E0]]; [|eauto]. cbn in Em. eauto.
      - intros j c Ec. eapply described_kept; [exact K|]. eauto. }
  assert (Lh : length halos = n) by (unfold x in Ex; destruct (m_mock m) eqn:Em; [injection Ex as <-; eauto|eauto]).
  assert (J1 : forall i m0 h, nth_error (set (w_models w) mi {| m_params := update (m_params m) ps; m_mock := Some halos |}) i = Some m0 -> m_mock m0 = Some h -> length h = n).
  { intros i m0 h E0 Em. apply set_nth in E0. destruct E0 as [[_ ->]|[_ E0]]; [cbn in Em; injection Em as <-; exact Lh|eauto]. }
  assert (New : forall w2 c, w_models w2 = set (w_models w) mi {| m_params := update (m_params m) ps; m_mock := Some halos |} -> g_model c = mi ->
            (csize (g_data c) = 0 \/ galaxies halos (g_params c) (g_seeds c) (g_data c)) -> described w2 c).
  { intros w2 c Ew Em D. exists {| m_params := update (m_params m) ps; m_mock := Some halos |}, halos. rewrite Ew, Em, set_same by (apply nth_error_Some; congruence). auto. }
  assert (Gx : galaxies halos (update (m_params m) ps) (rank_seeds (length halos) seed draws) (fill_all fill rng halos (update (m_params m) ps) (rank_seeds (length halos) seed draws))).
  { apply galaxies_fill. apply rank_seeds_length. lia. }
  destruct inplace as [ci|].
  - destruct (nth_error (w_cats w) ci) as [c|] eqn:Ec.
    + destruct (Nat.eqb_spec (csize (fill_all fill rng halos (update (m_params m) ps) (rank_seeds (length halos) seed draws))) 0) as [Z0|Z0]; cbn [fst] in *; (split; [exact J1|]); intros j c' E'; cbn [w_cats] in E'; apply set_nth in E'.
      * destruct E' as [[_ ->]|[_ E']]; [|eapply described_kept; [exact K|]; eauto]. apply New; [reflexivity|reflexivity|]. left. exact Z0.
      * destruct E' as [[_ ->]|[_ E']]; [|eapply described_kept; [exact K|]; eauto]. apply New; [reflexivity|reflexivity|]. right. exact Gx.
    + cbn [fst] in *. split; [exact J1|]. intros j c' E'. eapply described_kept; [exact K|]. eauto.
  - destruct (csize _ =? 0) eqn:Z0; cbn [fst] in *; (split; [exact J1|]); intros j c' E'; cbn [w_cats] in E'.
    + eapply described_kept; [exact K|]; eauto.
    + destruct (Nat.lt_ge_cases j (length (w_cats w))) as [Lj|Lj].
      * rewrite nth_error_app1 in E' by exact Lj. eapply described_kept; [exact K|]; eauto.
      * rewrite nth_error_app2 in E' by exact Lj. destruct (j - length (w_cats w)) as [|[|k]]; cbn in E'; try discriminate. injection E' as <-. apply New; [reflexivity|reflexivity|]. right. exact Gx.
Qed.
Lemma exec_inv n w o : inv n w -> op_ok n o -> inv n (fst (exec fill rng w o)).
Proof.
  intros I Ho. destruct o as [ps|halos mi seed draws ps|ci seed draws ps]; cbn [exec op_ok] in *.
  - pose proof (exec_kept w (NewModel ps)) as K. destruct I as [I1 I2]. cbn [fst]. split; cbn [w_models w_cats].
    + intros i m h E Em. destruct (Nat.lt_ge_cases i (length (w_models w))) as [L|L].
      * rewrite nth_error_app1 in E by exact L. eauto.
      * rewrite nth_error_app2 in E by exact L. destruct (i - length (w_models w)) as [|[|k]]; cbn in E; try discriminate. injection E as <-. discriminate.
    + intros j c E. eapply described_kept; [exact K|]. eauto.
  - destruct Ho as [A B]. apply populate_inv; auto. intros h E; injection E as <-; exact A.
  - destruct (nth_error (w_cats w) ci); [|exact I]. apply populate_inv; auto. intros; discriminate.
Qed.
Lemma run_inv n l : forall w, inv n w -> Forall (op_ok n) l -> inv n (run fill rng w l).
Proof. induction l as [|o l IH]; intros w I F; [exact I|]. inversion F; subst. cbn [run fold_left]. apply IH; [apply exec_inv; assumption|assumption]. Qed.
Lemma empty_inv n : inv n empty_world.
Proof. split; intros [|i]; cbn; intros; discriminate. Qed.
Lemma attrs_describe n l c j : Forall (op_ok n) l -> nth_error (w_cats (run fill rng empty_world l)) j = Some c ->
  described (run fill rng empty_world l) c.
Proof. intros F E. destruct (run_inv n l empty_world (empty_inv n) F) as [_ D]. eapply D; exact E. Qed.

(* ---- one operation ---- *)
Definition names_ok (m : hmodel H) (ps : dict) : Prop := forall k v, In (k, v) ps -> In k (map fst (m_params m)).
Lemma names_check m ps : existsb (fun kv => negb (has (m_params m) (fst kv))) ps = false <-> names_ok m ps.
Proof.
  split.
  - intros E k v Hin. apply has_iff. destruct (has (m_params m) k) eqn:Ek; [reflexivity|]. exfalso.
    assert (existsb (fun kv => negb (has (m_params m) (fst kv))) ps = true); [|congruence]. apply existsb_exists. exists (k, v). cbn [fst]. rewrite Ek. auto.
  - intros N. apply not_true_is_false. intros K. apply existsb_exists in K. destruct K as ([k v] & Hin & E). cbn [fst] in E. apply negb_true_iff in E.
    assert (has (m_params m) k = true) by (apply has_iff; eapply N; exact Hin). congruence.
Qed.
Lemma invalid_names w mi m seed draws halocat inplace ps : nth_error (w_models w) mi = Some m -> ~ names_ok m ps ->
  populate_mock fill rng w mi seed draws halocat inplace ps = (w, Err ValueError).
Proof.
  intros E N. unfold populate_mock. rewrite E. destruct (existsb _ ps) eqn:X; [reflexivity|]. exfalso. apply N. apply names_check. exact X.
Qed.
Lemma populate_fresh w mi m halos seed draws ps w' : nth_error (w_models w) mi = Some m -> m_mock m = None -> length draws = length halos ->
  exec fill rng w (Populate halos mi seed draws ps) = (w', Ok tt) ->
  exists c, w_cats w' = w_cats w ++ [c] /\ g_model c = mi /\ g_params c = update (m_params m) ps /\ g_seeds c = rank_seeds (length halos) seed draws /\ galaxies halos (g_params c) (g_seeds c) (g_data c) /\
    nth_error (w_models w') mi = Some {| m_params := update (m_params m) ps; m_mock := Some halos |}.
Proof.
  intros E Em L. cbn [exec]. unfold populate_mock. rewrite E, Em. destruct (existsb _ ps); [intros X; discriminate|].
  destruct (csize _ =? 0); [intros X; discriminate|]. intros X. injection X as <-. cbn [w_cats].
  eexists. split; [reflexivity|]. cbn. do 3 (split; [reflexivity|]). split; [apply galaxies_fill, rank_seeds_length; exact L|].
  apply set_same. apply nth_error_Some. congruence.
Qed.
Lemma repopulate_ok w ci c m halos seed draws ps w' : nth_error (w_cats w) ci = Some c -> nth_error (w_models w) (g_model c) = Some m -> m_mock m = Some halos -> length draws = length halos ->
  exec fill rng w (Repopulate ci seed draws ps) = (w', Ok tt) ->
  exists c', w_cats w' = set (w_cats w) ci c' /\ g_model c' = g_model c /\ g_params c' = update (m_params m) ps /\ g_seeds c' = rank_seeds (length halos) seed draws /\ galaxies halos (g_params c') (g_seeds c') (g_data c').
Proof.
  intros Ec E Em L. cbn [exec]. rewrite Ec. unfold populate_mock. rewrite E, Em. destruct (existsb _ ps); [intros X; discriminate|].
  rewrite Ec. destruct (csize _ =? 0); [intros X; discriminate|]. intros X. injection X as <-. cbn [w_cats].
  eexists. split; [reflexivity|]. cbn. do 3 (split; [reflexivity|]). apply galaxies_fill, rank_seeds_length; exact L.
Qed.
(* a catalog stays at its place, with its model *)
Lemma populate_cat w mi seed draws halocat inplace ps j c : nth_error (w_cats w) j = Some c -> (forall ci c0, inplace = Some ci -> nth_error (w_cats w) ci = Some c0 -> g_model c0 = mi) ->
  exists c', nth_error (w_cats (fst (populate_mock fill rng w mi seed draws halocat inplace ps))) j = Some c' /\ g_model c' = g_model c.
Proof.
  intros E Hi. unfold populate_mock. destruct (nth_error (w_models w) mi) as [m|]; [|eauto]. destruct (existsb _ ps); [eauto|].
  destruct (match m_mock m with Some h => Some h | None => halocat end) as [halos|]; [|cbn; eauto].
  destruct inplace as [ci|].
  - destruct (nth_error (w_cats w) ci) as [c0|] eqn:Ec; [|cbn; eauto]. pose proof (Hi ci c0 eq_refl Ec) as Hm.
    destruct (Nat.eq_dec ci j) as [->|Hne].
    + assert (c0 = c) as -> by congruence. assert (j < length (w_cats w)) by (apply nth_error_Some; congruence).
      destruct (csize _ =? 0); cbn [fst w_cats]; rewrite set_same by assumption; eexists; (split; [reflexivity|]); cbn; auto.
    + destruct (csize _ =? 0); cbn [fst w_cats]; rewrite set_other by exact Hne; eauto.
  - destruct (csize _ =? 0); cbn [fst w_cats]; [eauto|]. rewrite nth_error_app1 by (apply nth_error_Some; congruence). eauto.
Qed.
Lemma run_cat l : forall w j c, nth_error (w_cats w) j = Some c -> exists c', nth_error (w_cats (run fill rng w l)) j = Some c' /\ g_model c' = g_model c.
Proof.
  induction l as [|o l IH]; intros w j c E; [exists c; auto|]. cbn [run fold_left].
  assert (exists c', nth_error (w_cats (fst (exec fill rng w o))) j = Some c' /\ g_model c' = g_model c) as (c' & E' & M).
  { destruct o as [ps|halos mi seed draws ps|ci seed draws ps]; cbn [exec].
    - exists c; auto.
    - apply populate_cat; [exact E|]. intros; discriminate.
    - destruct (nth_error (w_cats w) ci) as [c0|] eqn:Ec; [|eauto]. apply populate_cat; [exact E|]. intros ci' c1 X X1. injection X as <-. congruence. }
  destruct (IH _ _ _ E') as (c2 & E2 & M2). exists c2. split; [exact E2|congruence].
Qed.
(* whatever happens between, the same seed and parameters give the same galaxies *)
Lemma reproduce n w mi m halos s draws ps w1 l draws2 w3 : nth_error (w_models w) mi = Some m -> m_mock m = None -> length halos = n -> length draws = n -> length draws2 = n ->
  (forall k, In k (map fst (m_params m)) -> In k (map fst ps)) ->
  exec fill rng w (Populate halos mi (Some s) draws ps) = (w1, Ok tt) ->
  let ci := length (w_cats w) in
  exec fill rng (run fill rng w1 l) (Repopulate ci (Some s) draws2 ps) = (w3, Ok tt) ->
  exists c c', nth_error (w_cats w1) ci = Some c /\ nth_error (w_cats w3) ci = Some c' /\ g_data c' = g_data c /\ g_params c' = g_params c /\ g_seeds c' = g_seeds c.
Proof.
  intros E Em Lh Ld Ld2 Hall X ci Y. destruct (populate_fresh w mi m halos (Some s) draws ps w1 E Em ltac:(lia) X) as (c & Ec & Cm & Cp & Cs & Cg & Emod).
  assert (E1 : nth_error (w_cats w1) ci = Some c) by (rewrite Ec; unfold ci; rewrite nth_error_app2, Nat.sub_diag by lia; reflexivity).
  destruct (run_cat l w1 ci c E1) as (c2 & E2 & M2).
  destruct (run_kept l w1 mi _ Emod) as (m2 & Em2 & N2 & K2). specialize (K2 halos eq_refl). cbn [m_params] in N2. rewrite update_names in N2.
  destruct (repopulate_ok (run fill rng w1 l) ci c2 m2 halos (Some s) draws2 ps w3 E2) as (c' & Ec' & Cm' & Cp' & Cs' & Cg').
  - rewrite M2, Cm. exact Em2.
  - exact K2.
  - lia.
  - exact Y.
  - exists c, c'. split; [exact E1|]. split; [rewrite Ec'; apply set_same; apply nth_error_Some; congruence|].
    assert (Pp : g_params c' = g_params c) by (rewrite Cp', Cp; apply update_all; [exact N2|]; intros k Hk; apply Hall; congruence).
    assert (Ps : g_seeds c' = g_seeds c) by (rewrite Cs', Cs; reflexivity).
    split; [|split; assumption]. rewrite Pp, Ps in Cg'. eapply galaxies_unique; eassumption.
Qed.
End Populate.
