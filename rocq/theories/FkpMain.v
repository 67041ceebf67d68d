From Coq Require Import Ascii String QArith Qcanon Lia.
From Verif Require Import Base BaseProofs Num NamesModel NamesProofs TomProofs SurveyModel FkpModel FkpSpec FkpProofs.
Local Notation length := List.length.
Local Open Scope Qc_scope.

(* the same mesh up to its box and the compensation *)
Definition similar (a m : mesh) : Prop :=
  h_src a = h_src m /\ h_box a = h_box m /\ h_n a = h_n m /\ h_pos a = h_pos m /\ h_comp a = h_comp m /\ h_fkp a = h_fkp m /\
  h_sel a = h_sel m /\ h_nbar a = h_nbar m /\
  forall k, ~ In k [s_ "BoxSize"; s_ "BoxCenter"; s_ "compensated"] -> dget (h_attrs a) k = dget (h_attrs m) k.
Lemma similar_refl : forall m, similar m m.
Proof. intros m. unfold similar. repeat (split; [reflexivity | ]). reflexivity. Qed.
Lemma recenter_similar : forall m b c, similar (recenter m b c) m.
Proof.
  intros m b c. unfold similar, recenter. cbn [h_src h_box h_n h_pos h_comp h_fkp h_sel h_nbar h_attrs]. do 8 (split; [reflexivity | ]).
  intros k H. cbn [In] in H. rewrite !dget_set_other by (intros E; apply H; rewrite E; auto). reflexivity.
Qed.
Lemma uncomp_similar : forall a m, similar a m -> similar (uncompensate a) m.
Proof.
  intros a m (H1 & H2 & H3 & H4 & H5 & H6 & H7 & H8 & H9). unfold similar, uncompensate.
  cbn [h_src h_box h_n h_pos h_comp h_fkp h_sel h_nbar h_attrs]. do 8 (split; [assumption | ]).
  intros k H. rewrite dget_set_other; [apply H9; exact H | ]. intros E. apply H. rewrite E. cbn [In]. auto.
Qed.
Lemma same_box_similar : forall m1 m2 a b, same_box m1 m2 = Ok (a, b) -> similar a m1 /\ similar b m2.
Proof.
  intros m1 m2 a b H. unfold same_box in H.
  destruct (attr_vec (h_attrs m1) (s_ "BoxSize")) as [b1 | ]; [ | discriminate]. cbn [rbind] in H.
  destruct (attr_vec (h_attrs m2) (s_ "BoxSize")) as [b2 | ]; [ | discriminate]. cbn [rbind] in H.
  destruct (vec_eqb b1 b2); [injection H as <- <-; split; apply similar_refl | ].
  destruct (attr_vec (h_attrs m1) (s_ "BoxCenter")) as [c1 | ]; [ | discriminate]. cbn [rbind] in H.
  destruct (attr_vec (h_attrs m2) (s_ "BoxCenter")) as [c2 | ]; [ | discriminate]. cbn [rbind] in H. cbv zeta in H.
  assert (E := f_equal (fun r => match r with Ok x => x | Err _ => (m1, m2) end) H). cbn beta iota in E.
  assert (Ea := f_equal fst E). assert (Eb := f_equal snd E). cbn [fst snd] in Ea, Eb. subst a b. split; apply recenter_similar.
Qed.
Lemma vec_eqb_refl : forall a, vec_eqb a a = true.
Proof. intros a. unfold vec_eqb. destruct (list_eq_dec Qc_eq_dec a a); [reflexivity | congruence]. Qed.
Lemma same_box_self : forall m a b, same_box m m = Ok (a, b) -> a = m /\ b = m.
Proof.
  intros m a b H. unfold same_box in H. destruct (attr_vec (h_attrs m) (s_ "BoxSize")) as [b1 | ]; [ | discriminate]. cbn [rbind] in H.
  rewrite vec_eqb_refl in H. split; congruence.
Qed.
Lemma reads_similar : forall m1 m2 a b c objs, similar a m1 -> similar b m2 -> reads m1 m2 c objs -> reads a b c objs.
Proof.
  intros m1 m2 a b c objs (H1 & H2 & H3 & H4 & H5 & H6 & H7 & H8 & _) (G1 & G2 & G3 & G4 & G5 & G6 & G7 & G8 & _) R.
  unfold reads. rewrite H7, H5, H6, G6, G8, H4. exact R.
Qed.

Section Run.
Variable bbox : fkpcat -> str -> str -> res (list Qc * list Qc).
Variable kernels : list str.
Variable paint : list Qc -> list nat -> str -> bool -> list (list Qc) -> list ext -> list ext.

Definition base_attrs (m : mesh) (box center : list Qc) (pad : fval) : dict :=
  [(s_ "Nmesh", XNats (h_n m)); (s_ "BoxSize", XVec box); (s_ "BoxPad", pad); (s_ "BoxCenter", XVec center);
   (s_ "mesh.resampler", XStr (attr_str (h_attrs m) (s_ "resampler")));
   (s_ "mesh.interlaced", XBool (attr_bool (h_attrs m) (s_ "interlaced")))].
Definition four (d : dict) (a nd nr sh : fval) : dict :=
  dset (dset (dset (dset d (s_ "alpha") a) (s_ "data.norm") nd) (s_ "randoms.norm") nr) (s_ "shotnoise") sh.
Lemma run_inv : forall poles m1 m2 same p, run kernels paint poles m1 m2 same = Ok p ->
  valid_cross m1 m2 = true /\ poles <> [] /\ nodupz poles = true /\
  exists a b box center pad f1 alpha f2 alpha2 nd nr sd sr,
    same_box m1 m2 = Ok (a, b) /\ p_first p = uncompensate a /\ p_second p = uncompensate b /\
    attr_vec (h_attrs (p_first p)) (s_ "BoxSize") = Ok box /\ attr_vec (h_attrs (p_first p)) (s_ "BoxCenter") = Ok center /\
    compute paint (p_first p) = Ok f1 /\ num_attr (snd f1) (s_ "alpha") = Ok alpha /\
    (if same then f2 = f1 else compute paint (p_second p) = Ok f2) /\ num_attr (snd f2) (s_ "alpha") = Ok alpha2 /\
    eclose3 alpha alpha2 = true /\
    norm_of (p_first p) (p_second p) true alpha = Ok nd /\ norm_of (p_first p) (p_second p) false alpha = Ok nr /\
    (epos nr = true -> eclose5 nd nr = true) /\
    shot_of (p_first p) (p_second p) true = Ok sd /\ shot_of (p_first p) (p_second p) false = Ok sr /\
    p_norm p = (if epos nr then ediv (Fin 1) nr else Fin 1) /\
    p_kernels p = (used_kernel kernels (p_first p), used_kernel kernels (p_second p)) /\
    let at2 := four (base_attrs (p_first p) box center pad) (XNum alpha) (XNum nd) (XNum nr)
                 (XNum (ediv (eadd sd (emul sr (emul alpha alpha))) nr)) in
    p_attrs p = if same then copy_meta at2 (snd f1) [] else copy_meta (copy_meta at2 (snd f1) (s_ "first.")) (snd f2) (s_ "second.").
Proof.
  intros poles m1 m2 same p H. unfold run in H.
  destruct (valid_cross m1 m2); [ | discriminate]. cbn [negb] in H.
  destruct (same_box m1 m2) as [[a b] | ]; [ | discriminate]. cbn [rbind fst snd] in H. cbv zeta in H.
  destruct (nodupz poles) eqn:D; [ | discriminate]. cbn [negb] in H.
  destruct (attr_vec (h_attrs (uncompensate a)) (s_ "BoxSize")) as [box | ] eqn:Eb; [ | discriminate]. cbn [rbind] in H.
  destruct (attr_vec (h_attrs (uncompensate a)) (s_ "BoxCenter")) as [center | ] eqn:Ec; [ | discriminate]. cbn [rbind] in H.
  destruct (dget (h_attrs (uncompensate a)) (s_ "BoxPad")) as [pad | ] eqn:Ep; [ | discriminate]. cbn [rbind] in H.
  destruct (compute paint (uncompensate a)) as [f1 | ] eqn:E1; [ | discriminate]. cbn [rbind] in H.
  destruct (num_attr (snd f1) (s_ "alpha")) as [alpha | ] eqn:Ea; [ | discriminate]. cbn [rbind] in H.
  destruct (if same then Ok f1 else compute paint (uncompensate b)) as [f2 | ] eqn:E2; [ | discriminate]. cbn [rbind] in H.
  destruct (num_attr (snd f2) (s_ "alpha")) as [alpha2 | ] eqn:Ea2; [ | discriminate]. cbn [rbind] in H.
  destruct (eclose3 alpha alpha2) eqn:Cl; [ | discriminate]. cbn [negb] in H.
  destruct (norm_of (uncompensate a) (uncompensate b) true alpha) as [nd | ] eqn:End; [ | discriminate]. cbn [rbind] in H.
  destruct (norm_of (uncompensate a) (uncompensate b) false alpha) as [nr | ] eqn:Enr; [ | discriminate]. cbn [rbind] in H.
  destruct (epos nr && negb (eclose5 nd nr)) eqn:C5; [discriminate | ].
  destruct poles as [ | pl poles]; [discriminate | ]. cbv zeta in H.
  destruct (shot_of (uncompensate a) (uncompensate b) true) as [sd | ] eqn:Esd; [ | discriminate]. cbn [rbind] in H.
  destruct (shot_of (uncompensate a) (uncompensate b) false) as [sr | ] eqn:Esr; [ | discriminate]. cbn [rbind] in H.
  match type of H with Ok ?x = Ok _ => assert (E : p = x) by congruence end. clear H.
  assert (P1 : p_first p = uncompensate a) by (rewrite E; reflexivity).
  assert (P2 : p_second p = uncompensate b) by (rewrite E; reflexivity).
  split; [reflexivity | ]. split; [discriminate | ]. split; [reflexivity | ].
  exists a, b, box, center, pad, f1, alpha, f2, alpha2, nd, nr, sd, sr.
  rewrite P1, P2. do 5 (split; [first [reflexivity | assumption] | ]). split; [exact E1 | ]. split; [exact Ea | ].
  split; [destruct same; [congruence | exact E2] | ]. split; [exact Ea2 | ]. split; [exact Cl | ]. split; [exact End | ]. split; [exact Enr | ].
  split. { intros K. rewrite K in C5. cbn [andb] in C5. destruct (eclose5 nd nr); [reflexivity | discriminate]. }
  split; [exact Esd | ]. split; [exact Esr | ]. rewrite E. cbn [p_norm p_kernels p_attrs].
  split; [reflexivity | ]. split; [reflexivity | ]. reflexivity.
Qed.

Lemma norm_reads : forall m1 m2 c objs d alpha, species_cat m1 d = c -> species_cat m2 d = c -> reads m1 m2 c objs ->
  norm_of m1 m2 d (Fin alpha) = Ok (Fin (over (fun o => o_nbar o * o_comp o * o_fkp1 o * o_fkp2 o * (if d then 1 else alpha)) objs)).
Proof.
  intros m1 m2 c objs d alpha E1 E2 (_ & Hs & Hw & H1 & H2 & Hn & _). unfold norm_of. rewrite E1, E2, Hs. cbn [rbind]. rewrite Hw. cbn [rbind].
  rewrite Hn. cbn [rbind]. rewrite H1. cbn [rbind]. rewrite H2. cbn [rbind]. rewrite !pick_map, !emap2_map. cbn [emul].
  destruct d; [ | rewrite map_map; cbn [emul]]; rewrite esum_fin; unfold over; [ | reflexivity].
  f_equal. f_equal. f_equal. apply map_ext. intros o. ring.
Qed.
Lemma shot_reads : forall m1 m2 c objs d, species_cat m1 d = c -> species_cat m2 d = c -> reads m1 m2 c objs ->
  shot_of m1 m2 d = Ok (Fin (over (fun o => o_comp o * o_comp o * o_fkp1 o * o_fkp2 o) objs)).
Proof.
  intros m1 m2 c objs d E1 E2 (_ & Hs & Hw & H1 & H2 & _). unfold shot_of. rewrite E1, E2, Hs. cbn [rbind]. rewrite Hw. cbn [rbind].
  rewrite H1. cbn [rbind]. rewrite H2. cbn [rbind]. rewrite !pick_map. rewrite map_map. cbn [emul]. rewrite !emap2_map. cbn [emul].
  rewrite esum_fin. reflexivity.
Qed.

(* what painting says *)
Lemma species_reads : forall m1 m2 c objs f d, reads m1 m2 c objs -> species_field paint m1 c = Ok (f, d) ->
  exists sh, d = painted sh (XNum (Fin (nq (length (filter o_sel objs))))) (XNum (Fin (over (fun o => o_comp o * o_fkp1 o) objs)))
    (XNum (Fin (over (fun o => o_comp o * o_fkp1 o * (o_comp o * o_fkp1 o)) objs)))
    (XNum (ediv (Fin (over (fun o => o_comp o * o_fkp1 o) objs)) (Fin (cells (h_n m1))))).
Proof.
  intros m1 m2 c objs f d (_ & Hs & Hw & H1 & H2 & Hn & p & Hp & Lp) H.
  destruct (species_inv paint m1 c f d H) as (box & center & s & comp & fk & v & p' & _ & _ & Es & Ec & Ef & _ & Ep & Hd). cbv zeta in Hd.
  destruct Hd as [_ ->]. assert (s = map o_sel objs) by congruence. assert (comp = map (fun o => Fin (o_comp o)) objs) by congruence.
  assert (fk = map (fun o => Fin (o_fkp1 o)) objs) by congruence. assert (p' = p) by congruence. subst s comp fk p'.
  rewrite !emap2_map. cbn [emul]. rewrite !pick_map. rewrite map_map. cbn [emul]. rewrite !esum_fin.
  eexists. unfold painted. f_equal. f_equal. f_equal. f_equal. f_equal. f_equal.
  assert (E : length (pick (map o_sel objs) (map (fun x => map (fun ab => fst ab - snd ab) (combine x center)) p)) = length (filter o_sel objs)).
  { rewrite (pick_length _ _ _ _ (map (fun o => o) objs)) by (rewrite !map_length; exact Lp). rewrite pick_map, map_length. reflexivity. }
  rewrite E. reflexivity.
Qed.
Lemma field_reads : forall m1 m2 d r f meta, reads m1 m2 (k_data (h_src m1)) d -> reads m1 m2 (k_rand (h_src m1)) r ->
  over o_comp r <> 0 -> real_field paint m1 = Ok (f, meta) ->
  NoDup (map fst meta) /\
  says meta (s_ "data.N") (nq (length (filter o_sel d))) /\ says meta (s_ "randoms.N") (nq (length (filter o_sel r))) /\
  says meta (s_ "data.W") (over o_comp d) /\ says meta (s_ "randoms.W") (over o_comp r) /\
  says meta (s_ "alpha") (over o_comp d / over o_comp r) /\
  dget meta (s_ "data.num_per_cell") = Some (XNum (ediv (Fin (over (fun o => o_comp o * o_fkp1 o) d)) (Fin (cells (h_n m1))))) /\
  dget meta (s_ "randoms.num_per_cell") = Some (XNum (ediv (Fin (over (fun o => o_comp o * o_fkp1 o) r)) (Fin (cells (h_n m1))))) /\
  dget meta (s_ "data.norm") = None /\ dget meta (s_ "randoms.norm") = None /\
  dget meta (s_ "data.shotnoise") = None /\ dget meta (s_ "randoms.shotnoise") = None.
Proof.
  intros m1 m2 d r f meta Rd Rr HW H.
  destruct (field_inv paint m1 f meta H) as (Wd & Wr & fd & pr & fr & T1 & T2 & S1 & S2 & _ & ->).
  rewrite (total_reads m1 m2 _ _ Rd) in T1. rewrite (total_reads m1 m2 _ _ Rr) in T2.
  assert (Wd = Fin (over o_comp d)) by congruence. assert (Wr = Fin (over o_comp r)) by congruence. subst Wd Wr. clear T1 T2.
  rewrite ediv_fin by exact HW.
  destruct fd as [fd pd]. destruct (species_reads _ _ _ _ _ _ Rd S1) as [sh ->]. cbn [snd] in *.
  assert (L : (0 <? c_size (k_rand (h_src m1)))%nat = true).
  { apply Nat.ltb_lt. destruct Rr as (-> & _). destruct r as [ | o r]; [exfalso; apply HW; reflexivity | cbn [length]; lia]. }
  rewrite L in S2. destruct S2 as ([f2 p2] & S2 & -> & _). destruct (species_reads _ _ _ _ _ _ Rr S2) as [sh' ->]. cbn [snd].
  split; [apply meta_nodup, painted_nodup | ].
  destruct (meta_data sh (XNum (Fin (nq (length (filter o_sel d))))) (XNum (Fin (over (fun o => o_comp o * o_fkp1 o) d)))
    (XNum (Fin (over (fun o => o_comp o * o_fkp1 o * (o_comp o * o_fkp1 o)) d)))
    (XNum (ediv (Fin (over (fun o => o_comp o * o_fkp1 o) d)) (Fin (cells (h_n m1)))))
    (Some (painted sh' (XNum (Fin (nq (length (filter o_sel r))))) (XNum (Fin (over (fun o => o_comp o * o_fkp1 o) r)))
    (XNum (Fin (over (fun o => o_comp o * o_fkp1 o * (o_comp o * o_fkp1 o)) r)))
    (XNum (ediv (Fin (over (fun o => o_comp o * o_fkp1 o) r)) (Fin (cells (h_n m1)))))))
    (XNum (Fin (over o_comp d))) (XNum (Fin (over o_comp r))) (XNum (Fin (over o_comp d / over o_comp r)))
    (fun x E => ex_intro _ _ (ex_intro _ _ (ex_intro _ _ (ex_intro _ _ (ex_intro _ _ (f_equal (fun o => match o with Some y => y | None => x end) (eq_sym E))))))))
    as (M1 & M2 & M3 & M4 & M5 & M6 & M7).
  unfold says. split; [exact M1 | ]. split; [apply meta_rand | ]. split; [apply meta_W | ]. split; [apply meta_W | ]. split; [apply meta_alpha | ].
  split; [exact M3 | ]. split; [apply meta_rand | ]. repeat (split; [assumption | ]). assumption.
Qed.
End Run.
