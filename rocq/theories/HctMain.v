From Coq Require Import Ascii String QArith Qcanon.
From Verif Require Import Base BaseProofs Num NamesModel NamesProofs RanksSpec RanksModel DistModel DistProofs DaModel DaSpec FofModel FofCmModel FofCmSpec HctModel HctSpec SkyConcat HctProofs.
From Verif Require BinProofs HdfProofs SaveProofs.
Local Notation length := List.length.
Local Notation concat := List.concat.
Local Open Scope Z_scope.

Lemma map_eq_len {A B} : forall (a : list (list A)) (b : list (list B)), map (@length A) a = map (@length B) b -> length a = length b.
Proof. intros a b H. apply (f_equal (@length nat)) in H. now rewrite !map_length in H. Qed.
Lemma merge_maps {A B} : forall (f : halo -> A -> halo) (g : halo -> B) (k : A -> B) rows l, map (@length A) l = map (@length halo) rows ->
  (forall o a, g (f o a) = k a) -> map (map g) (map (fun p => map (fun q => f (fst q) (snd q)) (combine (fst p) (snd p))) (combine rows l)) = map (map k) l.
Proof.
  intros f g k rows. induction rows as [|r rows IH]; intros [|x l] H Hg; try discriminate; [reflexivity|].
  cbn [map] in H. assert (length x = length r) as L by congruence. assert (map (@length A) l = map (@length halo) rows) as H' by congruence. clear H.
  cbn [combine map fst snd]. f_equal; [|apply IH; assumption]. rewrite map_map.
  revert x L. induction r as [|o r IHr]; intros [|a x] L; try discriminate; [reflexivity|]. cbn [combine map fst snd]. rewrite Hg. f_equal. apply IHr. cbn in L. lia.
Qed.
Lemma merge_same {A B} : forall (f : halo -> A -> halo) (g : halo -> B) rows l, (forall o a, g (f o a) = g o) -> map (map g) (merge f rows l) = map (map g) rows.
Proof.
  intros f g rows l Hg. unfold merge, same_shape. destruct (list_eq_dec Nat.eq_dec _ _) as [H|H]; [|reflexivity].
  revert l H. induction rows as [|r rows IH]; intros [|x l] H; try discriminate; [reflexivity|].
  cbn [map] in H. assert (length x = length r) as L by congruence. assert (map (@length A) l = map (@length halo) rows) as H' by congruence. clear H.
  cbn [combine map fst snd]. f_equal; [|apply IH; assumption]. rewrite map_map.
  revert x L. induction r as [|o r IHr]; intros [|a x] L; try discriminate; [reflexivity|]. cbn [combine map fst snd]. rewrite Hg. f_equal. apply IHr. cbn in L. lia.
Qed.
Lemma merge_lengths {A} : forall (f : halo -> A -> halo) rows l, map (@length halo) (merge f rows l) = map (@length halo) rows.
Proof.
  intros f rows l. pose proof (merge_same f (fun _ => tt) rows l (fun _ _ => eq_refl)) as H.
  apply (f_equal (map (@length unit))) in H. rewrite !map_map in H.
  erewrite map_ext; [|intros x; symmetry; apply (map_length (fun _ : halo => tt))]. rewrite H. apply map_ext. intros x. apply map_length.
Qed.

Section Ops.
Context {K : Type}.
Variables (efunc : K -> Qc -> Qc) (conc radius : K -> Qc -> str -> num -> num).
Notation halos := (halos K). Notation getcol := (getcol K efunc conc radius). Notation to_halotools := (to_halotools K efunc conc radius).
Notation holds := (holds efunc conc radius).

(* h[n] = column; an array of another shape is refused and nothing changes *)
Definition h_step (h : halos) (o : hop) : halos := match setcol K h (fst (the_column o)) (snd (the_column o)) with Ok h' => h' | Err _ => h end.
Definition h_run (h : halos) (l : list hop) : halos := fold_left h_step l h.

Record live (h : halos) (cosmo : K) (a : dict) (z : Qc) (mdef : str) (rows : list (list halo)) : Prop := {
  l_holds : holds h (radius cosmo z mdef) (conc cosmo z mdef) rows;
  l_cosmo : h_cosmo K h = cosmo; l_attrs : h_attrs K h = a;
  l_z : dget a (s_ "redshift") = Some (HNum z); l_mdef : dget a (s_ "mdef") = Some (HStr mdef);
  l_rad : dget (h_over K h) (s_ "Radius") = None; l_conc : dget (h_over K h) (s_ "Concentration") = None; l_off : dget (h_over K h) (s_ "VelocityOffset") = None
}.
Lemma mass_given : forall (h : halos), given K h (s_ "Mass") (s_ "mass") = getcol h (s_ "Mass").
Proof. intros h. unfold given, HctModel.getcol. destruct (dget (h_over K h) (s_ "Mass")); reflexivity. Qed.
Lemma vel_given : forall (h : halos), given K h (s_ "Velocity") (s_ "velocity") = getcol h (s_ "Velocity").
Proof. intros h. unfold given, HctModel.getcol. destruct (dget (h_over K h) (s_ "Velocity")); reflexivity. Qed.
Lemma analytic_of_mass : forall f (h : halos) z mdef rows, dget (h_attrs K h) (s_ "redshift") = Some (HNum z) -> dget (h_attrs K h) (s_ "mdef") = Some (HStr mdef) ->
  getcol h (s_ "Mass") = Ok (map (map mass) rows) -> analytic K f h = Ok (map (map (fun o => Sc (f (h_cosmo K h) z mdef (o_m o)))) rows).
Proof.
  intros f h z mdef rows Hz Hd Hm. unfold analytic, attr_num, attr_str, attr. rewrite Hz, Hd. cbn [rbind]. rewrite mass_given, Hm. cbn [rbind]. apply (map_col_ok _ mass). reflexivity.
Qed.
(* setting any of the columns keeps the catalog live *)
Lemma get_src : forall (h h' : halos) n, h_src K h' = h_src K h -> h_attrs K h' = h_attrs K h -> dget (h_over K h') n = dget (h_over K h) n ->
  In n [s_ "Mass"; s_ "Position"; s_ "Velocity"] -> getcol h' n = getcol h n.
Proof.
  intros h h' n E1 E2 E3 Hn. assert (forall k, src_col K h' k = src_col K h k) as Es by (intros k; unfold src_col, attr_str, attr; now rewrite E1, E2).
  unfold HctModel.getcol. rewrite E3. destruct (dget (h_over K h) n); [reflexivity|]. cbn [In] in Hn. destruct Hn as [<- | [<- | [<- | []]]].
  - change (src_col K h' (s_ "mass") = src_col K h (s_ "mass")). apply Es.
  - change (src_col K h' (s_ "position") = src_col K h (s_ "position")). apply Es.
  - change (src_col K h' (s_ "velocity") = src_col K h (s_ "velocity")). apply Es.
Qed.
Lemma step_live : forall h cosmo a z mdef rows o, live h cosmo a z mdef rows -> plain_names o -> live (h_step h o) cosmo a z mdef (after_set rows o).
Proof.
  intros h cosmo a z mdef rows o Hl Hp. pose proof (l_holds _ _ _ _ _ _ Hl) as (Hs & Hpos & Hvel & Hm & _ & _).
  unfold h_step. unfold setcol. destruct (list_eq_dec Nat.eq_dec (map (@length cell) (snd (the_column o))) (h_sizes K h)) as [Es|Es].
  2:{ replace (after_set rows o) with rows; [exact Hl|]. rewrite Hs in Es.
      destruct o; cbn [after_set the_column snd] in *; unfold merge, same_shape; try reflexivity;
      (destruct (list_eq_dec Nat.eq_dec (map (@length _) l) _) as [E|E]; [|reflexivity]; exfalso; apply Es; rewrite <- E, map_map; apply map_ext; intros x; apply map_length). }
  set (h' := with_over K h (dset (h_over K h) (fst (the_column o)) (snd (the_column o)))).
  assert (forall n, n <> fst (the_column o) -> dget (h_over K h') n = dget (h_over K h) n) as Oth by (intros n N; apply dget_set_other, N).
  assert (getcol h' (fst (the_column o)) = Ok (snd (the_column o))) as Same by (apply set_get; apply dget_set_same).
  assert (forall n, In n [s_ "Mass"; s_ "Position"; s_ "Velocity"] -> n <> fst (the_column o) -> getcol h' n = getcol h n) as G by (intros n Hn N; apply get_src; try reflexivity; auto).
  assert (forall n, In n [s_ "Radius"; s_ "Concentration"; s_ "VelocityOffset"] -> dget (h_over K h') n = dget (h_over K h) n) as Der.
  { intros n Hn. apply Oth. cbn [In] in Hn. destruct o; cbn [the_column fst]; [destruct Hn as [<- | [<- | [<- | []]]]; discriminate ..|].
    cbn [plain_names] in Hp. intros <-. apply Hp. unfold hard. cbn [In]. tauto. }
  assert (map (@length cell) (snd (the_column o)) = map (@length halo) rows) as Es' by congruence.
  assert (forall A (k : A -> cell) l, map (@length cell) (map (map k) l) = map (@length A) l) as ML by (intros A k l; rewrite map_map; apply map_ext; intros x; apply map_length).
  assert (getcol h' (s_ "Position") = Ok (map (map position) (after_set rows o)) /\ getcol h' (s_ "Velocity") = Ok (map (map velocity) (after_set rows o)) /\
    getcol h' (s_ "Mass") = Ok (map (map mass) (after_set rows o)) /\ map (@length halo) (after_set rows o) = map (@length halo) rows) as (Q1 & Q2 & Q3 & Q4).
  { destruct o as [l|l|l|n c]; cbn [the_column fst snd after_set] in *; rewrite ?ML in Es'.
    - rewrite (G (s_ "Position")), (G (s_ "Velocity")), Same by (cbn [In]; auto; discriminate). rewrite Hpos, Hvel.
      rewrite !(merge_same reweigh) by reflexivity. split; [reflexivity|]. split; [reflexivity|]. split; [|apply merge_lengths]. f_equal.
      unfold merge, same_shape. destruct (list_eq_dec _ _ _); [|contradiction]. symmetry. apply merge_maps; [assumption|reflexivity].
    - rewrite (G (s_ "Mass")), (G (s_ "Velocity")), Same by (cbn [In]; auto; discriminate). rewrite Hm, Hvel.
      rewrite (merge_same move velocity), (merge_same move mass) by (intros ? [[? ?] ?]; reflexivity). split; [|split; [reflexivity|split; [reflexivity|apply merge_lengths]]]. f_equal.
      unfold merge, same_shape. destruct (list_eq_dec _ _ _); [|contradiction]. symmetry. apply merge_maps; [assumption|intros ? [[? ?] ?]; reflexivity].
    - rewrite (G (s_ "Mass")), (G (s_ "Position")), Same by (cbn [In]; auto; discriminate). rewrite Hm, Hpos.
      rewrite (merge_same push position), (merge_same push mass) by (intros ? [[? ?] ?]; reflexivity). split; [reflexivity|]. split; [|split; [reflexivity|apply merge_lengths]]. f_equal.
      unfold merge, same_shape. destruct (list_eq_dec _ _ _); [|contradiction]. symmetry. apply merge_maps; [assumption|intros ? [[? ?] ?]; reflexivity].
    - assert (forall m, In m [s_ "Mass"; s_ "Position"; s_ "Velocity"] -> m <> n) as N.
      { intros m Hm' ->. apply Hp. unfold hard. cbn [In] in *. tauto. }
      rewrite !G by (cbn [In]; auto; apply N; cbn [In]; auto). repeat split; assumption. }
  assert (h_cosmo K h' = cosmo) as Ec by (apply (l_cosmo _ _ _ _ _ _ Hl)). assert (h_attrs K h' = a) as Ea by (apply (l_attrs _ _ _ _ _ _ Hl)).
  pose proof (l_z _ _ _ _ _ _ Hl) as Ez. pose proof (l_mdef _ _ _ _ _ _ Hl) as Ed.
  assert (dget (h_over K h') (s_ "Radius") = None) as Nr by (rewrite Der by (cbn [In]; auto); apply (l_rad _ _ _ _ _ _ Hl)).
  assert (dget (h_over K h') (s_ "Concentration") = None) as Nc by (rewrite Der by (cbn [In]; auto); apply (l_conc _ _ _ _ _ _ Hl)).
  assert (dget (h_over K h') (s_ "VelocityOffset") = None) as No by (rewrite Der by (cbn [In]; auto); apply (l_off _ _ _ _ _ _ Hl)).
  split; try assumption. unfold HctProofs.holds. split; [change (h_sizes K h' ) with (h_sizes K h); congruence|]. split; [exact Q1|]. split; [exact Q2|]. split; [exact Q3|].
  rewrite unset_rad, unset_conc by assumption. rewrite !(analytic_of_mass _ h' z mdef (after_set rows o)) by congruence. rewrite Ec. split; reflexivity.
Qed.
Lemma run_live : forall l h cosmo a z mdef rows, live h cosmo a z mdef rows -> (forall o, In o l -> plain_names o) -> live (h_run h l) cosmo a z mdef (fold_left after_set l rows).
Proof.
  induction l as [|o l IH]; intros h cosmo a z mdef rows Hl Hp; [exact Hl|]. cbn [fold_left]. unfold h_run. cbn [fold_left]. apply IH; [|intros o' Ho'; apply Hp; right; exact Ho'].
  apply step_live; [exact Hl|apply Hp; now left].
Qed.
Lemma new_live : forall h src cosmo z mdef m p v rows, keys_of h src cosmo z mdef m p v -> source_holds src m p v rows -> live h cosmo (h_attrs K h) z mdef rows.
Proof.
  intros h src cosmo z mdef m p v rows Hk Hs. split; try reflexivity; try apply Hk.
  - apply (new_holds efunc conc radius h src cosmo z mdef m p v rows Hk Hs).
  - destruct Hk as (_ & _ & _ & _ & F & _). exact (Forall_inv F).
  - destruct Hk as (_ & _ & _ & _ & F & _). exact (Forall_inv (Forall_inv_tail (Forall_inv_tail (Forall_inv_tail (Forall_inv_tail (Forall_inv_tail F)))))).
  - destruct Hk as (_ & _ & -> & _). reflexivity.
  - destruct Hk as (_ & _ & -> & _). reflexivity.
  - destruct Hk as (_ & _ & -> & _). reflexivity.
Qed.

(* ---- VelocityOffset ---- *)
Lemma offset_ok : forall h cosmo a z mdef rows, live h cosmo a z mdef rows -> efunc cosmo z <> 0%Qc ->
  getcol h (s_ "VelocityOffset") = Ok (map (map (fun o => mulc ((1 + z) / (zq 100 * efunc cosmo z))%Qc (velocity o))) rows).
Proof.
  intros h cosmo a z mdef rows Hl He. rewrite unset_off by apply (l_off _ _ _ _ _ _ Hl). unfold velocity_offset, attr_num, attr.
  rewrite (l_attrs _ _ _ _ _ _ Hl), (l_z _ _ _ _ _ _ Hl). cbn [rbind]. rewrite (l_cosmo _ _ _ _ _ _ Hl).
  destruct (Qc_eq_dec (zq 100 * efunc cosmo z) 0) as [E|_].
  { exfalso. destruct (Qcmult_integral _ _ E) as [E'|E']; [discriminate E'|contradiction]. }
  rewrite vel_given. destruct (l_holds _ _ _ _ _ _ Hl) as (_ & _ & -> & _). cbn [rbind]. apply (map_col_ok _ velocity). reflexivity.
Qed.

(* ---- slices ---- *)
Lemma pick_map {A B} : forall (f : A -> B) m l, pick m (map f l) = map f (pick m l).
Proof. intros f. unfold pick. induction m as [|b m IH]; intros [|x l]; try reflexivity. cbn [map combine filter fst]. destruct b; cbn [map snd]; now rewrite IH. Qed.
Lemma zip_pick : forall (f : halo -> cell) mask rows, zipr pick mask (map (map f) rows) = map (map f) (chosen mask rows).
Proof.
  intros f. unfold zipr, chosen. induction mask as [|m mask IH]; intros [|r rows]; try reflexivity. cbn [map combine fst snd]. rewrite IH. f_equal. apply pick_map.
Qed.
Lemma chosen_lengths : forall mask rows, map (@length bool) mask = map (@length halo) rows ->
  map (fun m => length (filter (fun b : bool => b) m)) mask = map (@length halo) (chosen mask rows).
Proof.
  unfold chosen. induction mask as [|m mask IH]; intros [|r rows] H; try discriminate; [reflexivity|]. cbn [map] in H.
  assert (length m = length r) as L by congruence. assert (map (@length bool) mask = map (@length halo) rows) as H' by congruence. cbn [map combine fst snd]. rewrite <- (IH rows H'). f_equal.
  rewrite map_length. clear -L. revert r L. induction m as [|b m IH]; intros [|o r] L; try discriminate; [reflexivity|]. cbn [combine filter fst]. destruct b; cbn [length]; rewrite (IH r) by (cbn in L; lia); reflexivity.
Qed.
Lemma slice_get : forall h h' mask n c, slice K efunc conc radius h mask = Ok h' -> In n (hcols K h) -> getcol h n = Ok c -> getcol h' n = Ok (zipr pick mask c).
Proof.
  intros h h' mask n c H Hn Hc. unfold slice in H. destruct (list_eq_dec _ _ _); [|discriminate].
  destruct (rall _) as [cols|e'] eqn:E; [|discriminate]. cbn [rbind] in H. assert (h_over K h' = cols) as Eo by (injection H as <-; reflexivity). clear H.
  apply set_get. rewrite Eo. clear Eo. apply SaveProofs.rall_map_ok' in E.
  assert (NoDup (hcols K h)) as ND by apply NoDup_nodup. revert E Hn ND. generalize (hcols K h). intros l E. induction E as [|x y l cols E1 E2 IH]; [intros []|]. intros Hn ND.
  inversion ND as [|? ? Nx Nl]; subst.
  destruct (getcol h x) as [a|] eqn:Ex; [|discriminate]. cbn [rbind] in E1. assert (y = (x, zipr pick mask a)) as -> by congruence. cbn [dget].
  destruct (str_eq_dec x n) as [->|N]; [congruence|]. destruct Hn as [Hn|Hn]; [contradiction|]. apply IH; assumption.
Qed.
Lemma in_hcols : forall (h : halos) n, In n hard -> In n (hcols K h).
Proof. intros h n H. unfold hcols. apply nodup_In, in_or_app. now left. Qed.
Lemma slice_ok : forall h cosmo a z mdef rows mask, live h cosmo a z mdef rows -> efunc cosmo z <> 0%Qc -> map (@length bool) mask = map (@length halo) rows ->
  exists h', slice K efunc conc radius h mask = Ok h' /\ holds h' (radius cosmo z mdef) (conc cosmo z mdef) (chosen mask rows) /\
    h_attrs K h' = a /\ h_cosmo K h' = cosmo.
Proof.
  intros h cosmo a z mdef rows mask Hl He Hm. pose proof (l_holds _ _ _ _ _ _ Hl) as (Hs & H1 & H2 & H3 & H4 & H5).
  assert (exists h', slice K efunc conc radius h mask = Ok h' /\ h_attrs K h' = h_attrs K h /\ h_cosmo K h' = h_cosmo K h /\ h_sizes K h' = map (fun m => length (filter (fun b : bool => b) m)) mask) as (h' & E & Ea & Ec & Es).
  { unfold slice. destruct (list_eq_dec _ _ _) as [_|N]; [|exfalso; apply N; congruence].
    match goal with |- exists x, (let! _ := rall (map ?f ?l) in _) = _ /\ _ => destruct (BinProofs.rall_map_ok f (fun _ _ => True) l) as (cols & E & _) end.
    - intros n Hn. assert (exists c, getcol h n = Ok c) as [c Ec]; [|rewrite Ec; cbn [rbind]; eauto].
      unfold hcols in Hn. apply nodup_In, in_app_or in Hn. destruct Hn as [Hn|Hn].
      + unfold hard in Hn. cbn [In] in Hn. destruct Hn as [<- | [<- | [<- | [<- | [<- | [<- | []]]]]]]; [eauto ..|]. rewrite (offset_ok h cosmo a z mdef rows Hl He). eauto.
      + apply dget_in in Hn. destruct (dget (h_over K h) n) as [c|] eqn:Ed; [|contradiction]. exists c. apply set_get, Ed.
    - rewrite E. cbn [rbind]. eexists. split; [reflexivity|]. cbn. repeat split. }
  exists h'. split; [exact E|]. split; [|rewrite Ea, Ec; split; [apply (l_attrs _ _ _ _ _ _ Hl)|apply (l_cosmo _ _ _ _ _ _ Hl)]].
  assert (forall n f, In n hard -> getcol h n = Ok (map (map f) rows) -> getcol h' n = Ok (map (map f) (chosen mask rows))) as G.
  { intros n f Hn Hg. rewrite (slice_get h h' mask n _ E (in_hcols h n Hn) Hg). f_equal. apply zip_pick. }
  unfold HctProofs.holds. split; [rewrite Es; apply chosen_lengths, Hm|].
  split; [|split; [|split; [|split]]]; apply G; try assumption; unfold hard; cbn [In]; auto 8.
Qed.
End Ops.
