From Coq Require Import Ascii String QArith Qcanon.
From Verif Require Import Base BaseProofs Num NamesModel NamesProofs RanksSpec RanksModel DistModel DistProofs DaModel DaSpec FofModel FofCmModel FofCmSpec HctModel HctSpec SkyConcat.
From Verif Require BinProofs HdfProofs.
Local Notation length := List.length.
Local Notation concat := List.concat.
Local Open Scope Z_scope.

Lemma fold_dset_other {V} : forall (e : list (str * V)) d k, ~ In k (map fst e) -> dget (fold_left (fun d kv => dset d (fst kv) (snd kv)) e d) k = dget d k.
Proof.
  induction e as [|[a v] e IH]; intros d k H; [reflexivity|]. cbn [fold_left fst snd]. cbn [map In fst] in H.
  rewrite IH by tauto. apply dget_set_other. intros E. apply H. left. now symmetry.
Qed.
Lemma fold_dset_in {V} : forall (e : list (str * V)) d k v, NoDup (map fst e) -> In (k, v) e -> dget (fold_left (fun d kv => dset d (fst kv) (snd kv)) e d) k = Some v.
Proof.
  induction e as [|[a w] e IH]; intros d k v N H; [destruct H|]. cbn [fold_left fst snd]. cbn [map fst] in N. inversion N as [|x l Nx Nl]; subst.
  destruct H as [H|H].
  - assert (a = k) by congruence. assert (w = v) by congruence. subst. rewrite fold_dset_other by exact Nx. apply dget_set_same.
  - apply IH; assumption.
Qed.
Lemma dupdate_none : forall e d k, dget e k = None -> dget (dupdate d e) k = dget d k.
Proof. intros e d k H. unfold dupdate. apply fold_dset_other. rewrite dget_in. intros K. apply K, H. Qed.
Lemma dget_fst_in {V} : forall (d : list (str * V)) k v, dget d k = Some v -> In (k, v) d.
Proof. induction d as [|[a w] d IH]; cbn [dget]; intros k v H; [discriminate|]. destruct (str_eq_dec a k) as [E|E]; [left; congruence|right; apply IH, H]. Qed.
Lemma dupdate_some : forall e d k v, NoDup (map fst e) -> dget e k = Some v -> dget (dupdate d e) k = Some v.
Proof. intros e d k v N H. apply fold_dset_in; [exact N|apply dget_fst_in, H]. Qed.
Lemma dupdate_nil : forall e k, NoDup (map fst e) -> dget (dupdate [] e) k = dget e k.
Proof. intros e k N. destruct (dget e k) as [v|] eqn:E; [apply dupdate_some; assumption|]. now rewrite dupdate_none. Qed.

Lemma f2_length {A B} (P : A -> B -> Prop) l m : Forall2 P l m -> length l = length m.
Proof. induction 1; cbn; congruence. Qed.
(* ---- numbers of halos ---- *)
Lemma range_seq : forall a n, py_range (Z.of_nat a) (Z.of_nat a + Z.of_nat n) 1 = map Z.of_nat (seq a n).
Proof.
  intros a n. unfold py_range, range_len. change (0 <? 1) with true. cbv iota. rewrite Z.div_1_r.
  replace (Z.to_nat (if Z.of_nat a <? Z.of_nat a + Z.of_nat n then _ else 0)) with n by (destruct (Z.ltb_spec (Z.of_nat a) (Z.of_nat a + Z.of_nat n)); lia).
  apply nth_error_ext. intros i. rewrite !nth_error_map', !nth_error_seq. destruct (Nat.ltb_spec i n); [|reflexivity]. cbn [option_map]. f_equal. lia.
Qed.
Lemma lower_ranks : forall (rows : list (list halo)) r, zsum (firstn r (map Z.of_nat (map (@length halo) rows))) = Z.of_nat (length (concat (firstn r rows))).
Proof.
  induction rows as [|x rows IH]; intros r; [destruct r; reflexivity|]. destruct r; [reflexivity|]. cbn [map firstn concat]. rewrite app_length.
  change (zsum (Z.of_nat (length x) :: ?l)) with (Z.of_nat (length x) + zsum l). rewrite IH. lia.
Qed.
Lemma index_part : forall (rows : list (list halo)) r rs, nth_error rows r = Some rs ->
  part (index_column (map Z.of_nat (map (@length halo) rows))) r = map Z.of_nat (seq (length (concat (firstn r rows))) (length rs)).
Proof.
  intros rows r rs H. unfold part. apply nth_error_nth. unfold index_column. rewrite nth_error_map', nth_error_seq, !map_length.
  assert (r < length rows)%nat as L by (apply nth_error_Some; congruence).
  destruct (Nat.ltb_spec r (length rows)); [|lia]. cbn [option_map]. rewrite Nat.add_0_l. f_equal. rewrite lower_ranks.
  replace (nth r (map Z.of_nat (map (@length halo) rows)) 0) with (Z.of_nat (length rs)); [apply range_seq|].
  symmetry. apply nth_error_nth. rewrite !nth_error_map', H. reflexivity.
Qed.

Section Cat.
Context {K : Type}.
Variables (efunc : K -> Qc -> Qc) (conc radius : K -> Qc -> str -> num -> num).
Notation halos := (halos K). Notation getcol := (getcol K efunc conc radius). Notation to_halotools := (to_halotools K efunc conc radius).

(* the columns of h hold these halos *)
Definition holds (h : halos) (rad con : num -> num) (rows : list (list halo)) : Prop :=
  h_sizes K h = map (@length halo) rows /\
  getcol h (s_ "Position") = Ok (map (map position) rows) /\
  getcol h (s_ "Velocity") = Ok (map (map velocity) rows) /\
  getcol h (s_ "Mass") = Ok (map (map mass) rows) /\
  getcol h (s_ "Radius") = Ok (map (map (fun o => Sc (rad (o_m o)))) rows) /\
  getcol h (s_ "Concentration") = Ok (map (map (fun o => Sc (con (o_m o)))) rows).

Lemma keys_nodup : forall mdef, NoDup ([s_ "halo_x"; s_ "halo_y"; s_ "halo_z"; s_ "halo_vx"; s_ "halo_vy"; s_ "halo_vz"; s_ "halo_m" ++ mdef; s_ "halo_r" ++ mdef; s_ "halo_nfw_conc";
    s_ "halo_id"; s_ "halo_hostid"; s_ "halo_upid"; s_ "halo_local_id"; s_ "cosmology"; s_ "redshift"; s_ "Lbox"; s_ "particle_mass"; s_ "mdef"]).
Proof.
  intros mdef. repeat (constructor; [cbn [In]; intros HH; repeat (destruct HH as [HH|HH]; [first [discriminate HH | apply (f_equal (firstn 6)) in HH; cbn in HH; discriminate HH]|]); exact HH|]). constructor.
Qed.
Lemma rall_cells : forall (f : halo -> cell) (g : cell -> res num) (x : halo -> num) rows, (forall o, g (f o) = Ok (x o)) -> rall (map g (map f rows)) = Ok (map x rows).
Proof. intros f g x rows H. rewrite map_map. apply rall_map_ok. intros o _. apply H. Qed.

Lemma table_ok : forall mdef cosmo z box pm rad con off rows, exists t,
  table K (s_ "halo_m" ++ mdef) (s_ "halo_r" ++ mdef) cosmo (HNum z) box pm (HStr mdef) (map position rows) (map velocity rows) (map mass rows)
    (map (fun o => Sc (rad (o_m o))) rows) (map (fun o => Sc (con (o_m o))) rows) (map Z.of_nat (seq off (length rows))) (length rows) = Ok t /\
  describes mdef cosmo z box pm rad con off rows t.
Proof.
  intros. unfold table.
  rewrite (rall_cells position (comp 0) o_x) by reflexivity. cbn [rbind].
  rewrite (rall_cells position (comp 1) o_y) by reflexivity. cbn [rbind].
  rewrite (rall_cells position (comp 2) o_z) by reflexivity. cbn [rbind].
  rewrite (rall_cells velocity (comp 0) o_vx) by reflexivity. cbn [rbind].
  rewrite (rall_cells velocity (comp 1) o_vy) by reflexivity. cbn [rbind].
  rewrite (rall_cells velocity (comp 2) o_vz) by reflexivity. cbn [rbind].
  rewrite (rall_cells mass scalar o_m) by reflexivity. cbn [rbind].
  rewrite (rall_cells (fun o => Sc (rad (o_m o))) scalar (fun o => rad (o_m o))) by reflexivity. cbn [rbind].
  rewrite (rall_cells (fun o => Sc (con (o_m o))) scalar (fun o => con (o_m o))) by reflexivity. cbn [rbind].
  eexists. split; [reflexivity|]. unfold describes. rewrite Forall_forall. intros [k v] H. cbn [fst snd].
  apply fold_dset_in; [cbn [map fst]; apply keys_nodup|].
  replace (map (fun _ : cell => -1) (map position rows)) with (repeat (-1) (length rows)); [exact H|].
  rewrite map_map. clear. induction rows; cbn; [reflexivity|]. now f_equal.
Qed.

Lemma halotools_ok : forall h rad con rows mdef z box BoxSize, holds h rad con rows -> concat rows <> [] ->
  dget (h_attrs K h) (s_ "halo_mass_key") = Some (HStr (s_ "halo_m" ++ mdef)) -> dget (h_attrs K h) (s_ "halo_radius_key") = Some (HStr (s_ "halo_r" ++ mdef)) ->
  dget (h_attrs K h) (s_ "mdef") = Some (HStr mdef) -> dget (h_attrs K h) (s_ "redshift") = Some (HNum z) ->
  box_of BoxSize (h_attrs K h) = Some box ->
  exists tables, to_halotools h BoxSize = Ok tables /\ all_described mdef (h_cosmo K h) z box (mass_of (h_attrs K h)) rad con rows tables.
Proof.
  intros h rad con rows mdef z box BoxSize (Hs & Hp & Hv & Hm & Hr & Hc) Hne Hmk Hrk Hmd Hz Hb. unfold HctModel.to_halotools.
  assert (Nat.eqb (list_sum (h_sizes K h)) 0 = false) as ->.
  { apply Nat.eqb_neq. rewrite Hs. intros E. apply Hne. apply length_zero_iff_nil. rewrite <- E. clear. induction rows as [|x rows IH]; [reflexivity|].
    cbn [concat map]. rewrite app_length, IH. reflexivity. }
  replace (match BoxSize with Some b => Ok b | None => _ end) with (@Ok hval box) by (unfold box_of in Hb; destruct BoxSize; [congruence|now rewrite Hb]).
  cbn [rbind]. rewrite Hp, Hv, Hm, Hr, Hc. cbn [rbind]. unfold attr_str, attr. rewrite Hmk, Hrk, Hz, Hmd. cbn [rbind].
  fold (mass_of (h_attrs K h)).
  match goal with |- exists t, rall (map ?f ?l) = Ok t /\ _ => destruct (BinProofs.rall_map_ok f (fun r t => forall rs, nth_error rows r = Some rs -> describes mdef (h_cosmo K h) z box (mass_of (h_attrs K h)) rad con (length (concat (firstn r rows))) rs t) l) as (tables & E & F) end.
  { intros r Hr'. apply in_seq in Hr'. rewrite Hs, map_length in Hr'. destruct (nth_error rows r) as [rs|] eqn:Er; [|apply nth_error_None in Er; lia].
    rewrite Hs. rewrite (index_part rows r rs Er).
    assert (forall B (g : halo -> B), part (map (map g) rows) r = map g rs) as Pt.
    { intros B g. unfold part. apply nth_error_nth. rewrite nth_error_map', Er. reflexivity. }
    rewrite !Pt. replace (nth r (map (@length halo) rows) 0%nat) with (length rs) by (symmetry; apply nth_error_nth; rewrite nth_error_map', Er; reflexivity).
    destruct (table_ok mdef (h_cosmo K h) z box (mass_of (h_attrs K h)) rad con (length (concat (firstn r rows))) rs) as (t & Et & D).
    exists t. split; [exact Et|]. intros rs' E'. assert (rs' = rs) by congruence. subst. exact D. }
  exists tables. split; [exact E|]. split.
  - rewrite <- (f2_length _ _ _ F), seq_length, Hs, map_length. reflexivity.
  - intros r rs t Er Et. assert (r < length rows)%nat as L by (apply nth_error_Some; congruence).
    assert (nth_error (seq 0 (length (h_sizes K h))) r = Some r) as E1.
    { rewrite nth_error_seq, Hs, map_length. destruct (Nat.ltb_spec r (length rows)); [|lia]. reflexivity. }
    destruct (HdfProofs.forall2_nth _ _ _ F r r E1) as (t' & E2 & E3). assert (t' = t) by congruence. subst. apply E3, Er.
Qed.

(* ---- columns that have not been set ---- *)
Lemma unset_pos : forall h, dget (h_over K h) (s_ "Position") = None -> getcol h (s_ "Position") = src_col K h (s_ "position").
Proof. intros h E. unfold HctModel.getcol. rewrite E. reflexivity. Qed.
Lemma unset_vel : forall h, dget (h_over K h) (s_ "Velocity") = None -> getcol h (s_ "Velocity") = src_col K h (s_ "velocity").
Proof. intros h E. unfold HctModel.getcol. rewrite E. reflexivity. Qed.
Lemma unset_mass : forall h, dget (h_over K h) (s_ "Mass") = None -> getcol h (s_ "Mass") = src_col K h (s_ "mass").
Proof. intros h E. unfold HctModel.getcol. rewrite E. reflexivity. Qed.
Lemma unset_rad : forall h, dget (h_over K h) (s_ "Radius") = None -> getcol h (s_ "Radius") = analytic K radius h.
Proof. intros h E. unfold HctModel.getcol. rewrite E. reflexivity. Qed.
Lemma unset_conc : forall h, dget (h_over K h) (s_ "Concentration") = None -> getcol h (s_ "Concentration") = analytic K conc h.
Proof. intros h E. unfold HctModel.getcol. rewrite E. reflexivity. Qed.
Lemma unset_off : forall h, dget (h_over K h) (s_ "VelocityOffset") = None -> getcol h (s_ "VelocityOffset") = velocity_offset K efunc h.
Proof. intros h E. unfold HctModel.getcol. rewrite E. reflexivity. Qed.
Lemma set_get : forall h n c, dget (h_over K h) n = Some c -> getcol h n = Ok c.
Proof. intros h n c E. unfold HctModel.getcol. rewrite E. reflexivity. Qed.

(* ---- a new catalog ---- *)
Lemma map_col_ok : forall (f : cell -> res cell) (g h : halo -> cell) rows, (forall o, f (g o) = Ok (h o)) -> map_col f (map (map g) rows) = Ok (map (map h) rows).
Proof.
  intros f g h rows H. unfold map_col. rewrite map_map. apply rall_map_ok. intros l _. rewrite map_map. apply rall_map_ok. intros o _. apply H.
Qed.
Definition keys_of (h : halos) (src : source) (cosmo : K) (z : Qc) (mdef m p v : str) : Prop :=
  h_cosmo K h = cosmo /\ h_src K h = src /\ h_over K h = [] /\ h_sizes K h = s_sizes src /\
  Forall (fun kv => dget (h_attrs K h) (fst kv) = Some (snd kv))
    [(s_ "redshift", HNum z); (s_ "cosmo", HCosmo); (s_ "mass", HStr m); (s_ "velocity", HStr v); (s_ "position", HStr p); (s_ "mdef", HStr mdef);
     (s_ "halo_mass_key", HStr (s_ "halo_m" ++ mdef)); (s_ "halo_radius_key", HStr (s_ "halo_r" ++ mdef))] /\
  (NoDup (map fst (s_attrs src)) -> forall k, ~ In k [s_ "redshift"; s_ "cosmo"; s_ "mass"; s_ "velocity"; s_ "position"; s_ "mdef"; s_ "halo_mass_key"; s_ "halo_radius_key"] ->
    dget (h_attrs K h) k = dget (s_attrs src) k).
Lemma new_ok : forall src cosmo z mdef m p v, s_catalog src = true -> (forall n, In n [m; p; v] -> dget (s_cols src) n <> None) ->
  exists h, new_halos K src cosmo z mdef (Some m) (Some p) (Some v) = Ok h /\ keys_of h src cosmo z mdef m p v.
Proof.
  intros src cosmo z mdef m p v Hc Hn. unfold new_halos, required.
  assert (forall n, In n [m; p; v] -> exists c, dget (s_cols src) n = Some c) as Hn' by (intros n Hi; specialize (Hn n Hi); destruct (dget (s_cols src) n); [eauto|contradiction]).
  destruct (Hn' m) as [? ->]; [now left|]. destruct (Hn' p) as [? ->]; [right; now left|]. destruct (Hn' v) as [? ->]; [right; right; now left|].
  cbn [rbind]. rewrite Hc. cbn [negb]. eexists. split; [reflexivity|]. unfold keys_of. cbn [h_cosmo h_src h_over h_sizes h_attrs].
  split; [reflexivity|]. split; [reflexivity|]. split; [reflexivity|]. split; [reflexivity|]. split.
  - repeat (constructor; [cbn [fst snd]; repeat (first [apply dget_set_same | rewrite dget_set_other by (cbn; discriminate)])|]). constructor.
  - intros N k Hk. cbn [In] in Hk. rewrite !dget_set_other by (intros E; apply Hk; subst; tauto). apply dupdate_nil, N.
Qed.
Lemma new_holds : forall h src cosmo z mdef m p v rows, keys_of h src cosmo z mdef m p v -> source_holds src m p v rows ->
  holds h (radius cosmo z mdef) (conc cosmo z mdef) rows.
Proof.
  intros h src cosmo z mdef m p v rows (E1 & E2 & E3 & E4 & F & _) (S1 & S2 & S3 & S4 & S5).
  pose proof (Forall_inv F) as Fz. pose proof (Forall_inv (Forall_inv_tail (Forall_inv_tail F))) as Fm.
  pose proof (Forall_inv (Forall_inv_tail (Forall_inv_tail (Forall_inv_tail F)))) as Fv.
  pose proof (Forall_inv (Forall_inv_tail (Forall_inv_tail (Forall_inv_tail (Forall_inv_tail F))))) as Fp.
  pose proof (Forall_inv (Forall_inv_tail (Forall_inv_tail (Forall_inv_tail (Forall_inv_tail (Forall_inv_tail F)))))) as Fd. clear F. cbv beta in *. cbn [fst snd] in *. subst src cosmo.
  assert (given K h (s_ "Mass") (s_ "mass") = Ok (map (map mass) rows)) as Gm.
  { unfold given, src_col, attr_str, attr. rewrite E3. cbn [dget]. repeat match goal with H : dget (h_attrs K h) _ = _ |- _ => rewrite H; clear H end. cbn [rbind]. now rewrite S3. }
  assert (forall f, analytic K f h = Ok (map (map (fun o => Sc (f (h_cosmo K h) z mdef (o_m o)))) rows)) as An.
  { intros f. unfold analytic, attr_num, attr_str, attr. repeat match goal with H : dget (h_attrs K h) _ = _ |- _ => rewrite H; clear H end. cbn [rbind].
    rewrite Gm. cbn [rbind]. apply (map_col_ok _ mass). reflexivity. }
  unfold holds. split; [congruence|]. rewrite !unset_pos, !unset_vel, !unset_mass, !unset_rad, !unset_conc by (rewrite E3; reflexivity).
  split; [|split; [|split; [|split]]].
  - unfold src_col, attr_str, attr. rewrite Fp. cbn [rbind]. now rewrite S4.
  - unfold src_col, attr_str, attr. rewrite Fv. cbn [rbind]. now rewrite S5.
  - unfold given in Gm. rewrite E3 in Gm. exact Gm.
  - apply (An radius).
  - apply (An conc).
Qed.
End Cat.
