From Coq Require Import Ascii String QArith Qcanon.
From Verif Require Import Base BaseProofs Num NamesModel NamesProofs RanksSpec RanksModel DistModel DaModel DaSpec FofModel FofSpec FofCmModel FofCmSpec DaCounts HctModel HctSpec HctProofs HctMain HctFof HctHalos.
Local Notation length := List.length.
Local Notation concat := List.concat.
Local Open Scope Z_scope.

(* ---- C303: halos of groups ---- *)
Theorem C303_groups : forall (K : Type) (efunc : K -> Qc -> Qc) (conc radius : K -> Qc -> str -> num -> num) argsort, argsort_contract argsort ->
  forall p fattrs pd peakcolumn periodic m box vel dens pm (cosmo : K) z mdef, pd <> POther -> proper (p_labels p) -> greatest (global (p_labels p)) m ->
  p_vel p = Some vel -> shaped (p_labels p) (p_pos p) -> shaped (p_labels p) vel ->
  used_box periodic (p_attrs p) = Some box -> boxed box (p_pos p) ->
  (pd = PPeak -> dget (p_cols p) peakcolumn = Some dens /\ map (@length Z) (p_labels p) = map (@length Qc) dens) ->
  NoDup (map fst (p_attrs p)) -> NoDup (map fst fattrs) -> (forall k, In k [s_ "self"; s_ "data"; s_ "comm"] -> dget (p_attrs p) k = None /\ dget fattrs k = None) ->
  exists h rows, to_halos K argsort p fattrs periodic pm cosmo z mdef pd peakcolumn = Ok h /\
    length rows = length (p_labels p) /\
    Forall2 (halo_of_group pd (p_labels p) dens (p_pos p) vel box pm) (groups (global (p_labels p)) m) (concat rows) /\
    getcol K efunc conc radius h (s_ "Position") = Ok (map (map position) rows) /\
    getcol K efunc conc radius h (s_ "Velocity") = Ok (map (map velocity) rows) /\
    getcol K efunc conc radius h (s_ "Mass") = Ok (map (map mass) rows) /\
    qsum (nums (map o_m (concat rows))) = (pm * zq (zlen (filter (fun g => (0 <? g)%Z) (global (p_labels p)))))%Qc /\
    dget (h_attrs K h) (s_ "particle_mass") = Some (HNum pm) /\ dget (h_attrs K h) (s_ "redshift") = Some (HNum z) /\ dget (h_attrs K h) (s_ "mdef") = Some (HStr mdef) /\
    (forall k, ~ In k [s_ "particle_mass"; s_ "redshift"; s_ "cosmo"; s_ "mass"; s_ "velocity"; s_ "position"; s_ "mdef"; s_ "halo_mass_key"; s_ "halo_radius_key"] ->
       dget (h_attrs K h) k = match dget fattrs k with Some v => Some v | None => dget (p_attrs p) k end).
Proof.
  intros K efunc conc radius argsort Ha p fattrs pd peakcolumn periodic m box vel dens pm cosmo z mdef Hpd Hp Hm Hv Sp Sv Hb Bp Hd N1 N2 Hr.
  destruct (halos_ok argsort Ha p fattrs pd peakcolumn periodic m box vel dens pm cosmo z mdef Hpd Hp Hm Hv Sp Sv Hb Bp Hd N1 N2 Hr) as (h & src & rows & E & Hk & Hs & L & F & Ns & At).
  exists h, rows. split; [exact E|]. split; [exact L|]. split; [exact F|].
  destruct (new_holds efunc conc radius h src cosmo z mdef _ _ _ rows Hk Hs) as (_ & G1 & G2 & G3 & _). split; [exact G1|]. split; [exact G2|]. split; [exact G3|].
  split; [apply (halo_mass pd (p_labels p) dens (p_pos p) vel box pm m _ Hp Hm F)|]. destruct Hk as (_ & _ & _ & _ & Fk & Fo). specialize (Fo Ns).
  split. { rewrite Fo; [rewrite At; destruct (str_eq_dec _ _); [reflexivity|congruence]|]. intros Hi. cbn [In] in Hi. repeat (destruct Hi as [Hi|Hi]; [discriminate Hi|]). exact Hi. }
  split; [exact (Forall_inv Fk)|]. split; [exact (Forall_inv (Forall_inv_tail (Forall_inv_tail (Forall_inv_tail (Forall_inv_tail (Forall_inv_tail Fk))))))|].
  intros k Hn. rewrite Fo by (intros Hi; apply Hn; right; exact Hi). rewrite At. destruct (str_eq_dec k _) as [-> | ]; [|reflexivity]. exfalso. apply Hn. now left.
Qed.
Theorem C303_refused : forall (K : Type) argsort p fattrs periodic pm (cosmo : K) z mdef peakcolumn pd,
  (pd = POther -> to_halos K argsort p fattrs periodic pm cosmo z mdef pd peakcolumn = Err AssertionError) /\
  (pd <> POther -> p_vel p = None -> to_halos K argsort p fattrs periodic pm cosmo z mdef pd peakcolumn = Err ValueError).
Proof. intros K argsort p fattrs periodic pm cosmo z mdef peakcolumn pd. split; [now intros -> |]. intros H E. unfold to_halos, fof_catalog. rewrite E. destruct pd; [reflexivity|reflexivity|contradiction]. Qed.
Section Ex303.
Definition q (n : Z) : Qc := zq n.
(* two ranks, two groups; the first lies across the boundary of the box of side 10 *)
Definition ex_axis : list (list Qc) := [[q 1; q 5]; [q 9; q 3; q 4]].
Definition ex_p : particles :=
  {| p_labels := [[1; 0]; [1; 2; 2]]; p_pos := [ex_axis; ex_axis; ex_axis]; p_vel := Some [ex_axis; ex_axis; ex_axis];
     p_cols := [(s_ "Density", [[q 2; q 9]; [q 1; q 3; q 3]])]; p_attrs := [(s_ "BoxSize", HBox [q 10; q 10; q 10])] |}.
Lemma ex_in : forall x, In x (global ex_axis) -> (0 <= x /\ x <= q 10)%Qc.
Proof. intros x Hx. unfold global, ex_axis in Hx. cbn [concat app In] in Hx. repeat (destruct Hx as [<- | Hx]; [split; apply Qle_bool_iff; vm_compute; reflexivity|]). destruct Hx. Qed.
Example C303_ex : exists h rows, to_halos unit ref_argsort ex_p [(s_ "nmin", HNum (q 1))] true (q 7) tt 0%Qc (s_ "vir") PPeak (s_ "Density") = Ok h /\
  map o_m (concat rows) = [Some (q 14); Some (q 14)] /\ length rows = 2%nat /\ dget (h_attrs unit h) (s_ "nmin") = Some (HNum (q 1)) /\
  (exists c, nth_error (map position (concat rows)) 1 = Some (Ve c c c) /\ center (Some (q 10)) [q 3; q 4] c).
Proof.
  destruct (C303_groups unit (fun _ _ => 1%Qc) (fun _ _ _ x => x) (fun _ _ _ x => x) ref_argsort ref_argsort_contract ex_p [(s_ "nmin", HNum (q 1))] PPeak (s_ "Density") true 2
    [Some (q 10); Some (q 10); Some (q 10)] [ex_axis; ex_axis; ex_axis] [[q 2; q 9]; [q 1; q 3; q 3]] (q 7) tt 0%Qc (s_ "vir")) as (h & rows & E & L & F & _ & _ & _ & _ & _ & _ & _ & At).
  - discriminate.
  - split; [discriminate|]. split; [repeat constructor; discriminate|]. intros x Hx. cbn in Hx. repeat (destruct Hx as [<- | Hx]; [lia|]). destruct Hx.
  - split; [cbn; auto|]. intros x Hx. cbn in Hx. repeat (destruct Hx as [<- | Hx]; [lia|]). destruct Hx.
  - reflexivity.
  - split; [reflexivity|]. repeat constructor.
  - split; [reflexivity|]. repeat constructor.
  - reflexivity.
  - split; [reflexivity|]. cbn [ex_p p_pos combine]. assert (in_axis (Some (q 10)) (global ex_axis)) as A by (split; [reflexivity|exact ex_in]). constructor; [exact A|]. constructor; [exact A|]. constructor; [exact A|constructor].
  - intros _. split; reflexivity.
  - repeat constructor; cbn; tauto.
  - repeat constructor; cbn; tauto.
  - intros k Hk. cbn [In] in Hk. destruct Hk as [<- | [<- | [<- | []]]]; split; reflexivity.
  - exists h, rows. split; [exact E|]. assert (groups (global (p_labels ex_p)) 2 = [1; 2]) as Eg by (vm_compute; reflexivity). rewrite Eg in F.
    destruct (concat rows) as [|o1 [|o2 [|? ?]]]; try (exfalso; apply f2_length in F; discriminate F). inversion F as [|? ? ? ? D1 F1]; subst. inversion F1 as [|? ? ? ? D2 _]; subst.
    destruct D1 as (M1 & _ & _). destruct D2 as (M2 & P2 & _).
    split. { cbn [map]. rewrite M1, M2. reflexivity. }
    split; [exact L|]. split. { rewrite At; [reflexivity|]. intros Hi. cbn [In] in Hi. repeat (destruct Hi as [Hi|Hi]; [discriminate Hi|]). exact Hi. }
    destruct P2 as (x & y & z & lx & ly & lz & vx & vy & vz & Ep & El & Ev & C1 & C2 & C3).
    assert (lx = Some (q 10)) by congruence. assert (ly = Some (q 10)) by congruence. assert (lz = Some (q 10)) by congruence. subst lx ly lz.
    assert (members PPeak (p_labels ex_p) [[q 2; q 9]; [q 1; q 3; q 3]] 2 (p_pos ex_p) = [[q 3; q 4]; [q 3; q 4]; [q 3; q 4]]) as Em by (vm_compute; reflexivity).
    rewrite Em in Ev. assert (vx = [q 3; q 4]) by congruence. assert (vy = [q 3; q 4]) by congruence. assert (vz = [q 3; q 4]) by congruence. subst vx vy vz.
    assert (unwrapped (q 10) [q 3; q 4] [q 3; q 4]) as U.
    { split; [repeat constructor; exists 0; apply Qc_is_canon; vm_compute; reflexivity|]. intros a b Ia Ib. cbn [In] in Ia, Ib. destruct Ia as [<- | [<- | []]], Ib as [<- | [<- | []]]; reflexivity. }
    assert (x = y /\ y = z) as [<- <-].
    { destruct (C1 _ U) as (c1 & -> & B1 & k1 & S1). destruct (C2 _ U) as (c2 & -> & B2 & k2 & S2). destruct (C3 _ U) as (c3 & -> & B3 & k3 & S3).
      assert (forall c k, (0 <= c /\ c < q 10)%Qc -> c = (mean [q 3; q 4] + zq k * q 10)%Qc -> c = mean [q 3; q 4]) as One.
      { intros c k [Bl Bu] ->. assert (k = 0) as ->; [|change (zq 0) with 0%Qc; ring].
        assert (mean [q 3; q 4] = (Q2Qc (7 # 2))%Qc) as Em' by (apply Qc_is_canon; vm_compute; reflexivity). rewrite Em' in Bl, Bu. unfold q in Bl, Bu.
        unfold Qcle in Bl. unfold Qclt in Bu. unfold zq in Bl, Bu. cbn [this Qcplus Qcmult Q2Qc] in Bl, Bu. rewrite !Qred_correct in Bl, Bu. unfold Qle, Qlt, Qplus, Qmult, inject_Z in Bl, Bu. change (Qred (10 # 1)) with (10 # 1)%Q in Bl, Bu. cbn [Qnum Qden] in Bl, Bu. lia. }
      rewrite (One _ _ B1 S1), (One _ _ B2 S2), (One _ _ B3 S3). split; reflexivity. }
    exists x. split; [cbn [map nth_error]; f_equal; exact Ep|exact C1].
Qed.
End Ex303.

(* ---- C304: every halo is handed to halotools ---- *)
Theorem C304_tables : forall (K : Type) (efunc : K -> Qc -> Qc) (conc radius : K -> Qc -> str -> num -> num) src (cosmo : K) z mdef m p v rows BoxSize box,
  source_holds src m p v rows -> concat rows <> [] -> NoDup (map fst (s_attrs src)) ->
  box_of BoxSize (s_attrs src) = Some box ->
  exists h tables, new_halos K src cosmo z mdef (Some m) (Some p) (Some v) = Ok h /\ to_halotools K efunc conc radius h BoxSize = Ok tables /\
    all_described mdef cosmo z box (mass_of (s_attrs src)) (radius cosmo z mdef) (conc cosmo z mdef) rows tables.
Proof.
  intros K efunc conc radius src cosmo z mdef m p v rows BoxSize box Hs Hne N Hb. pose proof Hs as (S1 & S2 & S3 & S4 & S5).
  destruct (new_ok efunc conc radius src cosmo z mdef m p v S1) as (h & E & Hk).
  { intros n Hn. cbn [In] in Hn. destruct Hn as [<- | [<- | [<- | []]]]; congruence. }
  pose proof (new_holds efunc conc radius h src cosmo z mdef m p v rows Hk Hs) as Hh. destruct Hk as (K1 & K2 & K3 & K4 & F & Fo). specialize (Fo N).
  assert (dget (h_attrs K h) (s_ "BoxSize") = dget (s_attrs src) (s_ "BoxSize")) as Eb by (apply Fo; intros Hi; cbn [In] in Hi; repeat (destruct Hi as [Hi|Hi]; [discriminate Hi|]); exact Hi).
  assert (mass_of (h_attrs K h) = mass_of (s_attrs src)) as Em.
  { unfold mass_of. rewrite Fo; [reflexivity|]. intros Hi; cbn [In] in Hi; repeat (destruct Hi as [Hi|Hi]; [discriminate Hi|]); exact Hi. }
  destruct (halotools_ok efunc conc radius h (radius cosmo z mdef) (conc cosmo z mdef) rows mdef z box BoxSize Hh Hne) as (tables & Et & D).
  - exact (Forall_inv (Forall_inv_tail (Forall_inv_tail (Forall_inv_tail (Forall_inv_tail (Forall_inv_tail (Forall_inv_tail F))))))).
  - exact (Forall_inv (Forall_inv_tail (Forall_inv_tail (Forall_inv_tail (Forall_inv_tail (Forall_inv_tail (Forall_inv_tail (Forall_inv_tail F)))))))).
  - exact (Forall_inv (Forall_inv_tail (Forall_inv_tail (Forall_inv_tail (Forall_inv_tail (Forall_inv_tail F)))))).
  - exact (Forall_inv F).
  - unfold box_of in *. rewrite Eb. exact Hb.
  - exists h, tables. split; [exact E|]. split; [exact Et|]. rewrite K1, Em in D. exact D.
Qed.
Theorem C304_refused : forall (K : Type) (efunc : K -> Qc -> Qc) (conc radius : K -> Qc -> str -> num -> num) src (cosmo : K) z mdef,
  (forall m p v, (exists c, In c [m; p; v] /\ (c = None \/ exists n, c = Some n /\ dget (s_cols src) n = None)) -> new_halos K src cosmo z mdef m p v = Err ValueError) /\
  (forall m p v, (forall n, In n [m; p; v] -> dget (s_cols src) n <> None) -> s_catalog src = false -> new_halos K src cosmo z mdef (Some m) (Some p) (Some v) = Err TypeError) /\
  (forall h BoxSize, list_sum (h_sizes K h) = 0%nat \/ (BoxSize = None /\ dget (h_attrs K h) (s_ "BoxSize") = None) -> to_halotools K efunc conc radius h BoxSize = Err ValueError).
Proof.
  intros K efunc conc radius src cosmo z mdef. split; [|split].
  - intros m p v H. assert (forall c, (c = None \/ exists n, c = Some n /\ dget (s_cols src) n = None) -> required src c = Err ValueError) as B.
    { intros c [-> | (n & -> & E)]; [reflexivity|]. unfold required. now rewrite E. }
    assert (forall c, required src c = Err ValueError \/ exists x, required src c = Ok x) as A.
    { intros [c|]; [|left; reflexivity]. unfold required. destruct (dget (s_cols src) c); eauto. }
    unfold new_halos. destruct H as (c & Hc & Hb). specialize (B c Hb). cbn [In] in Hc.
    destruct (A m) as [Em|[x Em]]; rewrite Em; cbn [rbind]; [reflexivity|]. destruct (A p) as [Ep|[y Ep]]; rewrite Ep; cbn [rbind]; [reflexivity|].
    destruct (A v) as [Ev|[w Ev]]; rewrite Ev; cbn [rbind]; [reflexivity|]. exfalso. destruct Hc as [<- | [<- | [<- | []]]]; congruence.
  - intros m p v H E. unfold new_halos, required.
    destruct (dget (s_cols src) m) eqn:E1; [|exfalso; apply (H m); [cbn; auto|exact E1]]. destruct (dget (s_cols src) p) eqn:E2; [|exfalso; apply (H p); [cbn; auto|exact E2]].
    destruct (dget (s_cols src) v) eqn:E3; [|exfalso; apply (H v); [cbn; auto|exact E3]]. cbn [rbind]. now rewrite E.
  - intros h BoxSize H. unfold to_halotools. destruct (Nat.eqb_spec (list_sum (h_sizes K h)) 0) as [E|E]; [reflexivity|]. destruct H as [H|[-> H]]; [contradiction|]. now rewrite H.
Qed.
Section Ex304.
Definition ex_halo (n : Z) : halo := {| o_x := Some (q n); o_y := Some (q n); o_z := Some (q n); o_vx := Some (q (n + 1)); o_vy := Some (q (n + 2)); o_vz := None; o_m := Some (q (100 * n)) |}.
Definition ex_rows : list (list halo) := [[ex_halo 1]; []; [ex_halo 2; ex_halo 3]].
Definition ex_src : source := {| s_catalog := true; s_sizes := map (@length halo) ex_rows; s_attrs := [(s_ "BoxSize", HNum (q 10))];
  s_cols := [(s_ "M", map (map mass) ex_rows); (s_ "X", map (map position) ex_rows); (s_ "V", map (map velocity) ex_rows)] |}.
Lemma ex_holds : source_holds ex_src (s_ "M") (s_ "X") (s_ "V") ex_rows.
Proof. repeat split. Qed.
Definition one : unit -> Qc -> Qc := fun _ _ => 1%Qc.
Definition mass_itself : unit -> Qc -> str -> num -> num := fun _ _ _ m => m.
Example C304_ex : source_holds ex_src (s_ "M") (s_ "X") (s_ "V") ex_rows /\ concat ex_rows <> [] /\ NoDup (map fst (s_attrs ex_src)) /\ box_of None (s_attrs ex_src) = Some (HNum (q 10)) /\
  exists h tables t, new_halos unit ex_src tt 0%Qc (s_ "vir") (Some (s_ "M")) (Some (s_ "X")) (Some (s_ "V")) = Ok h /\ to_halotools unit one mass_itself mass_itself h None = Ok tables /\
    nth_error tables 2 = Some t /\ dget t (s_ "halo_id") = Some (KInts unit [1; 2]) /\ dget t (s_ "halo_mvir") = Some (KNums unit [Some (q 200); Some (q 300)]).
Proof.
  assert (concat ex_rows <> []) as Hne by discriminate. assert (NoDup (map fst (s_attrs ex_src))) as N by (repeat constructor; cbn; tauto).
  split; [exact ex_holds|]. split; [exact Hne|]. split; [exact N|]. split; [reflexivity|].
  destruct (C304_tables unit one mass_itself mass_itself ex_src tt 0%Qc (s_ "vir") _ _ _ ex_rows None (HNum (q 10)) ex_holds Hne N eq_refl) as (h & tables & E1 & E2 & L & D).
  destruct (nth_error tables 2) as [t|] eqn:Et; [|exfalso; apply nth_error_None in Et; rewrite L in Et; cbn in Et; lia].
  exists h, tables, t. split; [exact E1|]. split; [exact E2|]. split; [exact Et|]. specialize (D 2%nat [ex_halo 2; ex_halo 3] t eq_refl Et). unfold describes in D. rewrite Forall_forall in D.
  split; [apply (D (s_ "halo_id", KInts unit [1; 2])); cbn [In]; auto 20|]. apply (D (s_ "halo_m" ++ s_ "vir", KNums unit [Some (q 200); Some (q 300)])). cbn [In]. auto 20.
Qed.

(* ---- C305: after columns are set, and in selections ---- *)
Theorem C305_set : forall (K : Type) (efunc : K -> Qc -> Qc) (conc radius : K -> Qc -> str -> num -> num) src (cosmo : K) z mdef m p v rows h ops BoxSize box,
  source_holds src m p v rows -> concat rows <> [] -> NoDup (map fst (s_attrs src)) -> box_of BoxSize (s_attrs src) = Some box ->
  new_halos K src cosmo z mdef (Some m) (Some p) (Some v) = Ok h -> (forall o, In o ops -> plain_names o) ->
  let now := fold_left after_set ops rows in
  (exists tables, to_halotools K efunc conc radius (h_run h ops) BoxSize = Ok tables /\
     all_described mdef cosmo z box (mass_of (s_attrs src)) (radius cosmo z mdef) (conc cosmo z mdef) now tables) /\
  (efunc cosmo z <> 0%Qc -> exists c, getcol K efunc conc radius (h_run h ops) (s_ "VelocityOffset") = Ok c /\
     Forall2 (Forall2 (fun o x => mulc (zq 100 * efunc cosmo z)%Qc x = mulc (1 + z)%Qc (velocity o))) now c) /\
  (efunc cosmo z <> 0%Qc -> forall mask, map (@length bool) mask = map (@length halo) now -> concat (chosen mask now) <> [] ->
     exists h' tables, slice K efunc conc radius (h_run h ops) mask = Ok h' /\ to_halotools K efunc conc radius h' BoxSize = Ok tables /\
       all_described mdef cosmo z box (mass_of (s_attrs src)) (radius cosmo z mdef) (conc cosmo z mdef) (chosen mask now) tables).
Proof.
  intros K efunc conc radius src cosmo z mdef m p v rows h ops BoxSize box Hs Hne N Hb E Hp now. pose proof Hs as (S1 & S2 & S3 & S4 & S5).
  destruct (new_ok efunc conc radius src cosmo z mdef m p v S1) as (h0 & E0 & Hk).
  { intros n Hn. cbn [In] in Hn. destruct Hn as [<- | [<- | [<- | []]]]; congruence. }
  assert (h0 = h) as -> by congruence. clear E0.
  pose proof (new_live efunc conc radius h src cosmo z mdef m p v rows Hk Hs) as L0. pose proof (run_live efunc conc radius ops h cosmo _ z mdef rows L0 Hp) as Lv. fold now in Lv.
  destruct Hk as (K1 & K2 & K3 & K4 & F & Fo). specialize (Fo N).
  assert (dget (h_attrs K h) (s_ "BoxSize") = dget (s_attrs src) (s_ "BoxSize")) as Eb by (apply Fo; intros Hi; cbn [In] in Hi; repeat (destruct Hi as [Hi|Hi]; [discriminate Hi|]); exact Hi).
  assert (mass_of (h_attrs K h) = mass_of (s_attrs src)) as Em.
  { unfold mass_of. rewrite Fo; [reflexivity|]. intros Hi; cbn [In] in Hi; repeat (destruct Hi as [Hi|Hi]; [discriminate Hi|]); exact Hi. }
  assert (concat now <> []) as Hnow.
  { intros X. apply Hne. apply (same_lengths_nil now rows); [apply run_lengths|exact X]. }
  assert (forall h' rs, h_attrs K h' = h_attrs K h -> h_cosmo K h' = cosmo -> holds efunc conc radius h' (radius cosmo z mdef) (conc cosmo z mdef) rs -> concat rs <> [] ->
    exists tables, to_halotools K efunc conc radius h' BoxSize = Ok tables /\ all_described mdef cosmo z box (mass_of (s_attrs src)) (radius cosmo z mdef) (conc cosmo z mdef) rs tables) as T.
  { intros h' rs Ha Hc Hh Hr.
    destruct (halotools_ok efunc conc radius h' (radius cosmo z mdef) (conc cosmo z mdef) rs mdef z box BoxSize Hh Hr) as (tables & Et & D); rewrite ?Ha.
    - exact (Forall_inv (Forall_inv_tail (Forall_inv_tail (Forall_inv_tail (Forall_inv_tail (Forall_inv_tail (Forall_inv_tail F))))))).
    - exact (Forall_inv (Forall_inv_tail (Forall_inv_tail (Forall_inv_tail (Forall_inv_tail (Forall_inv_tail (Forall_inv_tail (Forall_inv_tail F)))))))).
    - exact (Forall_inv (Forall_inv_tail (Forall_inv_tail (Forall_inv_tail (Forall_inv_tail (Forall_inv_tail F)))))).
    - exact (Forall_inv F).
    - unfold box_of in *. rewrite Eb. exact Hb.
    - exists tables. split; [exact Et|]. rewrite Hc, Ha, Em in D. exact D. }
  split; [|split].
  - apply T; [apply Lv|apply Lv|apply Lv|exact Hnow].
  - intros He. rewrite (offset_ok efunc conc radius _ _ _ _ _ _ Lv He). eexists. split; [reflexivity|]. clearbody now. clear -He. induction now as [|r l IH]; cbn [map]; constructor; [|exact IH]. induction r as [|o r IHr]; cbn [map]; constructor; [|exact IHr].
    assert (forall a : Qc, (a * ((1 + z) / (zq 100 * efunc cosmo z)) * (zq 100 * efunc cosmo z) = a * (1 + z))%Qc) as A by (intros a; field; split; [exact He|discriminate]).
    unfold velocity, mulc. destruct (o_vx o), (o_vy o), (o_vz o); cbn [option_map]; rewrite ?A; reflexivity.
  - intros He mask Hm Hc. destruct (slice_ok efunc conc radius _ _ _ _ _ _ mask Lv He Hm) as (h' & Es & Hh & Ha & Hc').
    destruct (T h' (chosen mask now) Ha Hc' Hh Hc) as (tables & Et & D). exists h', tables. auto.
Qed.
Definition ex_ops : list hop := [SetMass [[Some (q 5)]; []; [Some (q 6); None]]; SetOther (s_ "Color") []; SetPosition [[(None, None, None)]]].
Definition ex_mask : list (list bool) := [[false]; []; [true; false]].
Example C305_ex : (forall o, In o ex_ops -> plain_names o) /\ map o_m (concat (fold_left after_set ex_ops ex_rows)) = [Some (q 5); Some (q 6); None] /\
  map o_x (concat (fold_left after_set ex_ops ex_rows)) = [Some (q 1); Some (q 2); Some (q 3)] /\
  map (@length bool) ex_mask = map (@length halo) (fold_left after_set ex_ops ex_rows) /\ concat (chosen ex_mask (fold_left after_set ex_ops ex_rows)) <> [] /\ one tt 0%Qc <> 0%Qc.
Proof.
  split; [|repeat split; discriminate]. intros o Ho. cbn [ex_ops In] in Ho. destruct Ho as [<- | [<- | [<- | []]]]; cbn [plain_names]; try exact I.
  unfold hard. intros Hi. cbn [In] in Hi. repeat (destruct Hi as [Hi|Hi]; [discriminate Hi|]). exact Hi.
Qed.

(* ---- C306: masses set in a selection ---- *)
Theorem C306_slice_refuted : forall (K : Type) (efunc : K -> Qc -> Qc) (conc radius : K -> Qc -> str -> num -> num) (cosmo : K) z mdef a b, efunc cosmo z <> 0%Qc ->
  radius cosmo z mdef a <> radius cosmo z mdef b ->
  exists src h h' h'', new_halos K src cosmo z mdef (Some (s_ "M")) (Some (s_ "X")) (Some (s_ "V")) = Ok h /\ slice K efunc conc radius h [[true]] = Ok h' /\
    setcol K h' (s_ "Mass") [[Sc b]] = Ok h'' /\ getcol K efunc conc radius h'' (s_ "Mass") = Ok [[Sc b]] /\
    getcol K efunc conc radius h'' (s_ "Radius") = Ok [[Sc (radius cosmo z mdef a)]] /\
    getcol K efunc conc radius h'' (s_ "Radius") <> Ok [[Sc (radius cosmo z mdef b)]].
Proof.
  intros K efunc conc radius cosmo z mdef a b He Hr.
  set (o := {| o_x := None; o_y := None; o_z := None; o_vx := None; o_vy := None; o_vz := None; o_m := a |}).
  set (src := {| s_catalog := true; s_sizes := [1%nat]; s_attrs := []; s_cols := [(s_ "M", [[mass o]]); (s_ "X", [[position o]]); (s_ "V", [[velocity o]])] |}).
  assert (source_holds src (s_ "M") (s_ "X") (s_ "V") [[o]]) as Hs by (repeat split).
  destruct (new_ok efunc conc radius src cosmo z mdef (s_ "M") (s_ "X") (s_ "V")) as (h & E & Hk); [reflexivity| |].
  { intros n Hn. cbn [In] in Hn. destruct Hn as [<- | [<- | [<- | []]]]; discriminate. }
  pose proof (new_live efunc conc radius h src cosmo z mdef _ _ _ _ Hk Hs) as Lv.
  destruct (slice_ok efunc conc radius _ _ _ _ _ _ [[true]] Lv He eq_refl) as (h' & Es & (Hz & _ & _ & _ & Hrad & _) & _ & _).
  exists src, h, h', (with_over K h' (dset (h_over K h') (s_ "Mass") [[Sc b]])). split; [exact E|]. split; [exact Es|].
  split. { unfold setcol. rewrite Hz. reflexivity. }
  split. { apply set_get. cbn [with_over h_over]. apply dget_set_same. }
  assert (dget (h_over K h') (s_ "Radius") = Some [[Sc (radius cosmo z mdef a)]]) as Eo.
  { unfold slice in Es. destruct (list_eq_dec _ _ _); [|discriminate]. destruct (rall _) as [cols|e'] eqn:Er; [|discriminate]. cbn [rbind] in Es.
    assert (h_over K h' = cols) as <- by (injection Es as <-; reflexivity).
    destruct (dget (h_over K h') (s_ "Radius")) as [c|] eqn:Ec.
    - unfold getcol in Hrad. rewrite Ec in Hrad. assert (c = [[Sc (radius cosmo z mdef a)]]) as ->; [|reflexivity]. assert (@Ok column c = Ok [[Sc (radius cosmo z mdef a)]]) as X by exact Hrad. congruence.
    - exfalso. apply SaveProofs.rall_map_ok' in Er. assert (In (s_ "Radius") (hcols K h)) as Hi by (apply in_hcols; unfold hard; cbn [In]; auto 8).
      apply (proj1 (dget_in (h_over K h') (s_ "Radius"))); [|exact Ec]. clear -Er Hi. induction Er as [|x y l cols' E1 E2 IH]; [destruct Hi|].
      destruct (getcol K efunc conc radius h x); [|discriminate]. cbn [rbind] in E1. assert (y = (x, zipr pick [[true]] a)) as -> by congruence. cbn [map fst]. destruct Hi as [-> | Hi]; [now left|right; apply IH, Hi]. }
  assert (getcol K efunc conc radius (with_over K h' (dset (h_over K h') (s_ "Mass") [[Sc b]])) (s_ "Radius") = Ok [[Sc (radius cosmo z mdef a)]]) as G.
  { apply set_get. cbn [with_over h_over]. rewrite dget_set_other by discriminate. exact Eo. }
  split; [exact G|]. rewrite G. congruence.
Qed.
Example C306_ex : one tt 0%Qc <> 0%Qc /\ mass_itself tt 0%Qc (s_ "vir") (Some (q 1)) <> mass_itself tt 0%Qc (s_ "vir") (Some (q 2)).
Proof. split; discriminate. Qed.

(* ---- C307: another mass definition ---- *)
Theorem C307_mdef_refuted : exists h tables t, new_halos unit ex_src tt 0%Qc (s_ "vir") (Some (s_ "M")) (Some (s_ "X")) (Some (s_ "V")) = Ok h /\
  to_halotools unit one mass_itself mass_itself (with_attr unit h (s_ "mdef") (HStr (s_ "200m"))) None = Ok tables /\ nth_error tables 0 = Some t /\
  dget t (s_ "mdef") = Some (KVal unit (HStr (s_ "200m"))) /\ dget t (s_ "halo_m" ++ s_ "200m") = None /\ dget t (s_ "halo_r" ++ s_ "200m") = None /\
  dget t (s_ "halo_m" ++ s_ "vir") <> None.
Proof.
  do 3 eexists. split; [reflexivity|]. split; [cbv; reflexivity|]. split; [reflexivity|]. split; [reflexivity|]. split; [reflexivity|]. split; [reflexivity|]. discriminate.
Qed.
End Ex304.

(* ---- C308: names of attributes ---- *)
Theorem C308_names_refuted : forall k, In k [s_ "data"; s_ "comm"] -> exists p,
  p_labels p = p_labels ex_p /\ p_pos p = p_pos ex_p /\ p_vel p = p_vel ex_p /\ p_attrs p = p_attrs ex_p ++ [(k, HNum 1%Qc)] /\
  (exists h, to_halos unit ref_argsort ex_p [] false (q 7) tt 0%Qc (s_ "vir") PCm (s_ "Density") = Ok h) /\
  to_halos unit ref_argsort p [] false (q 7) tt 0%Qc (s_ "vir") PCm (s_ "Density") = Err TypeError.
Proof.
  assert (forall p, p_labels p = p_labels ex_p -> p_pos p = p_pos ex_p -> p_vel p = p_vel ex_p -> exists data, fof_catalog ref_argsort p None false = Ok data) as A.
  { intros p E1 E2 E3. destruct (catalog_ok ref_argsort ref_argsort_contract p PCm (s_ "Density") false 2 open_box [ex_axis; ex_axis; ex_axis] []) as (data & E & _); rewrite ?E1, ?E2, ?E3.
    - discriminate.
    - split; [discriminate|]. split; [repeat constructor; discriminate|]. intros x Hx. cbn in Hx. repeat (destruct Hx as [<- | Hx]; [lia|]). destruct Hx.
    - split; [cbn; auto|]. intros x Hx. cbn in Hx. repeat (destruct Hx as [<- | Hx]; [lia|]). destruct Hx.
    - reflexivity.
    - split; [reflexivity|]. repeat constructor.
    - split; [reflexivity|]. repeat constructor.
    - reflexivity.
    - split; [reflexivity|]. repeat constructor.
    - discriminate.
    - exists data. exact E. }
  intros k Hk. exists {| p_labels := p_labels ex_p; p_pos := p_pos ex_p; p_vel := p_vel ex_p; p_cols := p_cols ex_p; p_attrs := p_attrs ex_p ++ [(k, HNum 1%Qc)] |}.
  split; [reflexivity|]. split; [reflexivity|]. split; [reflexivity|]. split; [reflexivity|]. split.
  - destruct (A ex_p eq_refl eq_refl eq_refl) as [data E]. unfold to_halos. rewrite E. cbn [rbind]. match goal with |- context [existsb ?f reserved] => replace (existsb f reserved) with false by reflexivity end.
    unfold new_halos, required. eexists. reflexivity.
  - unfold to_halos. destruct (A {| p_labels := p_labels ex_p; p_pos := p_pos ex_p; p_vel := p_vel ex_p; p_cols := p_cols ex_p; p_attrs := p_attrs ex_p ++ [(k, HNum 1%Qc)] |} eq_refl eq_refl eq_refl) as [data E].
    rewrite E. cbn [rbind]. destruct Hk as [<- | [<- | []]]; reflexivity.
Qed.

Print Assumptions C303_groups.
Print Assumptions C303_refused.
Print Assumptions C304_tables.
Print Assumptions C304_refused.
Print Assumptions C305_set.
Print Assumptions C306_slice_refuted.
Print Assumptions C307_mdef_refuted.
Print Assumptions C308_names_refuted.
