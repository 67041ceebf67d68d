From Coq Require Import Ascii String QArith Qcanon.
From Verif Require Import Base BaseProofs Num NamesModel NamesProofs RanksSpec RanksModel RanksProofs DistModel DaModel DaSpec FofModel FofSpec FofCmModel FofCmSpec FofCm FofMean DaCounts HctModel HctSpec HctProofs HctMain HctFof.
Local Notation length := List.length.
Local Notation concat := List.concat.
Local Open Scope Z_scope.

Lemma dset_keys {V} : forall (d : list (str * V)) k v x, In x (map fst (dset d k v)) -> x = k \/ In x (map fst d).
Proof.
  induction d as [|[a w] d IH]; intros k v x H; cbn [dset map fst In] in *; [destruct H as [<- | []]; now left|].
  destruct (str_eq_dec a k) as [E|E]; cbn [map fst In] in *; [tauto|]. destruct H as [H|H]; [tauto|]. apply IH in H. tauto.
Qed.
Lemma dset_nodup {V} : forall (d : list (str * V)) k v, NoDup (map fst d) -> NoDup (map fst (dset d k v)).
Proof.
  induction d as [|[a w] d IH]; intros k v N; cbn [dset]; [repeat constructor; intros []|]. cbn [map fst] in N. inversion N as [|? ? Na Nd]; subst.
  destruct (str_eq_dec a k) as [E|E]; cbn [map fst]; constructor; try assumption; [|apply IH, Nd]. intros H. apply dset_keys in H. destruct H as [H|H]; [now apply E|contradiction].
Qed.
Lemma dupdate_nodup : forall e d, NoDup (map fst d) -> NoDup (map fst (dupdate d e)).
Proof. unfold dupdate. induction e as [|[k v] e IH]; intros d N; [exact N|]. cbn [fold_left]. apply IH, dset_nodup, N. Qed.

(* every particle of a group is in one group *)
Lemma count_cons : forall x a l, count x (a :: l) = (if a =? x then 1 else 0) + count x l.
Proof. intros x a l. unfold count. cbn [filter]. destruct (a =? x); [unfold zlen; cbn [length]; lia|lia]. Qed.
Lemma one_of_seq : forall n s a, zsum (map (fun x => if a =? Z.of_nat x then 1 else 0) (seq s n)) = if (Z.of_nat s <=? a) && (a <? Z.of_nat s + Z.of_nat n) then 1 else 0.
Proof.
  induction n as [|n IH]; intros s a; [cbn [seq map]; change (zsum []) with 0; destruct (Z.leb_spec (Z.of_nat s) a), (Z.ltb_spec a (Z.of_nat s + Z.of_nat 0)); cbn [andb]; lia|].
  cbn [seq map]. change (zsum (?x :: ?l)) with (x + zsum l). rewrite IH.
  destruct (Z.eqb_spec a (Z.of_nat s)), (Z.leb_spec (Z.of_nat (Datatypes.S s)) a), (Z.ltb_spec a (Z.of_nat (Datatypes.S s) + Z.of_nat n)), (Z.leb_spec (Z.of_nat s) a), (Z.ltb_spec a (Z.of_nat s + Z.of_nat (Datatypes.S n))); cbn [andb]; lia.
Qed.
Lemma zsum_add {A} : forall (f g : A -> Z) l, zsum (map (fun x => f x + g x) l) = zsum (map f l) + zsum (map g l).
Proof. intros f g. induction l as [|x l IH]; [reflexivity|]. cbn [map]. change (zsum (?x :: ?l)) with (x + zsum l). lia. Qed.
Lemma all_counts : forall labels m, (forall x, In x labels -> x <= Z.of_nat m) -> zsum (map (fun x => count (Z.of_nat x) labels) (seq 1 m)) = zlen (filter (fun x => 0 <? x) labels).
Proof.
  induction labels as [|a labels IH]; intros m H.
  - cbn [filter]. assert (forall n s, zsum (map (fun x => count (Z.of_nat x) []) (seq s n)) = 0) as E; [|apply E]. induction n as [|n IHn]; intros s; [reflexivity|]. cbn [seq map]. change (zsum (?x :: ?l)) with (x + zsum l). rewrite IHn. reflexivity.
  - rewrite (map_ext _ (fun x => (if a =? Z.of_nat x then 1 else 0) + count (Z.of_nat x) labels)) by (intros x; apply count_cons).
    rewrite zsum_add, one_of_seq, IH by (intros x Hx; apply H; now right). specialize (H a (or_introl eq_refl)). cbn [filter].
    destruct (Z.leb_spec (Z.of_nat 1) a), (Z.ltb_spec a (Z.of_nat 1 + Z.of_nat m)), (Z.ltb_spec 0 a); cbn [andb]; try lia; unfold zlen; cbn [length]; lia.
Qed.
Lemma group_counts : forall labels m, 0 <= m -> (forall x, In x labels -> x <= m) -> zsum (map (fun g => count g labels) (groups labels m)) = zlen (filter (fun x => 0 <? x) labels).
Proof.
  intros labels m Hm H. rewrite <- (all_counts labels (Z.to_nat m)) by (intros x Hx; specialize (H x Hx); lia). unfold groups.
  generalize (seq 1 (Z.to_nat m)). induction l as [|x l IH]; [reflexivity|]. cbn [map filter].
  change (zsum (count (Z.of_nat x) labels :: ?l)) with (count (Z.of_nat x) labels + zsum l).
  destruct (Z.ltb_spec 0 (count (Z.of_nat x) labels)) as [C|C].
  - cbn [map]. change (zsum (count (Z.of_nat x) labels :: ?l)) with (count (Z.of_nat x) labels + zsum l). now rewrite IH.
  - assert (0 <= count (Z.of_nat x) labels) by (unfold count, zlen; lia). rewrite IH. lia.
Qed.
Lemma qsum_scaled : forall (pm : Qc) l, qsum (map (fun n => pm * zq n)%Qc l) = (pm * zq (zsum l))%Qc.
Proof. intros pm. induction l as [|x l IH]; [cbn [map]; rewrite qsum_nil; change (zsum []) with 0; rewrite zq_0; ring|]. cbn [map]. change (zsum (x :: l)) with (x + zsum l). rewrite qsum_cons, IH, zq_add. ring. Qed.

Definition ve (c : cell) : num * num * num := match c with Ve x y z => (x, y, z) | Sc _ => (None, None, None) end.
Definition halo_of (pm : Qc) (r : frow) : halo :=
  let '(x, y, z) := ve (match f_peak r with Some qw => fst qw | None => f_pos r end) in
  let '(vx, vy, vz) := ve (match f_peak r with Some qw => snd qw | None => f_vel r end) in
  {| o_x := x; o_y := y; o_z := z; o_vx := vx; o_vy := vy; o_vz := vz; o_m := Some (pm * zq (f_len r))%Qc |}.

Section ToHalos.
Context {K : Type}.
Variable argsort : list Z -> list nat.
Hypothesis Ha : argsort_contract argsort.

Lemma halos_ok : forall p fattrs pd peakcolumn periodic m box vel dens pm (cosmo : K) z mdef, pd <> POther -> proper (p_labels p) -> greatest (global (p_labels p)) m ->
  p_vel p = Some vel -> shaped (p_labels p) (p_pos p) -> shaped (p_labels p) vel ->
  used_box periodic (p_attrs p) = Some box -> boxed box (p_pos p) ->
  (pd = PPeak -> dget (p_cols p) peakcolumn = Some dens /\ map (@length Z) (p_labels p) = map (@length Qc) dens) ->
  NoDup (map fst (p_attrs p)) -> NoDup (map fst fattrs) -> (forall k, In k reserved -> dget (p_attrs p) k = None /\ dget fattrs k = None) ->
  exists h src rows, to_halos K argsort p fattrs periodic pm cosmo z mdef pd peakcolumn = Ok h /\
    keys_of h src cosmo z mdef (s_ "Mass") (s_ "Position") (s_ "Velocity") /\ source_holds src (s_ "Mass") (s_ "Position") (s_ "Velocity") rows /\
    length rows = length (p_labels p) /\ Forall2 (halo_of_group pd (p_labels p) dens (p_pos p) vel box pm) (groups (global (p_labels p)) m) (concat rows) /\
    NoDup (map fst (s_attrs src)) /\
    forall k, dget (s_attrs src) k = if str_eq_dec k (s_ "particle_mass") then Some (HNum pm) else match dget fattrs k with Some v => Some v | None => dget (p_attrs p) k end.
Proof.
  intros p fattrs pd peakcolumn periodic m box vel dens pm cosmo z mdef Hpd Hp Hm Hv Sp Sv Hb Bp Hd N1 N2 Hr.
  destruct (catalog_ok argsort Ha p pd peakcolumn periodic m box vel dens Hpd Hp Hm Hv Sp Sv Hb Bp Hd) as (data & E & L & F).
  set (attrs := dset (dupdate (p_attrs p) fattrs) (s_ "particle_mass") (HNum pm)).
  assert (NoDup (map fst attrs)) as Na by (apply dset_nodup, dupdate_nodup, N1).
  assert (forall k, dget attrs k = if str_eq_dec k (s_ "particle_mass") then Some (HNum pm) else match dget fattrs k with Some v => Some v | None => dget (p_attrs p) k end) as At.
  { intros k. unfold attrs. destruct (str_eq_dec k (s_ "particle_mass")) as [-> | Ne]; [apply dget_set_same|]. rewrite dget_set_other by (intros X; apply Ne; now symmetry).
    destruct (dget fattrs k) as [v|] eqn:Ef; [now apply dupdate_some|now apply dupdate_none]. }
  set (data' := map (filter (fun r => 0 <? f_len r)) data) in *.
  assert (forall r, In r (concat data') -> exists x y z vx vy vz, (match f_peak r with Some qw => fst qw | None => f_pos r end) = Ve x y z /\ (match f_peak r with Some qw => snd qw | None => f_vel r end) = Ve vx vy vz) as Vs.
  { change (concat data') with (global data'). clear -F. induction F as [|g r l rs D F IH]; [intros r []|]. intros r' [<- | H]; [|apply IH, H].
    destruct D as (_ & (x & y & z & ? & ? & ? & ? & ? & ? & Ep & _) & (vx & vy & vz & ? & ? & ? & ? & ? & ? & Ew & _)). exists x, y, z, vx, vy, vz. split; assumption. }
  set (rows := map (map (halo_of pm)) data').
  assert (forall f (g : halo -> cell), (forall r, In r (concat data') -> f r = g (halo_of pm r)) -> map (map f) data' = map (map g) rows) as Cols.
  { intros f g Hfg. unfold rows. rewrite map_map. apply map_ext_in. intros l Hl. rewrite map_map. apply map_ext_in. intros r Hx. apply Hfg. apply in_concat. eauto. }
  set (src := {| s_catalog := true; s_sizes := map (@length frow) data'; s_attrs := dupdate [] attrs;
    s_cols := [(s_ "Position", map (map (fun r => match f_peak r with Some qw => fst qw | None => f_pos r end)) data'); (s_ "Velocity", map (map (fun r => match f_peak r with Some qw => snd qw | None => f_vel r end)) data');
               (s_ "Mass", map (map (fun r => Sc (Some (pm * zq (f_len r))%Qc))) data');
               (s_ "CMPosition", map (map f_pos) data'); (s_ "CMVelocity", map (map f_vel) data'); (s_ "Length", map (map (fun r => Sc (Some (zq (f_len r))))) data')] |}).
  assert (source_holds src (s_ "Mass") (s_ "Position") (s_ "Velocity") rows) as Hs.
  { split; [reflexivity|]. split; [unfold src, rows; cbn [s_sizes]; rewrite map_map; apply map_ext; intros l; symmetry; apply map_length|].
    unfold src. cbn [s_cols].
    assert (map (map (fun r => Sc (Some (pm * zq (f_len r))%Qc))) data' = map (map mass) rows) as E1.
    { apply Cols. intros r _. unfold mass, halo_of. destruct (ve _) as [[? ?] ?], (ve _) as [[? ?] ?]. reflexivity. }
    split; [rewrite <- E1; reflexivity|]. split.
    - rewrite <- (Cols (fun r => match f_peak r with Some qw => fst qw | None => f_pos r end) position); [reflexivity|].
      intros r Hx. destruct (Vs r Hx) as (x & y & z' & vx & vy & vz & Ep & Ew). unfold position, halo_of. rewrite Ep, Ew. reflexivity.
    - rewrite <- (Cols (fun r => match f_peak r with Some qw => snd qw | None => f_vel r end) velocity); [reflexivity|].
      intros r Hx. destruct (Vs r Hx) as (x & y & z' & vx & vy & vz & Ep & Ew). unfold velocity, halo_of. rewrite Ep, Ew. reflexivity. }
  destruct (new_ok (fun _ _ => 0%Qc) (fun _ _ _ x => x) (fun _ _ _ x => x) src cosmo z mdef (s_ "Mass") (s_ "Position") (s_ "Velocity")) as (h & Eh & Hk); [reflexivity| |].
  { intros n Hn. destruct Hs as (_ & _ & S1 & S2 & S3). cbn [In] in Hn. destruct Hn as [<- | [<- | [<- | []]]]; [rewrite S1|rewrite S2|rewrite S3]; discriminate. }
  exists h, src, rows. split.
  { unfold to_halos. assert (existsb (fun k => match dget attrs k with Some _ => true | None => false end) reserved = false) as Er.
    { destruct (existsb _ reserved) eqn:Ex; [|reflexivity]. apply existsb_exists in Ex. destruct Ex as (k & Hk' & Dk). rewrite At in Dk. destruct (Hr k Hk') as [R1 R2]. rewrite R1, R2 in Dk.
      destruct (str_eq_dec k (s_ "particle_mass")) as [-> | ]; [|discriminate]. exfalso. unfold reserved in Hk'. cbn [In] in Hk'. destruct Hk' as [H|[H|[H|[]]]]; discriminate H. }
    fold attrs. destruct pd; try contradiction; rewrite E; cbn [rbind]; fold data'; rewrite Er; exact Eh. }
  split; [exact Hk|]. split; [exact Hs|]. split; [unfold rows, data'; now rewrite !map_length|]. split.
  { unfold rows. rewrite <- concat_map. change (concat data') with (global data'). change (concat data') with (global data') in Vs. clear -F Vs. induction F as [|g r l rs D F IH]; [constructor|]. cbn [map]. constructor.
    - destruct (Vs r (or_introl eq_refl)) as (x & y & z' & vx & vy & vz & Ep & Ew). destruct D as (D1 & D2 & D3).
      unfold halo_of_group, position, velocity, halo_of. rewrite Ep in D2 |- *. rewrite Ew in D3 |- *. cbn [ve o_x o_y o_z o_vx o_vy o_vz o_m]. rewrite D1. split; [reflexivity|]. split; assumption.
    - apply IH. intros r' H. apply Vs. now right. }
  unfold src. cbn [s_attrs]. split; [apply dupdate_nodup; constructor|]. intros k. rewrite dupdate_nil by exact Na. apply At.
Qed.

(* the masses of the halos are those of all particles in groups *)
Lemma halo_mass : forall pd labels dens pos vel box pm m os, proper labels -> greatest (global labels) m -> Forall2 (halo_of_group pd labels dens pos vel box pm) (groups (global labels) m) os ->
  qsum (nums (map o_m os)) = (pm * zq (zlen (filter (fun g => (0 <? g)%Z) (global labels))))%Qc.
Proof.
  intros pd labels dens pos vel box pm m os Hp Hm F. rewrite <- (group_counts (global labels) m (m_nonneg labels m Hp Hm)) by apply Hm. rewrite <- qsum_scaled, map_map.
  f_equal. clear Hp Hm. induction F as [|g o l os D F IH]; [reflexivity|]. cbn [map nums]. unfold nums in *. cbn [map]. rewrite IH. f_equal. destruct D as [-> _]. reflexivity.
Qed.
End ToHalos.

Lemma run_lengths : forall ops rows, map (@length halo) (fold_left after_set ops rows) = map (@length halo) rows.
Proof. induction ops as [|o ops IH]; intros rows; [reflexivity|]. cbn [fold_left]. rewrite IH. destruct o; cbn [after_set]; try apply merge_lengths; reflexivity. Qed.
Lemma same_lengths_nil {A} : forall (a b : list (list A)), map (@length A) a = map (@length A) b -> concat a = [] -> concat b = [].
Proof.
  induction a as [|x a IH]; intros [|y b] E H; try discriminate; [reflexivity|]. cbn [map] in E. cbn [concat] in *. apply app_eq_nil in H. destruct H as [-> H].
  assert (length y = 0%nat) as Ly by (change (length (@nil A)) with 0%nat in E; congruence). apply length_zero_iff_nil in Ly. subst y. cbn [app]. apply IH; [congruence|exact H].
Qed.
