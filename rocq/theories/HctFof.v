From Coq Require Import Ascii String QArith Qcanon.
From Verif Require Import Base BaseProofs Num NamesModel NamesProofs RanksSpec RanksModel RanksProofs DistModel DaModel DaSpec FofModel FofSpec FofCmModel FofCmSpec FofCm FofMean DaCounts HctModel HctSpec HctProofs HctMain.
Local Notation length := List.length.
Local Notation concat := List.concat.
Local Open Scope Z_scope.


Lemma zip3_nth : forall a b c i x y z, nth_error a i = Some x -> nth_error b i = Some y -> nth_error c i = Some z -> nth_error (zip3 a b c) i = Some (Ve x y z).
Proof.
  induction a as [|a0 a IH]; intros [|b0 b] [|c0 c] [|i] x y z; cbn [nth_error zip3]; intros; try discriminate; [congruence|]. apply IH; assumption.
Qed.
Lemma zip3_length : forall a b c n, length a = n -> length b = n -> length c = n -> length (zip3 a b c) = n.
Proof. induction a as [|a0 a IH]; intros [|b0 b] [|c0 c] n; cbn [length zip3]; intros; try lia. subst n. f_equal. apply IH; lia. Qed.

Lemma nth_comb {A B} : forall (a : list A) (b : list B) i, nth_error (combine a b) i = match nth_error a i, nth_error b i with Some x, Some y => Some (x, y) | _, _ => None end.
Proof. induction a as [|x a IH]; intros [|y b] [|i]; cbn; try reflexivity; [destruct (nth_error a i); reflexivity|apply IH]. Qed.
Section Fof.
Variable argsort : list Z -> list nat.
Hypothesis Ha : argsort_contract argsort.

Section Labels.
Variables (labels : list (list Z)) (m : Z).
Hypothesis Hp : proper labels.
Hypothesis Hm : greatest (global labels) m.

Lemma m_nonneg : 0 <= m.
Proof. destruct Hp as (_ & _ & H). destruct Hm as [Hi _]. apply H, Hi. Qed.
Lemma axis_ok : forall L v, map (@length Z) labels = map (@length Qc) v -> in_axis L (global v) ->
  exists out, centerofmass argsort labels v L = Ok out /\ length out = Z.to_nat (m + 1) /\
    forall h, In h (global labels) -> exists x, nth_error out (Z.to_nat h) = Some x /\ center L (of_label h (global labels) (global v)) x.
Proof.
  intros [L|] v Hv Hb.
  - destruct Hb as [Hb Hb']. destruct (cm_periodic argsort labels v m L Ha Hp Hv Hm Hb Hb') as (out & E & El & Hc). exists out. split; [exact E|]. split; [exact El|].
    intros h Hh. destruct Hm as [_ Hle]. specialize (Hle h Hh). assert (0 <= h) by (apply Hp; exact Hh).
    destruct (nth_error out (Z.to_nat h)) as [x|] eqn:Ex; [|apply nth_error_None in Ex; lia]. exists x. split; [reflexivity|].
    intros y Hy. destruct (Hc h y Hh Hy) as (c & E1 & E2 & E3). exists c. split; [congruence|]. split; assumption.
  - destruct (cm_open argsort labels v m Ha Hp Hv Hm) as (out & E & El & Hc). exists out. split; [exact E|]. split; [exact El|].
    intros h Hh. exists (Some (mean (of_label h (global labels) (global v)))). split; [apply Hc, Hh|reflexivity].
Qed.
Lemma centers_ok : forall v L, shaped labels v -> boxed L v -> exists cs, centers argsort labels v L = Ok cs /\ length cs = Z.to_nat (m + 1) /\
  forall h, In h (global labels) -> exists c, nth_error cs (Z.to_nat h) = Some c /\ center3 L (map (fun axis => of_label h (global labels) (global axis)) v) c.
Proof.
  intros v L [L3 F] [L3' F']. destruct v as [|vx [|vy [|vz [|? ?]]]]; try discriminate. destruct L as [|lx [|ly [|lz [|? ?]]]]; try discriminate.
  pose proof (Forall_inv F) as Fx. pose proof (Forall_inv (Forall_inv_tail F)) as Fy. pose proof (Forall_inv (Forall_inv_tail (Forall_inv_tail F))) as Fz.
  cbn [combine] in F'. pose proof (Forall_inv F') as Gx. pose proof (Forall_inv (Forall_inv_tail F')) as Gy. pose proof (Forall_inv (Forall_inv_tail (Forall_inv_tail F'))) as Gz.
  cbn [fst snd] in *. cbn [centers].
  destruct (axis_ok lx vx Fx Gx) as (x & Ex & Lx & Hx). destruct (axis_ok ly vy Fy Gy) as (y & Ey & Ly & Hy). destruct (axis_ok lz vz Fz Gz) as (z & Ez & Lz & Hz).
  rewrite Ex, Ey, Ez. cbn [rbind]. eexists. split; [reflexivity|]. split; [apply zip3_length; assumption|].
  intros h Hh. destruct (Hx h Hh) as (cx & Ecx & Ccx). destruct (Hy h Hh) as (cy & Ecy & Ccy). destruct (Hz h Hh) as (cz & Ecz & Ccz).
  exists (Ve cx cy cz). split; [apply zip3_nth; assumption|]. cbn [map]. do 9 eexists. split; [reflexivity|]. split; [reflexivity|]. split; [reflexivity|]. auto.
Qed.
End Labels.

(* ---- peaks ---- *)
Lemma sel_eq {A B V} : forall (P : A -> bool) (Q : B -> bool) (a : list A) (b : list B) (v : list V), length a = length v -> length b = length v ->
  (forall i x y, nth_error a i = Some x -> nth_error b i = Some y -> P x = Q y) ->
  map snd (filter (fun p => P (fst p)) (combine a v)) = map snd (filter (fun p => Q (fst p)) (combine b v)).
Proof.
  intros P Q a. induction a as [|x a IH]; intros [|y b] [|w v] L1 L2 H; try discriminate; [reflexivity|]. cbn [combine filter fst].
  rewrite (H O x y eq_refl eq_refl). assert (map snd (filter (fun p => P (fst p)) (combine a v)) = map snd (filter (fun p => Q (fst p)) (combine b v))) as E.
  { apply IH; cbn in L1, L2; try lia. intros i x' y' E1 E2. apply (H (Datatypes.S i)); assumption. }
  destruct (Q y); cbn [map snd]; now rewrite E.
Qed.
Lemma global_len {A B} : forall (a : list (list A)) (b : list (list B)), map (@length A) a = map (@length B) b -> length (global a) = length (global b).
Proof.
  unfold global. induction a as [|x a IH]; intros [|y b] H; try discriminate; [reflexivity|]. cbn [map] in H. cbn [concat]. rewrite !app_length. rewrite (IH b) by congruence. f_equal. congruence.
Qed.
Lemma peak_dec : forall h labels dens i, length labels = length dens -> nth_error labels i = Some h -> {is_peak h labels dens i} + {~ is_peak h labels dens i}.
Proof.
  intros h labels dens i L H. destruct (nth_error dens i) as [v|] eqn:Ev.
  2:{ exfalso. apply nth_error_None in Ev. assert (i < length labels)%nat by (apply nth_error_Some; congruence). lia. }
  destruct (forallb (fun w => if Qclt_le_dec v w then false else true) (of_label h labels dens)) eqn:E.
  - left. split; [exact H|]. exists v. split; [exact Ev|]. intros w Hw. rewrite forallb_forall in E. specialize (E w Hw). destruct (Qclt_le_dec v w); [discriminate|assumption].
  - right. intros [_ (v' & Ev' & Hw)]. assert (v' = v) by congruence. subst. assert (forallb (fun w => if Qclt_le_dec v w then false else true) (of_label h labels dens) = true); [|congruence].
    apply forallb_forall. intros w Hi. destruct (Qclt_le_dec v w) as [l|]; [|reflexivity]. exfalso. apply (Qclt_not_le _ _ l), Hw, Hi.
Qed.
Lemma peak_exists : forall h labels dens, length labels = length dens -> In h labels -> exists i, is_peak h labels dens i.
Proof.
  intros h labels dens L H. assert (of_label h labels dens <> []) as N.
  { intros E. apply (f_equal (@zlen Qc)) in E. rewrite of_label_len in E by (symmetry; exact L). unfold count in E.
    assert (In h (filter (fun x => x =? h) labels)) as F by (apply filter_In; split; [exact H|lia]). destruct (filter _ labels); [destruct F|]. unfold zlen in E. cbn [length] in E. lia. }
  destruct (mfold_max _ N) as (v & _ & Hv & Hmax). unfold of_label in Hv. apply in_map_iff in Hv. destruct Hv as ([l w] & Ew & Hin). cbn [snd] in Ew. subst w.
  apply filter_In in Hin. destruct Hin as [Hin El]. cbn [fst] in El. apply Z.eqb_eq in El. subst l.
  apply In_nth_error in Hin. destruct Hin as [i Ei]. exists i. rewrite nth_comb in Ei.
  destruct (nth_error labels i) as [l|] eqn:E1; [|discriminate]. destruct (nth_error dens i) as [w|] eqn:E2; [|discriminate].
  split; [congruence|]. exists w. split; [exact E2|]. assert (w = v) by congruence. subst. exact Hmax.
Qed.

Section Peak.
Variables (labels : list (list Z)) (dens : list (list Qc)) (m : Z).
Hypothesis Hp : proper labels.
Hypothesis Hm : greatest (global labels) m.
Hypothesis Hd : map (@length Z) labels = map (@length Qc) dens.
Lemma peaks_ok : exists label1, peak_labels argsort labels dens = Ok label1 /\ map (@length Z) label1 = map (@length Z) labels /\ proper label1 /\ greatest (global label1) m /\
  (forall h, 0 < h -> In h (global labels) -> In h (global label1)) /\
  (forall h axis, 0 < h -> map (@length Z) labels = map (@length Qc) axis -> of_label h (global label1) (global axis) = at_peak h (global labels) (global dens) (global axis)).
Proof.
  destruct (peak_labels_ok argsort labels dens Ha Hp Hd) as (label1 & E & El & Hn). exists label1. split; [exact E|]. split; [exact El|].
  pose proof (global_len labels dens Hd) as Ld. pose proof (global_len label1 labels El) as L1.
  assert (forall i x, nth_error (global label1) i = Some x -> exists h, nth_error (global labels) i = Some h /\ (x = h /\ is_peak h (global labels) (global dens) i \/ x = 0 /\ ~ is_peak h (global labels) (global dens) i)) as Inv.
  { intros i x Hx. destruct (nth_error (global labels) i) as [h|] eqn:Eh.
    2:{ exfalso. apply nth_error_None in Eh. assert (i < length (global label1))%nat by (apply nth_error_Some; congruence). lia. }
    exists h. split; [reflexivity|]. destruct (Hn i h Eh) as [A B]. destruct (peak_dec h (global labels) (global dens) i Ld Eh) as [P|P]; [left; specialize (A P)|right; specialize (B P)]; split; congruence. }
  assert (forall h, In h (global labels) -> In h (global label1)) as Keep.
  { intros h Hh. destruct (peak_exists h (global labels) (global dens) Ld Hh) as [i Pi]. destruct (Hn i h (proj1 Pi)) as [A _]. eapply nth_error_In. apply A, Pi. }
  assert (forall x, In x (global label1) -> 0 <= x /\ x <= m) as Bd.
  { intros x Hx. apply In_nth_error in Hx. destruct Hx as [i Ei]. destruct (Inv i x Ei) as (h & Eh & D). apply nth_error_In in Eh. assert (0 <= h) by (apply Hp; exact Eh). assert (h <= m) by (apply Hm; exact Eh).
    destruct D as [[-> _]|[-> _]]; lia. }
  split.
  { destruct Hp as (P1 & P2 & _). split; [|split].
    - intros ->. destruct labels; [contradiction|discriminate].
    - rewrite Forall_forall in *. intros l Hl ->. apply In_nth_error in Hl. destruct Hl as [i Ei]. apply (f_equal (fun x => nth_error x i)) in El. rewrite !nth_error_map' in El. rewrite Ei in El. cbn [option_map] in El.
      destruct (nth_error labels i) as [l'|] eqn:E'; [|discriminate]. cbn in El. apply (P2 l'); [eapply nth_error_In; exact E'|]. destruct l'; [reflexivity|discriminate].
    - intros x Hx. apply Bd, Hx. }
  split; [split; [apply Keep, Hm|intros x Hx; apply Bd, Hx]|]. split; [intros h _; apply Keep|].
  intros h axis Hh Hax. pose proof (global_len labels axis Hax) as La. unfold of_label at 1, at_peak.
  pose (Q := fun p : Z * Qc => (fst p =? h) && forallb (fun w => if Qclt_le_dec (snd p) w then false else true) (of_label h (global labels) (global dens))).
  apply (sel_eq (fun x => x =? h) Q (global label1) (combine (global labels) (global dens)) (global axis)); [congruence|rewrite combine_length; lia|].
  intros i x [l d] Ex Ey. rewrite nth_comb in Ey. destruct (nth_error (global labels) i) as [l'|] eqn:E1; [|discriminate]. destruct (nth_error (global dens) i) as [d'|] eqn:E2; [|discriminate].
  assert (l' = l) by congruence. assert (d' = d) by congruence. subst. unfold Q. cbn [fst snd].
  destruct (Inv i x Ex) as (h' & Eh' & D). assert (h' = l) by congruence. subst h'. destruct D as [[-> P]|[-> P]].
  - destruct (Z.eqb_spec l h) as [->|]; [|reflexivity]. cbn [andb]. symmetry. apply forallb_forall. intros w Hw. destruct P as [_ (v & Ev & Hv)]. assert (v = d) by congruence. subst.
    destruct (Qclt_le_dec d w) as [c|]; [|reflexivity]. exfalso. apply (Qclt_not_le _ _ c), Hv, Hw.
  - destruct (Z.eqb_spec 0 h); [lia|]. symmetry. apply andb_false_iff. destruct (Z.eqb_spec l h) as [->|]; [right|left; reflexivity].
    apply not_true_iff_false. intros T. apply P. split; [exact Eh'|]. exists d. split; [exact E2|]. intros w Hw. rewrite forallb_forall in T. specialize (T w Hw). destruct (Qclt_le_dec d w); [discriminate|assumption].
Qed.
End Peak.

(* ---- rows ---- *)
Lemma frows_nth : forall pos vel len peak i p v n, nth_error pos i = Some p -> nth_error vel i = Some v -> nth_error len i = Some n ->
  match peak with
  | None => nth_error (frows pos vel len None) i = Some {| f_pos := p; f_vel := v; f_len := n; f_peak := None |}
  | Some (qs, ws) => forall q w, (length pos <= length qs)%nat -> (length pos <= length ws)%nat -> nth_error qs i = Some q -> nth_error ws i = Some w ->
      nth_error (frows pos vel len (Some (qs, ws))) i = Some {| f_pos := p; f_vel := v; f_len := n; f_peak := Some (q, w) |}
  end.
Proof.
  induction pos as [|p0 pos IH]; intros [|v0 vel] [|n0 len] peak [|i] p v n H1 H2 H3; try discriminate.
  - destruct peak as [[qs ws]|].
    + intros q w L1 L2 H4 H5. destruct qs, ws; try discriminate. cbn in *. congruence.
    + cbn in *. congruence.
  - destruct peak as [[qs ws]|].
    + intros q w L1 L2 H4 H5. destruct qs as [|q0 qs], ws as [|w0 ws]; try discriminate. cbn [frows nth_error]. cbn [length] in L1, L2.
      apply (IH vel len (Some (qs, ws)) i p v n H1 H2 H3 q w); [lia|lia|exact H4|exact H5].
    + cbn [frows nth_error]. apply (IH vel len None i p v n H1 H2 H3).
Qed.
Lemma frows_length : forall pos vel len peak k, length pos = k -> length vel = k -> length len = k ->
  match peak with None => True | Some (qs, ws) => length qs = k /\ length ws = k end -> length (frows pos vel len peak) = k.
Proof.
  induction pos as [|p0 pos IH]; intros vel len peak k L1 L2 L3 L4; destruct vel, len; cbn [length] in *; try lia; [exact L1|].
  destruct peak as [[qs ws]|].
  - destruct L4 as [L4 L5]. destruct qs, ws; cbn [length] in *; try lia. cbn [frows length]. rewrite (IH vel len (Some (qs, ws)) (k - 1)%nat); lia.
  - cbn [frows length]. rewrite (IH vel len None (k - 1)%nat); try lia; exact I.
Qed.
Lemma global_filter {A} : forall (f : A -> bool) (l : list (list A)), global (map (filter f) l) = filter f (global l).
Proof. intros f l. unfold global. induction l as [|x l IH]; [reflexivity|]. cbn [map concat]. rewrite IH. symmetry. apply filter_app. Qed.
Lemma filter_mapped {A B} : forall (P : B -> bool) (r : A -> B) l, filter P (map r l) = map r (filter (fun x => P (r x)) l).
Proof. intros P r. induction l as [|x l IH]; [reflexivity|]. cbn [map filter]. rewrite IH. destruct (P (r x)); reflexivity. Qed.
(* the rows with members are those of the groups *)
Lemma kept_rows : forall (rows : list frow) labels m, 0 <= m -> length rows = Z.to_nat (m + 1) ->
  (exists r, nth_error rows 0 = Some r /\ f_len r = 0) ->
  (forall h, 1 <= h <= m -> exists r, nth_error rows (Z.to_nat h) = Some r /\ f_len r = count h labels) ->
  Forall2 (fun g r => nth_error rows (Z.to_nat g) = Some r) (groups labels m) (filter (fun r => 0 <? f_len r) rows).
Proof.
  intros rows labels m Hm L (r0 & E0 & Z0) H. set (at_ := fun i => nth i rows r0).
  assert (rows = map at_ (seq 0 (Datatypes.S (Z.to_nat m)))) as Er.
  { apply nth_error_ext. intros i. rewrite nth_error_map', nth_error_seq. destruct (Nat.ltb_spec i (Datatypes.S (Z.to_nat m))) as [Li|Li].
    - cbn [option_map]. unfold at_. rewrite Nat.add_0_l. apply nth_error_nth'. lia.
    - apply nth_error_None. lia. }
  assert (filter (fun r => 0 <? f_len r) rows = map (fun g => at_ (Z.to_nat g)) (groups labels m)) as Ef.
  { rewrite Er at 1. cbn [seq map filter]. assert (at_ 0%nat = r0) as -> by (unfold at_; apply nth_error_nth; exact E0). rewrite Z0. change (0 <? 0) with false. cbv iota.
    rewrite filter_mapped. unfold groups. rewrite filter_mapped, map_map.
    assert (filter (fun x => 0 <? f_len (at_ x)) (seq 1 (Z.to_nat m)) = filter (fun x => 0 <? count (Z.of_nat x) labels) (seq 1 (Z.to_nat m))) as ->.
    { apply filter_ext_in. intros x Hx. apply in_seq in Hx. destruct (H (Z.of_nat x)) as (r & Er' & El); [lia|]. rewrite Nat2Z.id in Er'. unfold at_. rewrite (nth_error_nth rows x r0 Er'). now rewrite El. }
    apply map_ext. intros x. now rewrite Nat2Z.id. }
  rewrite Ef. assert (forall g, In g (groups labels m) -> 1 <= g <= m) as Hg.
  { intros g Hg. unfold groups in Hg. apply filter_In in Hg. destruct Hg as [Hg _]. apply in_map_iff in Hg. destruct Hg as (x & <- & Hx). apply in_seq in Hx. lia. }
  clear Ef. revert Hg. generalize (groups labels m). induction l as [|g l IH]; intros Hg; [constructor|]. cbn [map]. constructor; [|apply IH; intros x Hx; apply Hg; now right].
  destruct (H g (Hg g (or_introl eq_refl))) as (r & Er' & _). unfold at_. rewrite (nth_error_nth rows _ r0 Er'). exact Er'.
Qed.
Lemma groups_in : forall labels m g, In g (groups labels m) -> 1 <= g <= m /\ In g labels /\ 0 < count g labels.
Proof.
  intros labels m g Hg. unfold groups in Hg. apply filter_In in Hg. destruct Hg as [Hg Hc]. apply in_map_iff in Hg. destruct Hg as (x & <- & Hx). apply in_seq in Hx.
  split; [lia|]. apply Z.ltb_lt in Hc. split; [|exact Hc]. unfold count in Hc. destruct (filter (fun x0 => x0 =? Z.of_nat x) labels) as [|y l] eqn:E; [cbn in Hc; lia|].
  assert (In y (filter (fun x0 => x0 =? Z.of_nat x) labels)) as Hy by (rewrite E; now left). apply filter_In in Hy. destruct Hy as [Hy Ey]. apply Z.eqb_eq in Ey. now subst.
Qed.

(* a row of the catalog of groups *)
Definition describes_group (pd : posdef) (p : particles) (dens : list (list Qc)) (vel : list (list (list Qc))) (box : list (option Qc)) (g : Z) (r : frow) : Prop :=
  f_len r = count g (global (p_labels p)) /\
  center3 box (members pd (p_labels p) dens g (p_pos p)) (match f_peak r with Some qw => fst qw | None => f_pos r end) /\
  center3 open_box (members pd (p_labels p) dens g vel) (match f_peak r with Some qw => snd qw | None => f_vel r end).
Lemma catalog_ok : forall p pd peakcolumn periodic m box vel dens, pd <> POther -> proper (p_labels p) -> greatest (global (p_labels p)) m ->
  p_vel p = Some vel -> shaped (p_labels p) (p_pos p) -> shaped (p_labels p) vel ->
  used_box periodic (p_attrs p) = Some box -> boxed box (p_pos p) ->
  (pd = PPeak -> dget (p_cols p) peakcolumn = Some dens /\ map (@length Z) (p_labels p) = map (@length Qc) dens) ->
  exists data, fof_catalog argsort p (match pd with PCm => None | _ => Some peakcolumn end) periodic = Ok data /\ length data = length (p_labels p) /\
    Forall2 (describes_group pd p dens vel box) (groups (global (p_labels p)) m) (global (map (filter (fun r => 0 <? f_len r)) data)).
Proof.
  intros p pd peakcolumn periodic m box vel dens Hpd Hp Hm Hv Sp Sv Hb Bp Hd.
  pose proof (m_nonneg (p_labels p) m Hp Hm) as M0.
  assert (boxed open_box vel) as Bv.
  { split; [reflexivity|]. destruct Sv as [L3 _]. destruct vel as [|? [|? [|? [|? ?]]]]; try discriminate. cbn [open_box combine]. repeat constructor. }
  destruct (length_ok (p_labels p) m Hp Hm) as (n & En & Ln & N0 & Nh).
  destruct (centers_ok (p_labels p) m Hp Hm (p_pos p) box Sp Bp) as (hpos & Epos & Lpos & Cpos).
  destruct (centers_ok (p_labels p) m Hp Hm vel open_box Sv Bv) as (hvel & Evel & Lvel & Cvel).
  assert (1 <= length (p_labels p))%nat as Lr by (destruct Hp as (Hne & _); destruct (p_labels p); [contradiction|cbn; lia]).
  assert (forall i, (i < Z.to_nat (m + 1))%nat -> forall A (l : list A), length l = Z.to_nat (m + 1) -> exists x, nth_error l i = Some x) as Some_at.
  { intros i Hi A l Ll. destruct (nth_error l i) as [x|] eqn:E; [eauto|]. apply nth_error_None in E. lia. }
  unfold fof_catalog. rewrite Hv, En. cbn [rbind].
  assert ((if periodic then match dget (p_attrs p) (s_ "BoxSize") with None => Err ValueError | Some (HBox l) => Ok (map Some l) | Some _ => Err OutOfContract end else Ok open_box) = Ok box) as Eb.
  { unfold used_box in Hb. destruct periodic; [|unfold open_box; congruence]. destruct (dget (p_attrs p) (s_ "BoxSize")) as [[]|]; try discriminate. congruence. }
  rewrite Eb. cbn [rbind]. rewrite Epos. cbn [rbind]. rewrite Evel. cbn [rbind].
  destruct pd; [| |contradiction].
  - cbn [rbind]. set (rows := frows hpos hvel n None).
    assert (forall i q v l, nth_error hpos i = Some q -> nth_error hvel i = Some v -> nth_error n i = Some l -> nth_error rows i = Some {| f_pos := q; f_vel := v; f_len := l; f_peak := None |}) as Rn
      by (intros i q v l A B C; apply (frows_nth hpos hvel n None i q v l A B C)).
    destruct (scatter_even_balanced (length (p_labels p)) rows Lr) as (data & Es & Eg & El & _). exists data. split; [exact Es|]. split; [exact El|].
    rewrite global_filter. change (global data = rows) in Eg. rewrite Eg.
    assert (length rows = Z.to_nat (m + 1)) as Lrows by (apply frows_length; try assumption; exact I).
    pose proof (kept_rows rows (global (p_labels p)) m M0 Lrows) as Kr.
    assert (exists r, nth_error rows 0 = Some r /\ f_len r = 0) as R0.
    { destruct (Some_at O ltac:(lia) _ hpos Lpos) as [q Eq]. destruct (Some_at O ltac:(lia) _ hvel Lvel) as [v Ev]. eexists. split; [apply (Rn O q v 0 Eq Ev N0)|reflexivity]. }
    assert (forall h, 1 <= h <= m -> exists r, nth_error rows (Z.to_nat h) = Some r /\ f_len r = count h (global (p_labels p))) as Rh.
    { intros h Hh. destruct (Some_at (Z.to_nat h) ltac:(lia) _ hpos Lpos) as [q Eq]. destruct (Some_at (Z.to_nat h) ltac:(lia) _ hvel Lvel) as [v Ev]. eexists. split; [apply (Rn _ q v _ Eq Ev (Nh h Hh))|reflexivity]. }
    specialize (Kr R0 Rh). revert Kr. generalize (filter (fun r => 0 <? f_len r) rows).
    assert (forall g, In g (groups (global (p_labels p)) m) -> 1 <= g <= m /\ In g (global (p_labels p))) as Hg by (intros g Hg; apply groups_in in Hg; tauto).
    revert Hg. generalize (groups (global (p_labels p)) m). induction l as [|g l IH]; intros Hg rs Kr; inversion Kr as [|? r ? rs' K1 K2]; subst; constructor; [|apply IH; [intros x Hx; apply Hg; now right|exact K2]].
    destruct (Hg g (or_introl eq_refl)) as [G1 G2]. destruct (Cpos g G2) as (q & Eq & Cq). destruct (Cvel g G2) as (v & Ev & Cv).
    rewrite (Rn _ q v _ Eq Ev (Nh g G1)) in K1. assert (r = {| f_pos := q; f_vel := v; f_len := count g (global (p_labels p)); f_peak := None |}) as -> by congruence.
    split; [reflexivity|]. cbn [f_peak f_pos f_vel]. split; assumption.
  - destruct (Hd eq_refl) as [Ed Sd]. rewrite Ed.
    destruct (peaks_ok (p_labels p) dens m Hp Hm Sd) as (label1 & E1 & L1 & P1 & G1 & K1 & O1). rewrite E1. cbn [rbind].
    assert (shaped label1 (p_pos p)) as Sp1 by (destruct Sp as [A B]; split; [exact A|]; rewrite L1; exact B).
    assert (shaped label1 vel) as Sv1 by (destruct Sv as [A B]; split; [exact A|]; rewrite L1; exact B).
    destruct (centers_ok label1 m P1 G1 (p_pos p) box Sp1 Bp) as (ppos & Eppos & Lppos & Cppos).
    destruct (centers_ok label1 m P1 G1 vel open_box Sv1 Bv) as (pvel & Epvel & Lpvel & Cpvel).
    rewrite Eppos. cbn [rbind]. rewrite Epvel. cbn [rbind]. set (rows := frows hpos hvel n (Some (ppos, pvel))).
    assert (forall i q v l q' v', nth_error hpos i = Some q -> nth_error hvel i = Some v -> nth_error n i = Some l -> nth_error ppos i = Some q' -> nth_error pvel i = Some v' ->
      nth_error rows i = Some {| f_pos := q; f_vel := v; f_len := l; f_peak := Some (q', v') |}) as Rn
      by (intros i q v l q' v' A B C D F; apply (frows_nth hpos hvel n (Some (ppos, pvel)) i q v l A B C q' v'); [lia|lia|assumption|assumption]).
    destruct (scatter_even_balanced (length (p_labels p)) rows Lr) as (data & Es & Eg & El & _). exists data. split; [exact Es|]. split; [exact El|].
    rewrite global_filter. change (global data = rows) in Eg. rewrite Eg.
    assert (length rows = Z.to_nat (m + 1)) as Lrows by (apply frows_length; try assumption; split; assumption).
    pose proof (kept_rows rows (global (p_labels p)) m M0 Lrows) as Kr.
    assert (exists r, nth_error rows 0 = Some r /\ f_len r = 0) as R0.
    { destruct (Some_at O ltac:(lia) _ hpos Lpos) as [q Eq]. destruct (Some_at O ltac:(lia) _ hvel Lvel) as [v Ev].
      destruct (Some_at O ltac:(lia) _ ppos Lppos) as [q' Eq']. destruct (Some_at O ltac:(lia) _ pvel Lpvel) as [v' Ev']. eexists. split; [apply (Rn O q v 0 q' v' Eq Ev N0 Eq' Ev')|reflexivity]. }
    assert (forall h, 1 <= h <= m -> exists r, nth_error rows (Z.to_nat h) = Some r /\ f_len r = count h (global (p_labels p))) as Rh.
    { intros h Hh. destruct (Some_at (Z.to_nat h) ltac:(lia) _ hpos Lpos) as [q Eq]. destruct (Some_at (Z.to_nat h) ltac:(lia) _ hvel Lvel) as [v Ev].
      destruct (Some_at (Z.to_nat h) ltac:(lia) _ ppos Lppos) as [q' Eq']. destruct (Some_at (Z.to_nat h) ltac:(lia) _ pvel Lpvel) as [v' Ev']. eexists. split; [apply (Rn _ q v _ q' v' Eq Ev (Nh h Hh) Eq' Ev')|reflexivity]. }
    specialize (Kr R0 Rh). revert Kr. generalize (filter (fun r => 0 <? f_len r) rows).
    assert (forall g, In g (groups (global (p_labels p)) m) -> 1 <= g <= m /\ In g (global (p_labels p))) as Hg by (intros g Hg; apply groups_in in Hg; tauto).
    revert Hg. generalize (groups (global (p_labels p)) m). induction l as [|g l IH]; intros Hg rs Kr; inversion Kr as [|? r ? rs' K1' K2]; subst; constructor; [|apply IH; [intros x Hx; apply Hg; now right|exact K2]].
    destruct (Hg g (or_introl eq_refl)) as [H1 H2]. destruct (Cpos g H2) as (q & Eq & _). destruct (Cvel g H2) as (v & Ev & _).
    assert (In g (global label1)) as H3 by (apply K1; [lia|exact H2]). destruct (Cppos g H3) as (q' & Eq' & Cq'). destruct (Cpvel g H3) as (v' & Ev' & Cv').
    rewrite (Rn _ q v _ q' v' Eq Ev (Nh g H1) Eq' Ev') in K1'. assert (r = {| f_pos := q; f_vel := v; f_len := count g (global (p_labels p)); f_peak := Some (q', v') |}) as -> by congruence.
    split; [reflexivity|]. cbn [f_peak fst snd]. unfold members.
    assert (forall w, shaped (p_labels p) w -> map (fun axis => of_label g (global label1) (global axis)) w = map (fun axis => at_peak g (global (p_labels p)) (global dens) (global axis)) w) as Em.
    { intros w [_ Fw]. apply map_ext_in. intros axis Hx. rewrite Forall_forall in Fw. apply O1; [lia|apply Fw, Hx]. }
    rewrite <- (Em (p_pos p) Sp), <- (Em vel Sv). split; assumption.
Qed.
End Fof.
