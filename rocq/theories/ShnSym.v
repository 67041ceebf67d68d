(* Symmetries of the power of painted catalogs. *)
From Verif Require Import Base BaseProofs Num.
From Coq Require Import Reals Lra Qreals.
From Coq Require Import Permutation.
From Verif Require Import RandModel RandProofs ThreeModel ThreeProofs SkyModel ConvModel MockModel MockSpec MockProofs MockMean DftModel DftSpec DftProofs DftMain LegProps ShnModel ShnSpec ShnProofs ShnMain.
From Verif Require PaintModel PaintSpec PaintProofs.
Local Open Scope R_scope.
Local Notation length := List.length.

Lemma qsum_perm {A} (f : A -> Qc) l k : Permutation l k -> qsum (map f l) = qsum (map f k).
Proof. induction 1; cbn [map]; rewrite ?qsum_cons; [reflexivity|congruence|ring|congruence]. Qed.

Section Sym.
Variables (P : Type) (N : mode) (volume : Qc) (compose : PaintModel.field -> PaintModel.field -> PaintModel.field).
Hypothesis compose_ext : forall f g f' g', (forall c, f c = f' c) -> (forall c, g c = g' c) -> forall c, compose f g c = compose f' g' c.

(* what painting gives, as a function of the selected objects *)
Lemma paint_parts kern kern2 throttle chunk interlaced ranks r : Forall (@PaintSpec.aligned P) ranks -> (1 <= chunk)%Z ->
  PaintModel.to_real_field P kern kern2 (size N) volume compose throttle chunk interlaced true None ranks = Ok r ->
  let l := PaintSpec.all_selected ranks in
  PaintModel.aW r = qsum (map PaintModel.w l) /\
  PaintModel.shotnoise r = (if Qc_eq_dec (qsum (map PaintModel.w l) * qsum (map PaintModel.w l))%Qc 0%Qc then None
     else Some (volume * (qsum (map (fun p => PaintModel.w p * PaintModel.w p)%Qc l) / (qsum (map PaintModel.w l) * qsum (map PaintModel.w l))))%Qc) /\
  forall c, PaintModel.cells r c =
    if Qclt_le_dec 0 (qsum (map PaintModel.w l) / nq (size N))%Qc
    then ((if interlaced then compose (PaintSpec.deposit kern l) (PaintSpec.deposit kern2 l) c else PaintSpec.deposit kern l c) / (qsum (map PaintModel.w l) / nq (size N)))%Qc else 1%Qc.
Proof.
  intros HA HC E l. destruct (PaintProofs.to_real_field_ok P kern kern2 (size N) volume compose throttle chunk interlaced true None ranks HA HC) as [(r' & f1 & f2 & E' & F1 & F2 & _ & A & A2 & B & C & D)|[E' _]]; [|congruence].
  assert (r' = r) by congruence. subst r'. clear E'. fold l in A, A2, F1, F2. split; [exact A|]. rewrite <- A, <- A2. split; [exact C|].
  intros c. rewrite D, <- B. destruct (Qclt_le_dec 0 (PaintModel.nbar r)); [|reflexivity]. f_equal. unfold PaintSpec.painted, PaintModel.fadd, PaintModel.fzero. destruct interlaced.
  - rewrite Qcplus_0_l. apply compose_ext; [exact F1|exact (F2 eq_refl)].
  - rewrite Qcplus_0_l. apply F1.
Qed.

(* order and distribution over ranks, chunks *)
Lemma same_objects kern kern2 throttle throttle' chunk chunk' interlaced ranks ranks' r r' :
  Forall (@PaintSpec.aligned P) ranks -> Forall (@PaintSpec.aligned P) ranks' -> (1 <= chunk)%Z -> (1 <= chunk')%Z ->
  Permutation (PaintSpec.all_selected ranks) (PaintSpec.all_selected ranks') ->
  PaintModel.to_real_field P kern kern2 (size N) volume compose throttle chunk interlaced true None ranks = Ok r ->
  PaintModel.to_real_field P kern kern2 (size N) volume compose throttle' chunk' interlaced true None ranks' = Ok r' ->
  PaintModel.shotnoise r' = PaintModel.shotnoise r /\ forall x, read N r' x = read N r x.
Proof.
  intros HA HA' HC HC' HP E E'. destruct (paint_parts _ _ _ _ _ _ _ HA HC E) as (_ & B & C). destruct (paint_parts _ _ _ _ _ _ _ HA' HC' E') as (_ & B' & C').
  assert (Q1 := qsum_perm PaintModel.w _ _ HP). assert (Q2 := qsum_perm (fun p => PaintModel.w p * PaintModel.w p)%Qc _ _ HP).
  rewrite <- Q1, <- Q2 in B'. split; [rewrite B', B; reflexivity|]. intros x. unfold read. rewrite C, C', <- Q1.
  destruct (Qclt_le_dec _ _); [|reflexivity]. do 2 f_equal. destruct interlaced; [apply compose_ext; intros c|]; symmetry; apply (qsum_perm (fun p => PaintModel.w p * PaintModel.v p * _ (PaintModel.pos p) _)%Qc _ _ HP).
Qed.
End Sym.

(* a common factor of the weights *)
Definition heavier {P} (a : Qc) (p : PaintModel.particle P) : PaintModel.particle P := {| PaintModel.pos := PaintModel.pos p; PaintModel.w := (a * PaintModel.w p)%Qc; PaintModel.v := PaintModel.v p |}.
Lemma qsum_factor {A} (a : Qc) (f : A -> Qc) : forall l, qsum (map (fun x => a * f x)%Qc l) = (a * qsum (map f l))%Qc.
Proof. induction l as [|x l IH]; cbn [map]; rewrite ?qsum_cons, ?qsum_nil; [ring|rewrite IH; ring]. Qed.
Lemma qc_mul_pos a b : (0 < a)%Qc -> (0 < b)%Qc -> (0 < a * b)%Qc.
Proof. intros A B. apply (Qcmult_lt_compat_r 0 a b B) in A. rewrite Qcmult_0_l in A. exact A. Qed.
Lemma pos_nz q : (0 < q)%Qc -> q <> 0%Qc.
Proof. intros H E. rewrite E in H. discriminate H. Qed.
Lemma scaled_objects P N volume compose kern kern2 throttle throttle' chunk chunk' ranks ranks' r r' (a : Qc) :
  mesh_size N -> Forall (@PaintSpec.aligned P) ranks -> Forall (@PaintSpec.aligned P) ranks' -> (1 <= chunk)%Z -> (1 <= chunk')%Z -> (0 < a)%Qc ->
  PaintSpec.all_selected ranks' = map (heavier a) (PaintSpec.all_selected ranks) ->
  PaintModel.to_real_field P kern kern2 (size N) volume compose throttle chunk false true None ranks = Ok r ->
  PaintModel.to_real_field P kern kern2 (size N) volume compose throttle' chunk' false true None ranks' = Ok r' ->
  (0 < PaintModel.aW r)%Qc ->
  PaintModel.shotnoise r' = PaintModel.shotnoise r /\ forall x, read N r' x = read N r x.
Proof.
  intros HN HA HA' HC HC' Ha HP E E' W.
  assert (X : forall th ch rk q, Forall (@PaintSpec.aligned P) rk -> (1 <= ch)%Z -> PaintModel.to_real_field P kern kern2 (size N) volume compose th ch false true None rk = Ok q ->
     let l := PaintSpec.all_selected rk in PaintModel.aW q = qsum (map PaintModel.w l) /\ PaintModel.aW2 q = qsum (map (fun p => PaintModel.w p * PaintModel.w p)%Qc l) /\
     PaintModel.shotnoise q = (if Qc_eq_dec (PaintModel.aW q * PaintModel.aW q) 0 then None else Some (volume * (PaintModel.aW2 q / (PaintModel.aW q * PaintModel.aW q)))%Qc) /\
     forall c, PaintModel.cells q c = if Qclt_le_dec 0 (PaintModel.aW q / nq (size N)) then (PaintSpec.deposit kern l c / (PaintModel.aW q / nq (size N)))%Qc else 1%Qc).
  { clear. intros th ch rk q HA HC E l. destruct (PaintProofs.to_real_field_ok P kern kern2 (size N) volume compose th ch false true None rk HA HC) as [(r' & f1 & f2 & E' & F1 & F2 & _ & A & A2 & B & C & D)|[E' _]]; [|congruence].
    assert (r' = q) by congruence. subst r'. clear E'. fold l in A, A2, F1. split; [exact A|]. split; [exact A2|]. split; [exact C|]. intros c. rewrite D, <- B. destruct (Qclt_le_dec _ _); [|reflexivity]. f_equal. unfold PaintSpec.painted, PaintModel.fadd, PaintModel.fzero. rewrite Qcplus_0_l. apply F1. }
  destruct (X _ _ _ _ HA HC E) as (A1 & A2 & B & C). destruct (X _ _ _ _ HA' HC' E') as (A1' & A2' & B' & C'). clear X.
  rewrite HP, map_map in A1', A2'. cbn [heavier PaintModel.w] in A1', A2'. rewrite qsum_factor, <- A1 in A1'.
  assert (A2'' : PaintModel.aW2 r' = (a * a * PaintModel.aW2 r)%Qc). { rewrite A2', A2, <- qsum_factor. f_equal. apply map_ext. intros p. ring. }
  assert (W' : (0 < PaintModel.aW r')%Qc) by (rewrite A1'; apply qc_mul_pos; assumption).
  assert (W0 := pos_nz _ W). assert (W0' := pos_nz _ W'). assert (a0 := pos_nz _ Ha).
  assert (NZ : (0 < nq (size N))%Qc). { apply PaintProofs.nq_pos. clear - HN. destruct N as [[n0 n1] n2]. destruct HN as (? & ? & ?). unfold size. nia. }
  assert (NZ' := pos_nz _ NZ).
  split.
  - rewrite B, B'. destruct (Qc_eq_dec (PaintModel.aW r * PaintModel.aW r) 0) as [Q|Q]; [apply Qcmult_integral in Q; destruct Q; contradiction|]. destruct (Qc_eq_dec (PaintModel.aW r' * PaintModel.aW r') 0) as [Q'|Q']; [apply Qcmult_integral in Q'; destruct Q'; contradiction|].
    f_equal. f_equal. rewrite A2'', A1'. field. split; assumption.
  - intros x. unfold read. f_equal. rewrite C, C'. assert (N1 := proj1 (PaintProofs.div_pos _ _ NZ) W). assert (N2 := proj1 (PaintProofs.div_pos _ _ NZ) W').
    destruct (Qclt_le_dec 0 (PaintModel.aW r / nq (size N))) as [_|Q]; [|exfalso; exact (Qclt_not_le _ _ N1 Q)]. destruct (Qclt_le_dec 0 (PaintModel.aW r' / nq (size N))) as [_|Q]; [|exfalso; exact (Qclt_not_le _ _ N2 Q)].
    rewrite HP. unfold PaintSpec.deposit. rewrite map_map. cbn [heavier PaintModel.w PaintModel.v PaintModel.pos].
    rewrite (map_ext _ (fun p => a * (PaintModel.w p * PaintModel.v p * kern (PaintModel.pos p) (number N x)))%Qc) by (intros; ring). rewrite qsum_factor, A1'. field. repeat split; assumption.
Qed.

(* all objects moved by whole cells: for windows that move with them *)
Definition carried {P} (s : P -> P) (p : PaintModel.particle P) : PaintModel.particle P := {| PaintModel.pos := s (PaintModel.pos p); PaintModel.w := PaintModel.w p; PaintModel.v := PaintModel.v p |}.
Lemma moved_objects P N volume compose kern kern2 throttle throttle' chunk chunk' ranks ranks' r r' (s : P -> P) (d : mode) :
  mesh_size N -> Forall (@PaintSpec.aligned P) ranks -> Forall (@PaintSpec.aligned P) ranks' -> (1 <= chunk)%Z -> (1 <= chunk')%Z ->
  (forall p x, is_mode N x -> kern (s p) (number N (moved N x d)) = kern p (number N x)) ->
  PaintSpec.all_selected ranks' = map (carried s) (PaintSpec.all_selected ranks) ->
  PaintModel.to_real_field P kern kern2 (size N) volume compose throttle chunk false true None ranks = Ok r ->
  PaintModel.to_real_field P kern kern2 (size N) volume compose throttle' chunk' false true None ranks' = Ok r' ->
  PaintModel.shotnoise r' = PaintModel.shotnoise r /\ forall x, is_mode N x -> read N r' (moved N x d) = read N r x.
Proof.
  intros HN HA HA' HC HC' Hs HP E E'.
  destruct (PaintProofs.to_real_field_ok P kern kern2 (size N) volume compose throttle chunk false true None ranks HA HC) as [(q & f1 & f2 & Eq & F1 & _ & _ & A1 & A2 & B & C & D)|[Eq _]]; [|congruence].
  assert (q = r) by congruence. subst q. clear Eq.
  destruct (PaintProofs.to_real_field_ok P kern kern2 (size N) volume compose throttle' chunk' false true None ranks' HA' HC') as [(q & g1 & g2 & Eq & G1 & _ & _ & A1' & A2' & B' & C' & D')|[Eq _]]; [|congruence].
  assert (q = r') by congruence. subst q. clear Eq.
  rewrite HP, map_map in A1', A2'. cbn [carried PaintModel.w] in A1', A2'. change (qsum (map (fun x => PaintModel.w x) (PaintSpec.all_selected ranks))) with (qsum (map PaintModel.w (PaintSpec.all_selected ranks))) in A1'. rewrite <- A1 in A1'. rewrite <- A2 in A2'. rewrite A1' in B'. rewrite <- B in B'.
  split; [rewrite C, C', A1', A2'; reflexivity|].
  intros x X. unfold read. f_equal. rewrite D, D', B'. destruct (Qclt_le_dec 0 (PaintModel.nbar r)); [|reflexivity]. f_equal. unfold PaintSpec.painted, PaintModel.fadd, PaintModel.fzero. rewrite !Qcplus_0_l, F1, G1, HP. unfold PaintSpec.deposit. rewrite map_map. cbn [carried PaintModel.w PaintModel.v PaintModel.pos]. f_equal. apply map_ext. intros p. rewrite (Hs _ x X). reflexivity.
Qed.
Lemma power_shifted N L f g d m : mesh_size N -> is_mode N m -> (forall x, is_mode N x -> g (moved N x d) = f x) -> power N L g g m = power N L f f m.
Proof.
  intros HN M H. rewrite <- (power_moved N L g g d m HN M). rewrite !power_raw. destruct (is_zero m); [reflexivity|]. unfold raw. rewrite (r2c_ext N (fun x => g (moved N x d)) f m H). reflexivity.
Qed.

(* ---- bounds ---- *)
Lemma structure_bound N m l : Forall (fun p => 0 <= pw p) l -> structure N l m <= rsum (map pw l) * rsum (map pw l).
Proof.
  unfold structure. cbv zeta. fold pw. change (rsum (map (fun p => real_of (PaintModel.w p) * cos (angle N m (PaintModel.pos p))) l)) with (csum pw PaintModel.pos N m l). change (rsum (map (fun p => real_of (PaintModel.w p) * sin (angle N m (PaintModel.pos p))) l)) with (ssum pw PaintModel.pos N m l).
  induction 1 as [|p l Hp F IH]; [unfold csum, ssum; cbn; lra|].
  assert (S0 : 0 <= rsum (map pw l)). { clear - F. induction F as [|q l Hq F IH]; cbn [map rsum]; lra. }
  unfold csum, ssum in *. cbn [map rsum]. set (a := pw p) in *. set (c := cos (angle N m (PaintModel.pos p))). set (s := sin (angle N m (PaintModel.pos p))). set (C := rsum (map (fun p => pw p * cos _) l)) in *. set (D := rsum (map (fun p => pw p * sin _) l)) in *. set (T := rsum (map pw l)) in *.
  assert (Q : s * s + c * c = 1) by exact (sin2_cos2 (angle N m (PaintModel.pos p))).
  assert (K : c * C + s * D <= T).
  { assert (K2 : (c * C + s * D) * (c * C + s * D) <= T * T).
    { assert (0 <= (c * D - s * C) * (c * D - s * C)) by apply Rle_0_sqr. assert ((c * C + s * D) * (c * C + s * D) + (c * D - s * C) * (c * D - s * C) = (s * s + c * c) * (C * C + D * D)) by ring. rewrite Q in *. lra. }
    destruct (Rle_or_lt (c * C + s * D) T) as [?|G]; [assumption|]. exfalso. assert (T * T < (c * C + s * D) * (c * C + s * D)) by (apply Rmult_le_0_lt_compat; lra). lra. }
  assert (R1 : (a * c + C) * (a * c + C) + (a * s + D) * (a * s + D) = a * a * (s * s + c * c) + 2 * a * (c * C + s * D) + (C * C + D * D)) by ring.
  rewrite R1, Q. assert (a * (c * C + s * D) <= a * T) by (apply Rmult_le_compat_l; assumption). lra.
Qed.
Lemma window_nonneg N K m : 0 <= window_power N K m.
Proof. unfold window_power. cbv zeta. apply Rplus_le_le_0_compat; apply Rle_0_sqr. Qed.
(* every mesh point has an object of the same weight *)
Lemma lattice_structure N m l (a : R) : is_mode N m -> m <> (0, 0, 0)%nat -> Permutation (map PaintModel.pos l) (cells N) -> Forall (fun p => pw p = a) l -> structure N l m = 0.
Proof.
  intros M M0 HP F. unfold structure. cbv zeta.
  assert (X : forall g : mode -> R, rsum (map (fun p => real_of (PaintModel.w p) * g (PaintModel.pos p)) l) = a * rsum (map g (cells N))).
  { intros g. rewrite (rsum_ext' _ (fun p => a * g (PaintModel.pos p))). 2:{ intros p H. f_equal. exact (proj1 (Forall_forall _ _) F p H). }
    rewrite rsum_scl. f_equal. rewrite <- map_map with (g := g). apply rsum_perm. apply Permutation_map. exact HP. }
  rewrite (X (fun x => cos (angle N m x))), (X (fun x => sin (angle N m x))), (no_cos N m M M0), (no_sin N m M M0). ring.
Qed.
