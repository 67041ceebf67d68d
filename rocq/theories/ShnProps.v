(* Shot noise: the reported value is the mean power of objects thrown at random onto the mesh points. *)
From Verif Require Import Base BaseProofs Num.
From Coq Require Import Reals Lra Qreals.
From Verif Require Import RandModel RandProofs ThreeModel ThreeProofs SkyModel ConvModel MockModel MockSpec MockProofs MockMean DftModel DftSpec DftProofs DftMain DftInter DftProps LegProps ShnModel ShnSpec ShnProofs ShnMain ShnSym.
From Coq Require Import Permutation.
From Verif Require PaintModel PaintSpec PaintProofs.
Local Open Scope R_scope.
Local Notation length := List.length.

(* C309: the 3-d power of objects on mesh points *)
Theorem C309_structure : forall N L K kern kern2 volume compose throttle chunk ranks r m,
  mesh_size N -> window N (number N) K kern ->
  Forall PaintSpec.aligned ranks -> (1 <= chunk)%Z -> (forall k, In k ranks -> PaintModel.value k = None) ->
  (forall k p, In k ranks -> In p (PaintModel.position k) -> is_mode N p) ->
  PaintModel.to_real_field mode kern kern2 (size N) volume compose throttle chunk false true None ranks = Ok r ->
  (0 < PaintModel.aW r)%Qc -> is_mode N m -> m <> (0, 0, 0)%nat ->
  fst (catalog_power N L r None) m =
    (box_volume L * window_power N K m * structure N (PaintSpec.all_selected ranks) m / (real_of (PaintModel.aW r) * real_of (PaintModel.aW r)), 0).
Proof. exact power_objects. Qed.
Print Assumptions C309_structure.
(* its mean over all placements of the objects is the reported shot noise times the power of the window *)
Theorem C309_shot_noise : forall N L K kern kern2 volume compose throttle chunk (l : list rank) (r : list mode -> PaintModel.result),
  mesh_size N -> window N (number N) K kern -> real_of volume = box_volume L -> Forall complete l -> (1 <= chunk)%Z ->
  (forall xs, In xs (placements N (count l)) ->
     PaintModel.to_real_field mode kern kern2 (size N) volume compose (throttle xs) chunk false true None (placed l xs) = Ok (r xs) /\ (0 < PaintModel.aW (r xs))%Qc) ->
  exists s, (forall xs, In xs (placements N (count l)) -> snd (catalog_power N L (r xs) None) = Some s) /\
  forall m, is_mode N m -> m <> (0, 0, 0)%nat ->
    mean (fun xs => fst (fst (catalog_power N L (r xs) None) m)) (placements N (count l)) = window_power N K m * real_of s.
Proof.
  intros N L K kern kern2 volume compose throttle chunk l r HN HK HV HL HC HR.
  destruct (one_shot N L K kern kern2 volume compose throttle chunk l r HN HK HV HL HC HR) as (s & E & H). exists s. split; [exact H|].
  intros m M M0. rewrite E. exact (mean_power N L K kern kern2 volume compose throttle chunk l r HN HK HL HC HR m M M0).
Qed.
Print Assumptions C309_shot_noise.
(* with all of the mass in one cell it is the shot noise itself *)
Theorem C309_nearest : forall N L kern kern2 volume compose throttle chunk (l : list rank) (r : list mode -> PaintModel.result),
  mesh_size N -> window N (number N) nearest kern -> real_of volume = box_volume L -> Forall complete l -> (1 <= chunk)%Z ->
  (forall xs, In xs (placements N (count l)) ->
     PaintModel.to_real_field mode kern kern2 (size N) volume compose (throttle xs) chunk false true None (placed l xs) = Ok (r xs) /\ (0 < PaintModel.aW (r xs))%Qc) ->
  exists s, (forall xs, In xs (placements N (count l)) -> snd (catalog_power N L (r xs) None) = Some s) /\
  forall m, is_mode N m -> m <> (0, 0, 0)%nat -> mean (fun xs => fst (fst (catalog_power N L (r xs) None) m)) (placements N (count l)) = real_of s.
Proof.
  intros N L kern kern2 volume compose throttle chunk l r HN HK HV HL HC HR.
  destruct (C309_shot_noise N L nearest kern kern2 volume compose throttle chunk l r HN HK HV HL HC HR) as (s & H & E). exists s. split; [exact H|].
  intros m M M0. rewrite (E m M M0), (nearest_power N m HN). ring.
Qed.
Print Assumptions C309_nearest.

(* every window is realised by some kern *)
Definition cell_of (N : mode) (c : nat) : mode := let '(n0, n1, n2) := N in (c / n2 / n1, (c / n2) mod n1, c mod n2)%nat.
Definition kern_of (N : mode) (K : mode -> Qc) (p : mode) : PaintModel.field := fun c => K (moved N (cell_of N c) (opposite N p)).
Lemma cell_number N x : is_mode N x -> cell_of N (number N x) = x.
Proof.
  destruct N as [[n0 n1] n2], x as [[i j] k]. intros (A & B & C). unfold cell_of, number.
  assert (E1 : (((i * n1 + j) * n2 + k) / n2 = i * n1 + j)%nat). { rewrite Nat.div_add_l by lia. rewrite (Nat.div_small k n2 C). lia. }
  assert (E2 : (((i * n1 + j) * n2 + k) mod n2 = k)%nat). { rewrite Nat.add_comm, Nat.mod_add by lia. apply Nat.mod_small. exact C. }
  assert (E3 : ((i * n1 + j) / n1 = i)%nat). { rewrite Nat.div_add_l by lia. rewrite (Nat.div_small j n1 B). lia. }
  assert (E4 : ((i * n1 + j) mod n1 = j)%nat). { rewrite Nat.add_comm, Nat.mod_add by lia. apply Nat.mod_small. exact B. }
  rewrite E1, E2, E3, E4. reflexivity.
Qed.
Example C309_window : forall N K, window N (number N) K (kern_of N K).
Proof. intros N K p x P X. unfold kern_of. rewrite (cell_number N x X). reflexivity. Qed.
(* three objects on two ranks, one of them not selected, in a box of 2 x 1 x 3 with a mesh of 2 x 1 x 3 *)
Definition sky_ranks : list rank :=
  [ {| objects := 2; weights := Some [zq 2; 1%Qc]; chosen := Some [true; false] |}; {| objects := 1; weights := None; chosen := None |} ].
Definition sky_paint (xs : list mode) : res PaintModel.result :=
  PaintModel.to_real_field mode (kern_of (2, 1, 3)%nat nearest) (kern_of (2, 1, 3)%nat nearest) (size (2, 1, 3)%nat) (zq 6) PaintModel.fadd (fun a => (a =? 0)%nat) 2 false true None (placed sky_ranks xs).
Definition sky_result (xs : list mode) : PaintModel.result :=
  match sky_paint xs with Ok r => r | Err _ => PaintModel.Build_result PaintModel.fzero 0%Z 0%Qc 0%Qc 0%Qc None end.
Lemma ok_pick (x : res PaintModel.result) d : is_ok x = true -> x = Ok (match x with Ok r => r | Err _ => d end).
Proof. destruct x; [reflexivity|discriminate]. Qed.
Lemma sky_ok : forall xs, In xs (placements (2, 1, 3)%nat (count sky_ranks)) -> sky_paint xs = Ok (sky_result xs) /\ (0 < PaintModel.aW (sky_result xs))%Qc.
Proof.
  intros xs H. apply placements_in in H. destruct H as [H _]. destruct xs as [|x [|y [|z [|? ?]]]]; try discriminate H.
  split; [apply ok_pick; vm_compute; reflexivity|vm_compute; reflexivity].
Qed.
Example C309_case : mesh_size (2, 1, 3)%nat /\ real_of (zq 6) = box_volume (2, 1, 3) /\ Forall complete sky_ranks /\
  length (placements (2, 1, 3)%nat (count sky_ranks)) = 216%nat /\ is_mode (2, 1, 3)%nat (1, 0, 2)%nat /\
  (exists s, (forall xs, In xs (placements (2, 1, 3)%nat (count sky_ranks)) -> PaintModel.shotnoise (sky_result xs) = Some s) /\ real_of s = 10 / 3).
Proof.
  split; [cbn; lia|]. split; [rewrite real_zq; cbn; ring|]. split.
  { repeat constructor; cbn; intros l E; try discriminate E; injection E as <-; reflexivity. }
  split; [vm_compute; reflexivity|]. split; [cbn; lia|].
  exists (Q2Qc (10 # 3)). split.
  - intros xs H. apply placements_in in H. destruct H as [H _]. destruct xs as [|x [|y [|z [|? ?]]]]; try discriminate H. transitivity (Some (Q2Qc (60 # 18))); [|f_equal; apply Qc_is_canon; reflexivity]. vm_compute. f_equal. apply Qc_is_canon. reflexivity.
  - rewrite real_red. unfold Q2R. cbn. lra.
Qed.

(* C310: the mean 3-d correlation function of such objects: noise at zero separation, less its mean over the box *)
Theorem C310_correlation : forall N L kern kern2 volume compose throttle chunk (l : list rank) (r : list mode -> PaintModel.result),
  mesh_size N -> positive3 L -> window N (number N) nearest kern -> real_of volume = box_volume L -> Forall complete l -> (1 <= chunk)%Z ->
  (forall xs, In xs (placements N (count l)) ->
     PaintModel.to_real_field mode kern kern2 (size N) volume compose (throttle xs) chunk false true None (placed l xs) = Ok (r xs) /\ (0 < PaintModel.aW (r xs))%Qc) ->
  exists s, (forall xs, In xs (placements N (count l)) -> PaintModel.shotnoise (r xs) = Some s) /\
  forall x, is_mode N x ->
    mean (fun xs => correlation N L (read N (r xs)) (read N (r xs)) x) (placements N (count l)) =
    real_of s / box_volume L * ((if eqm x (0, 0, 0)%nat then INR (size N) else 0) - 1).
Proof.
  intros N L kern kern2 volume compose throttle chunk l r HN HL' HK HV HL HC HR.
  destruct (C309_nearest N L kern kern2 volume compose throttle chunk l r HN HK HV HL HC HR) as (s & H & E). exists s. split; [exact H|].
  intros x X. assert (VN := vol_nonzero L HL'). assert (CP := count_pos N l HN).
  assert (Q : forall m, In m (cells N) -> rsum (map (fun xs => fst (power N L (read N (r xs)) (read N (r xs)) m)) (placements N (count l))) = INR (length (placements N (count l))) * (real_of s + if eqm m (0, 0, 0)%nat then - real_of s else 0)).
  { intros m M. apply in_cells in M. destruct (eqm m (0, 0, 0)%nat) eqn:Em.
    - apply eqm_iff in Em. subst m. rewrite rsum_zero; [ring|]. intros xs _. rewrite power_raw. reflexivity.
    - assert (M0 : m <> (0, 0, 0)%nat) by (intros Q; apply eqm_iff in Q; congruence). rewrite Rplus_0_r, <- (E m M M0). unfold mean. cbn [catalog_power fst]. field. exact CP. }
  unfold mean, correlation. fold (vol L). rewrite rsum_scr.
  rewrite (rsum_ext' _ (fun xs => rsum (map (fun m => fst (power N L (read N (r xs)) (read N (r xs)) m) * cos (angle N m x)) (cells N)))).
  2:{ intros xs _. rewrite inverse_hermitian by apply power_hermitian. unfold c2r. apply rsum_ext'. intros m _. rewrite (proj1 (auto_real N L (read N (r xs)) m HL')). ring. }
  rewrite rsum_swap.
  rewrite (rsum_ext' _ (fun m => INR (length (placements N (count l))) * real_of s * cos (angle N m x) + (if eqm m (0, 0, 0)%nat then - (INR (length (placements N (count l))) * real_of s * cos (angle N m x)) else 0))).
  2:{ intros m M. rewrite rsum_scr, (Q m M). destruct (eqm m (0, 0, 0)%nat); ring. }
  rewrite rsum_plus, rsum_scl, (pick N (fun m => - (INR (length (placements N (count l))) * real_of s * cos (angle N m x))) _ (zero_is N HN)).
  assert (O := ortho N x (0, 0, 0)%nat 0 X (zero_is N HN)).
  rewrite (rsum_ext' _ (fun m => cos (angle N m x))) in O by (intros m _; f_equal; rewrite (angle_sym N m (0, 0, 0)%nat), angle_zero; ring).
  rewrite O, cos_0, angle_zero, cos_0, size_ncell. change (box_volume L) with (vol L). destruct (eqm x (0, 0, 0)%nat); field; split; assumption.
Qed.
Print Assumptions C310_correlation.
Example C310_case : positive3 (2, 1, 3) /\ is_mode (2, 1, 3)%nat (1, 0, 0)%nat /\
  mean (fun xs => correlation (2, 1, 3)%nat (2, 1, 3) (read (2, 1, 3)%nat (sky_result xs)) (read (2, 1, 3)%nat (sky_result xs)) (1, 0, 0)%nat) (placements (2, 1, 3)%nat (count sky_ranks)) = - (10 / 18).
Proof.
  assert (P : positive3 (2, 1, 3)) by (cbn; lra). split; [exact P|]. split; [cbn; lia|].
  destruct C309_case as (HN & HV & HL & _ & _ & s' & Hs & Es).
  destruct (C310_correlation (2, 1, 3)%nat (2, 1, 3) (kern_of (2, 1, 3)%nat nearest) (kern_of (2, 1, 3)%nat nearest) (zq 6) PaintModel.fadd (fun _ a => (a =? 0)%nat) 2 sky_ranks sky_result HN P (C309_window _ nearest) HV HL ltac:(lia) sky_ok) as (s & H & E).
  assert (s = s'). { assert (X : In (repeat (0, 0, 0)%nat 3) (placements (2, 1, 3)%nat (count sky_ranks))) by (apply placements_in; split; [reflexivity|repeat constructor]). assert (A := H _ X). assert (B := Hs _ X). congruence. }
  subst s'. rewrite E by (cbn; lia). rewrite Es. cbn. lra.
Qed.

(* C311: the cross power of a catalog thrown at random with any other field vanishes on average, and so does the reported shot noise *)
Theorem C311_cross : forall N L K kern kern2 volume compose throttle chunk (l : list rank) (r : list mode -> PaintModel.result) (other : PaintModel.result),
  mesh_size N -> window N (number N) K kern -> Forall complete l -> (1 <= chunk)%Z ->
  (forall xs, In xs (placements N (count l)) ->
     PaintModel.to_real_field mode kern kern2 (size N) volume compose (throttle xs) chunk false true None (placed l xs) = Ok (r xs) /\ (0 < PaintModel.aW (r xs))%Qc) ->
  (forall xs, snd (catalog_power N L (r xs) (Some other)) = Some 0%Qc) /\
  forall m, is_mode N m ->
    mean (fun xs => fst (fst (catalog_power N L (r xs) (Some other)) m)) (placements N (count l)) = 0 /\
    mean (fun xs => snd (fst (catalog_power N L (r xs) (Some other)) m)) (placements N (count l)) = 0.
Proof.
  intros N L K kern kern2 volume compose throttle chunk l r other HN HK HL HC HR. split; [reflexivity|]. intros m M.
  destruct (mean_cross N L K kern kern2 volume compose throttle chunk l r HN HK HL HC HR (read N other) m M) as [A B].
  assert (CP := count_pos N l HN). unfold mean. split; [change (rsum _) with (rsum (map (fun xs => fst (power N L (read N (r xs)) (read N other) m)) (placements N (count l)))); rewrite A|change (rsum _) with (rsum (map (fun xs => snd (power N L (read N (r xs)) (read N other) m)) (placements N (count l)))); rewrite B]; field; exact CP.
Qed.
Print Assumptions C311_cross.
Example C311_case : forall other m, is_mode (2, 1, 3)%nat m ->
  mean (fun xs => fst (fst (catalog_power (2, 1, 3)%nat (2, 1, 3) (sky_result xs) (Some other)) m)) (placements (2, 1, 3)%nat (count sky_ranks)) = 0.
Proof.
  intros other m M. destruct C309_case as (HN & HV & HL & _).
  exact (proj1 (proj2 (C311_cross (2, 1, 3)%nat (2, 1, 3) nearest (kern_of (2, 1, 3)%nat nearest) (kern_of (2, 1, 3)%nat nearest) (zq 6) PaintModel.fadd (fun _ a => (a =? 0)%nat) 2 sky_ranks sky_result other HN (C309_window _ nearest) HL ltac:(lia) sky_ok) m M)).
Qed.

(* C312: two meshes of one catalog: `first is second` compares objects, so the shot noise in the power is not reported *)
Theorem C312_same_catalog_refuted : exists N L kern kern2 volume compose throttle chunk (l : list rank) (r : list mode -> PaintModel.result) m,
  mesh_size N /\ window N (number N) nearest kern /\ real_of volume = box_volume L /\ Forall complete l /\ is_mode N m /\ m <> (0, 0, 0)%nat /\
  (forall xs, In xs (placements N (count l)) ->
     PaintModel.to_real_field mode kern kern2 (size N) volume compose (throttle xs) chunk false true None (placed l xs) = Ok (r xs) /\ (0 < PaintModel.aW (r xs))%Qc /\
     snd (catalog_power N L (r xs) (Some (r xs))) = Some 0%Qc) /\
  0 < mean (fun xs => fst (fst (catalog_power N L (r xs) (Some (r xs))) m)) (placements N (count l)).
Proof.
  destruct C309_case as (HN & HV & HL & _ & M & s' & Hs & Es).
  exists (2, 1, 3)%nat, (2, 1, 3), (kern_of (2, 1, 3)%nat nearest), (kern_of (2, 1, 3)%nat nearest), (zq 6), PaintModel.fadd, (fun _ a => (a =? 0)%nat), 2%Z, sky_ranks, sky_result, (1, 0, 2)%nat.
  split; [exact HN|]. split; [apply C309_window|]. split; [exact HV|]. split; [exact HL|]. split; [exact M|]. split; [discriminate|].
  split; [intros xs H; destruct (sky_ok xs H) as [A B]; split; [exact A|]; split; [exact B|reflexivity]|].
  destruct (C309_nearest (2, 1, 3)%nat (2, 1, 3) (kern_of (2, 1, 3)%nat nearest) (kern_of (2, 1, 3)%nat nearest) (zq 6) PaintModel.fadd (fun _ a => (a =? 0)%nat) 2 sky_ranks sky_result HN (C309_window _ nearest) HV HL ltac:(lia) sky_ok) as (s & H & E).
  assert (s = s'). { assert (X : In (repeat (0, 0, 0)%nat 3) (placements (2, 1, 3)%nat (count sky_ranks))) by (apply placements_in; split; [reflexivity|repeat constructor]). assert (A := H _ X). assert (B := Hs _ X). cbn [catalog_power snd reported] in A. congruence. }
  subst s'. assert (Q := E (1, 0, 2)%nat M ltac:(discriminate)). change (mean _ _) with (mean (fun xs => fst (fst (catalog_power (2, 1, 3)%nat (2, 1, 3) (sky_result xs) None) (1, 0, 2)%nat)) (placements (2, 1, 3)%nat (count sky_ranks))). rewrite Q, Es. lra.
Qed.
Print Assumptions C312_same_catalog_refuted.

(* C313: the power and the shot noise of a catalog depend on the set of the selected objects only, wherever these are *)
Theorem C313_layout : forall (P : Type) N L volume compose (kern kern2 : P -> PaintModel.field) throttle throttle' chunk chunk' interlaced ranks ranks' r r',
  (forall f g f' g', (forall c, f c = f' c) -> (forall c, g c = g' c) -> forall c, compose f g c = compose f' g' c) ->
  Forall PaintSpec.aligned ranks -> Forall PaintSpec.aligned ranks' -> (1 <= chunk)%Z -> (1 <= chunk')%Z ->
  Permutation (PaintSpec.all_selected ranks) (PaintSpec.all_selected ranks') ->
  PaintModel.to_real_field P kern kern2 (size N) volume compose throttle chunk interlaced true None ranks = Ok r ->
  PaintModel.to_real_field P kern kern2 (size N) volume compose throttle' chunk' interlaced true None ranks' = Ok r' ->
  snd (catalog_power N L r' None) = snd (catalog_power N L r None) /\
  forall m, is_mode N m -> fst (catalog_power N L r' None) m = fst (catalog_power N L r None) m.
Proof.
  intros P N L volume compose kern kern2 throttle throttle' chunk chunk' interlaced ranks ranks' r r' HX HA HA' HC HC' HP E E'.
  destruct (same_objects P N volume compose HX kern kern2 throttle throttle' chunk chunk' interlaced ranks ranks' r r' HA HA' HC HC' HP E E') as [A B].
  split; [exact A|]. intros m M. cbn [catalog_power fst]. rewrite !power_raw. unfold raw. rewrite (r2c_ext N (read N r') (read N r) m (fun x _ => B x)). reflexivity.
Qed.
Print Assumptions C313_layout.
(* a common factor of the weights does not matter *)
Theorem C313_weights : forall (P : Type) N L volume compose (kern kern2 : P -> PaintModel.field) throttle throttle' chunk chunk' ranks ranks' r r' (a : Qc),
  mesh_size N -> Forall PaintSpec.aligned ranks -> Forall PaintSpec.aligned ranks' -> (1 <= chunk)%Z -> (1 <= chunk')%Z -> (0 < a)%Qc ->
  PaintSpec.all_selected ranks' = map (heavier a) (PaintSpec.all_selected ranks) ->
  PaintModel.to_real_field P kern kern2 (size N) volume compose throttle chunk false true None ranks = Ok r ->
  PaintModel.to_real_field P kern kern2 (size N) volume compose throttle' chunk' false true None ranks' = Ok r' ->
  (0 < PaintModel.aW r)%Qc ->
  snd (catalog_power N L r' None) = snd (catalog_power N L r None) /\
  forall m, is_mode N m -> fst (catalog_power N L r' None) m = fst (catalog_power N L r None) m.
Proof.
  intros P N L volume compose kern kern2 throttle throttle' chunk chunk' ranks ranks' r r' a HN HA HA' HC HC' Ha HP E E' W.
  destruct (scaled_objects P N volume compose kern kern2 throttle throttle' chunk chunk' ranks ranks' r r' a HN HA HA' HC HC' Ha HP E E' W) as [A B].
  split; [exact A|]. intros m M. cbn [catalog_power fst]. rewrite !power_raw. unfold raw. rewrite (r2c_ext N (read N r') (read N r) m (fun x _ => B x)). reflexivity.
Qed.
Print Assumptions C313_weights.
(* nor does moving all objects by whole cells, whatever the window, if it moves with them *)
Theorem C313_moved : forall (P : Type) N L volume compose (kern kern2 : P -> PaintModel.field) throttle throttle' chunk chunk' ranks ranks' r r' (s : P -> P) (d : mode),
  mesh_size N -> Forall PaintSpec.aligned ranks -> Forall PaintSpec.aligned ranks' -> (1 <= chunk)%Z -> (1 <= chunk')%Z ->
  (forall p x, is_mode N x -> kern (s p) (number N (moved N x d)) = kern p (number N x)) ->
  PaintSpec.all_selected ranks' = map (carried s) (PaintSpec.all_selected ranks) ->
  PaintModel.to_real_field P kern kern2 (size N) volume compose throttle chunk false true None ranks = Ok r ->
  PaintModel.to_real_field P kern kern2 (size N) volume compose throttle' chunk' false true None ranks' = Ok r' ->
  snd (catalog_power N L r' None) = snd (catalog_power N L r None) /\
  forall m, is_mode N m -> fst (catalog_power N L r' None) m = fst (catalog_power N L r None) m.
Proof.
  intros P N L volume compose kern kern2 throttle throttle' chunk chunk' ranks ranks' r r' s d HN HA HA' HC HC' Hs HP E E'.
  destruct (moved_objects P N volume compose kern kern2 throttle throttle' chunk chunk' ranks ranks' r r' s d HN HA HA' HC HC' Hs HP E E') as [A B].
  split; [exact A|]. intros m M. exact (power_shifted N L (read N r) (read N r') d m HN M B).
Qed.
Print Assumptions C313_moved.
(* positions in half cells on a mesh of 3 cells, each object shared by the two nearest cells *)
Definition half_kern (p : nat) : PaintModel.field := fun c =>
  if Nat.even p then (if (c =? (p / 2) mod 3)%nat then 1%Qc else 0%Qc) else if ((c =? (p / 2) mod 3) || (c =? (p / 2 + 1) mod 3))%nat then Q2Qc (1 # 2) else 0%Qc.
Definition half_ranks (s : nat) : list (PaintModel.columns nat) :=
  [ {| PaintModel.position := [s; 3 + s]%nat; PaintModel.weight := Some [1%Qc; zq 3]; PaintModel.value := None; PaintModel.selection := None |};
    {| PaintModel.position := [5 + s; 1]%nat; PaintModel.weight := None; PaintModel.value := None; PaintModel.selection := Some [true; false] |} ].
Example C313_case : Forall PaintSpec.aligned (half_ranks 0) /\
  (forall p x, is_mode (1, 1, 3)%nat x -> half_kern (p + 2)%nat (number (1, 1, 3)%nat (moved (1, 1, 3)%nat x (0, 0, 1)%nat)) = half_kern p (number (1, 1, 3)%nat x)) /\
  PaintSpec.all_selected (half_ranks 2) = map (carried (fun p => p + 2)%nat) (PaintSpec.all_selected (half_ranks 0)) /\
  is_ok (PaintModel.to_real_field nat half_kern half_kern (size (1, 1, 3)%nat) (zq 3) PaintModel.fadd (fun _ => false) 1 false true None (half_ranks 0)) = true /\
  is_ok (PaintModel.to_real_field nat half_kern half_kern (size (1, 1, 3)%nat) (zq 3) PaintModel.fadd (fun _ => false) 2 false true None (half_ranks 2)) = true.
Proof.
  split; [repeat constructor; cbn; intros y E; try discriminate E; injection E as <-; reflexivity|]. split; [|split; [vm_compute; reflexivity|split; vm_compute; reflexivity]].
  intros p [[i j] k] (A & B & C). assert (i = 0)%nat by lia. assert (j = 0)%nat by lia. subst i j. unfold half_kern, number, moved.
  assert (E : Nat.even (p + 2) = Nat.even p) by (rewrite Nat.even_add; cbn; destruct (Nat.even p); reflexivity). rewrite E.
  replace ((p + 2) / 2)%nat with (p / 2 + 1)%nat by (replace (p + 2)%nat with (p + 1 * 2)%nat by lia; rewrite Nat.div_add by lia; reflexivity).
  set (h := (p / 2)%nat).
  assert (H0 : (h mod 3 < 3)%nat) by (apply Nat.mod_upper_bound; lia).
  assert (H1 : ((h + 1) mod 3 = (h mod 3 + 1) mod 3)%nat) by (rewrite Nat.add_mod by lia; reflexivity).
  assert (H2 : ((h + 1 + 1) mod 3 = (h mod 3 + 2) mod 3)%nat) by (replace (h + 1 + 1)%nat with (h + 2)%nat by lia; rewrite Nat.add_mod by lia; reflexivity).
  rewrite H1, H2. revert H0. generalize (h mod 3)%nat. intros q H0. clear E H1 H2.
  destruct q as [|[|[|q]]]; [| | |lia]; destruct k as [|[|[|k]]]; try lia; destruct (Nat.even p); reflexivity.
Qed.

(* C314: the power of objects with weights >= 0 is at most V |W(k)|^2, the power of one object *)
Theorem C314_bound : forall N L K kern kern2 volume compose throttle chunk ranks r m,
  mesh_size N -> positive3 L -> window N (number N) K kern ->
  Forall PaintSpec.aligned ranks -> (1 <= chunk)%Z -> (forall k, In k ranks -> PaintModel.value k = None) ->
  (forall k p, In k ranks -> In p (PaintModel.position k) -> is_mode N p) ->
  PaintModel.to_real_field mode kern kern2 (size N) volume compose throttle chunk false true None ranks = Ok r ->
  (0 < PaintModel.aW r)%Qc -> Forall (fun p => 0 <= PaintModel.w p)%Qc (PaintSpec.all_selected ranks) -> is_mode N m ->
  0 <= fst (fst (catalog_power N L r None) m) <= box_volume L * window_power N K m /\
  (forall x, m <> (0, 0, 0)%nat -> Forall (fun p => PaintModel.pos p = x) (PaintSpec.all_selected ranks) -> fst (fst (catalog_power N L r None) m) = box_volume L * window_power N K m).
Proof.
  intros N L K kern kern2 volume compose throttle chunk ranks r m HN HL HK HA HC HV HP E W HW M.
  assert (V := vol_nonzero L HL). assert (VP : 0 < box_volume L). { destruct L as [[l0 l1] l2]. destruct HL as (A & B & C). cbn. repeat apply Rmult_lt_0_compat; assumption. }
  assert (WP := window_nonneg N K m).
  destruct (painted_field N K kern kern2 volume compose HN HK throttle chunk ranks r HA HC HV HP E W) as (_ & EW & _).
  assert (RW : real_of (PaintModel.aW r) <> 0) by (apply real_nz, pos_nz; exact W).
  split.
  - split; [exact (proj2 (auto_real N L (read N r) m HL))|]. destruct (is_zero m) eqn:Ez.
    + cbn [catalog_power fst]. rewrite power_raw, Ez. cbn [fst]. apply Rmult_le_pos; lra.
    + assert (M0 : m <> (0, 0, 0)%nat) by (intros Q; apply is_zero_iff in Q; congruence).
      rewrite (C309_structure N L K kern kern2 volume compose throttle chunk ranks r m HN HK HA HC HV HP E W M M0). cbn [fst]. rewrite EW in *.
      assert (B : structure N (PaintSpec.all_selected ranks) m <= rsum (map pw (PaintSpec.all_selected ranks)) * rsum (map pw (PaintSpec.all_selected ranks))).
      { apply structure_bound. apply Forall_forall. intros p Hp. assert (Q := proj1 (Forall_forall _ _) HW p Hp). cbn beta in Q. unfold pw, real_of. rewrite <- RMicromega.Q2R_0. apply Qle_Rle. exact Q. }
      set (T := rsum (map pw (PaintSpec.all_selected ranks))) in *. assert (TT : 0 < T * T). { assert (0 <= T * T) by apply Rle_0_sqr. assert (T * T <> 0) by (intros Q; apply Rmult_integral in Q; destruct Q; contradiction). lra. }
      apply (Rmult_le_reg_r (T * T)); [exact TT|]. unfold Rdiv. rewrite Rmult_assoc, Rinv_l by lra. rewrite Rmult_1_r. apply Rmult_le_compat_l; [apply Rmult_le_pos; lra|exact B].
  - intros x M0 HX. rewrite (C309_structure N L K kern kern2 volume compose throttle chunk ranks r m HN HK HA HC HV HP E W M M0). cbn [fst].
    assert (S1 : forall g : mode -> R, rsum (map (fun p => real_of (PaintModel.w p) * g (PaintModel.pos p)) (PaintSpec.all_selected ranks)) = real_of (PaintModel.aW r) * g x).
    { intros g. rewrite EW. rewrite (rsum_ext' _ (fun p => pw p * g x)) by (intros p Hp; rewrite (proj1 (Forall_forall _ _) HX p Hp); reflexivity). apply rsum_scr. }
    unfold structure. cbv zeta. rewrite (S1 (fun y => cos (angle N m y))), (S1 (fun y => sin (angle N m y))). assert (Q := sin2_cos2 (angle N m x)). unfold Rsqr in Q. set (T := real_of (PaintModel.aW r)) in *. set (c := cos (angle N m x)) in *. set (s := sin (angle N m x)) in *.
    transitivity (box_volume L * window_power N K m * (s * s + c * c)); [field; exact RW|]. rewrite Q. ring.
Qed.
Print Assumptions C314_bound.
(* a mesh with an object of the same weight on every point has no power *)
Theorem C314_lattice : forall N L K kern kern2 volume compose throttle chunk ranks r m (a : Qc),
  mesh_size N -> window N (number N) K kern ->
  Forall PaintSpec.aligned ranks -> (1 <= chunk)%Z -> (forall k, In k ranks -> PaintModel.value k = None) ->
  (forall k p, In k ranks -> In p (PaintModel.position k) -> is_mode N p) ->
  PaintModel.to_real_field mode kern kern2 (size N) volume compose throttle chunk false true None ranks = Ok r ->
  (0 < PaintModel.aW r)%Qc -> Permutation (map PaintModel.pos (PaintSpec.all_selected ranks)) (cells N) -> Forall (fun p => PaintModel.w p = a) (PaintSpec.all_selected ranks) ->
  is_mode N m -> fst (catalog_power N L r None) m = (0, 0).
Proof.
  intros N L K kern kern2 volume compose throttle chunk ranks r m a HN HK HA HC HV HP E W HX HW M. destruct (is_zero m) eqn:Ez.
  - cbn [catalog_power fst]. rewrite power_raw, Ez. reflexivity.
  - assert (M0 : m <> (0, 0, 0)%nat) by (intros Q; apply is_zero_iff in Q; congruence).
    rewrite (C309_structure N L K kern kern2 volume compose throttle chunk ranks r m HN HK HA HC HV HP E W M M0).
    rewrite (lattice_structure N m (PaintSpec.all_selected ranks) (real_of a) M M0 HX). { f_equal. unfold Rdiv. ring. }
    apply Forall_forall. intros p Hp. unfold pw. f_equal. exact (proj1 (Forall_forall _ _) HW p Hp).
Qed.
Print Assumptions C314_lattice.
Definition full_ranks : list (PaintModel.columns mode) :=
  [ {| PaintModel.position := [(0, 0, 1); (0, 0, 0)]%nat; PaintModel.weight := Some [zq 2; zq 2]; PaintModel.value := None; PaintModel.selection := None |};
    {| PaintModel.position := [(0, 0, 2)]%nat; PaintModel.weight := Some [zq 2]; PaintModel.value := None; PaintModel.selection := None |} ].
Example C314_case : Forall PaintSpec.aligned full_ranks /\ Permutation (map PaintModel.pos (PaintSpec.all_selected full_ranks)) (cells (1, 1, 3)%nat) /\
  Forall (fun p => PaintModel.w p = zq 2) (PaintSpec.all_selected full_ranks) /\
  match PaintModel.to_real_field mode (kern_of (1, 1, 3)%nat nearest) (kern_of (1, 1, 3)%nat nearest) (size (1, 1, 3)%nat) (zq 3) PaintModel.fadd (fun _ => false) 1 false true None full_ranks with Ok r => (0 < PaintModel.aW r)%Qc | Err _ => False end.
Proof.
  split; [repeat constructor; cbn; intros y E; try discriminate E; injection E as <-; reflexivity|].
  split; [cbn; apply perm_swap|]. split; [repeat constructor|vm_compute; reflexivity].
Qed.
