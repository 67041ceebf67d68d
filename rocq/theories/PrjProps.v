(* C315-C321: the projected power. *)
From Verif Require Import Base BaseProofs Num.
From Coq Require Import Reals Lra Permutation.
From Verif Require Import RandModel RandProofs ThreeModel ThreeProofs SkyModel ConvModel MockModel MockSpec MockProofs MockMean DftModel DftSpec DftProofs DftMain UniqModel UniqProofs LegProps ShnModel ShnSpec ShnProofs ShnMain ShnProps PrjModel PrjSpec PrjProofs PrjMain PrjMore.
From Verif Require PaintModel PaintSpec.
Local Open Scope R_scope.
Local Notation length := List.length.

(* C315: every bin holds the mean of the 3-d power over the modes without a component along the other axes, divided by the
   depth of the box *)
Theorem C315_slices : forall N L axes dk kmin K f g,
  mesh_size N -> positive3 L -> some_axes axes -> even_last N axes -> (forall d, dk = Some d -> 0 < d) ->
  nyquist N L axes K -> kmin < K + width L dk / 2 ->
  exists r n, ProjectedFFTPower N L (Sequence axes) dk kmin f g = Ok r /\
    length (edges r) = S n /\ length (bins r) = n /\ kmin + INR n * width L dk < K + width L dk / 2 <= kmin + INR (S n) * width L dk /\
    (forall i x, nth_error (edges r) i = Some x -> x = kmin + INR i * width L dk) /\
    forall i, (i < n)%nat ->
    exists l b, shell N L axes (kmin + INR i * width L dk) (kmin + INR (S i) * width L dk) l /\ nth_error (bins r) i = Some b /\
      b_modes b = INR (length l) /\ b_k b = mean_of (fun m => size3 (kvec N L m)) l /\
      match b_power b with
      | None => l = []
      | Some p => mean_of (fun m => fst (power N L f (match g with Some g => g | None => f end) m) / depth L axes) l = Some (fst p) /\ (g = None -> snd p = 0)
      end.
Proof. exact slices. Qed.
Print Assumptions C315_slices.
(* two axes in unusual order of a box of 3 x 2 x 5 *)
Example C315_case : mesh_size (4, 3, 6)%nat /\ positive3 (3, 2, 5) /\ some_axes [2; 0]%nat /\ even_last (4, 3, 6)%nat [2; 0]%nat /\
  nyquist (4, 3, 6)%nat (3, 2, 5) [2; 0]%nat (PI * INR 4 / 5) /\ 0 < PI * INR 4 / 5 + width (3, 2, 5) None / 2 /\ depth (3, 2, 5) [2; 0]%nat = 2.
Proof.
  split; [cbn; lia|]. split; [repeat split; lra|].
  split; [split; [repeat constructor; cbn; intuition discriminate|split; [intros a [<-|[<-|[]]]; lia|right; reflexivity]]|].
  split; [right; reflexivity|]. split; [|split].
  - exists 0%nat, 2%nat. split; [right; left; reflexivity|]. split; [left; reflexivity|]. split; [|reflexivity]. intros c [<-|[<-|[]]]; cbn [component extent nth]; split; lia || lra.
  - assert (P := PI_RGT_0). assert (WP : 0 < width (3, 2, 5) None) by (apply width_pos; [repeat split; lra|discriminate]). assert (0 < PI * INR 4 / 5) by (apply Rdiv_lt_0_compat; [apply Rmult_lt_0_compat; [exact P|apply lt_0_INR; lia]|lra]). lra.
  - cbn. ring.
Qed.

(* C316: only the field averaged along the other axes matters *)
Theorem C316_columns : forall N L axes dk kmin f f' g g',
  mesh_size N -> positive3 L -> some_axes axes -> (forall d, dk = Some d -> 0 < d) ->
  (forall x, is_mode N x -> flattened N axes f x = flattened N axes f' x) -> (forall x, is_mode N x -> flattened N axes g x = flattened N axes g' x) ->
  ProjectedFFTPower N L (Sequence axes) dk kmin f (Some g) = ProjectedFFTPower N L (Sequence axes) dk kmin f' (Some g').
Proof.
  intros N L axes dk kmin f f' g g' HN HP HA HD HF HG. rewrite !init_run by assumption. apply columns_only; assumption.
Qed.
Print Assumptions C316_columns.
(* neither the origin nor the mean of the fields matters *)
Theorem C316_moved : forall N L axes dk kmin f g r c d,
  mesh_size N -> positive3 L -> some_axes axes -> (forall d, dk = Some d -> 0 < d) ->
  ProjectedFFTPower N L (Sequence axes) dk kmin (fun x => f (moved N x r) + c) (Some (fun x => g (moved N x r) + d)) = ProjectedFFTPower N L (Sequence axes) dk kmin f (Some g).
Proof. intros N L axes dk kmin f g r c d HN HP HA HD. rewrite !init_run by assumption. apply run_moved; assumption. Qed.
Print Assumptions C316_moved.
(* different fields with the same averages *)
Example C316_case : let N := (2, 1, 2)%nat in let f := fun x : mode => INR (snd x) in let f' := fun _ : mode => / 2 in
  f (0, 0, 0)%nat <> f' (0, 0, 0)%nat /\ forall x, is_mode N x -> flattened N [0; 1]%nat f x = flattened N [0; 1]%nat f' x.
Proof.
  cbn zeta. split; [cbn [snd INR]; lra|]. intros [[i j] k] (A & B & C). destruct i as [|[|i]]; try lia; destruct j as [|j]; try lia;
  (unfold flattened; cbn [cells seq list_prod map app filter along forallb component nth Nat.eqb andb length]; unfold rsum; cbn [fold_right map snd length INR]; field).
Qed.

(* C317: the power in the bins adds up to at most the variance of the averaged field times the area *)
Theorem C317_variance : forall N L axes dk kmin f r,
  mesh_size N -> positive3 L -> some_axes axes -> even_last N axes -> (forall d, dk = Some d -> 0 < d) ->
  ProjectedFFTPower N L (Sequence axes) dk kmin f None = Ok r ->
  rsum (map (fun b => times_modes (b_modes b) (b_power b)) (bins r))
  <= area L axes * (average N (fun x => flattened N axes f x * flattened N axes f x) - average N (flattened N axes f) * average N (flattened N axes f)).
Proof. exact variance_bound. Qed.
Print Assumptions C317_variance.
Example C317_case : exists r, ProjectedFFTPower (4, 3, 6)%nat (3, 2, 5) (Sequence [2; 0]%nat) None 0 (fun x => INR (fst (fst x))) None = Ok r /\ even_last (4, 3, 6)%nat [2; 0]%nat.
Proof.
  destruct C315_case as (H1 & H2 & H3 & H4 & H5 & H6 & _).
  destruct (C315_slices (4, 3, 6)%nat (3, 2, 5) [2; 0]%nat None 0 _ (fun x => INR (fst (fst x))) None H1 H2 H3 H4 ltac:(discriminate) H5 H6) as (r & n & E & _). exists r. split; [exact E|exact H4].
Qed.

(* C318: the order of the axes does not matter *)
Theorem C318_order : forall N L a b dk kmin K f g,
  mesh_size N -> positive3 L -> some_axes [a; b] -> even_last N [a; b] -> even_last N [b; a] -> (forall d, dk = Some d -> 0 < d) ->
  nyquist N L [a; b] K -> kmin < K + width L dk / 2 ->
  exists r s, ProjectedFFTPower N L (Sequence [a; b]) dk kmin f g = Ok r /\ ProjectedFFTPower N L (Sequence [b; a]) dk kmin f g = Ok s /\ edges r = edges s /\
    map b_k (bins r) = map b_k (bins s) /\ map b_modes (bins r) = map b_modes (bins s) /\ map (fun x => option_map fst (b_power x)) (bins r) = map (fun x => option_map fst (b_power x)) (bins s).
Proof. exact order_axes. Qed.
Print Assumptions C318_order.
Example C318_case : even_last (4, 3, 6)%nat [2; 0]%nat /\ even_last (4, 3, 6)%nat [0; 2]%nat.
Proof. split; right; reflexivity. Qed.

(* C319: the documented form of one axis, (0), is a number and is refused *)
Theorem C319_one_axis_refuted : exists N L a dk kmin f g, mesh_size N /\ positive3 L /\ (a < 3)%nat /\
  is_ok (ProjectedFFTPower N L (Number a) dk kmin f g) = false /\ is_ok (ProjectedFFTPower N L (Sequence [a]) dk kmin f g) = true.
Proof.
  exists (4, 3, 6)%nat, (3, 2, 5), 0%nat, None, 0, (fun _ => 0), None. split; [cbn; lia|]. split; [repeat split; lra|]. split; [lia|]. split; [reflexivity|].
  assert (HA : some_axes [0]%nat) by (split; [constructor; [intros []|constructor]|split; [intros a [<-|[]]; lia|left; reflexivity]]).
  destruct (nyquist_some (4, 3, 6)%nat (3, 2, 5) [0]%nat HA) as [K HK].
  destruct (C315_slices (4, 3, 6)%nat (3, 2, 5) [0]%nat None 0 K (fun _ => 0) None) as (r & n & E & _); [cbn; lia|repeat split; lra|exact HA|right; reflexivity|discriminate|exact HK| |rewrite E; reflexivity].
  assert (WP : 0 < width (3, 2, 5) None) by (apply width_pos; [repeat split; lra|discriminate]). destruct HK as (a & b & [<-|[]] & [<-|[]] & _ & ->). cbn [component extent nth].
  assert (P := PI_RGT_0). assert (0 < PI * INR 4 / 3) by (apply Rdiv_lt_0_compat; [apply Rmult_lt_0_compat; [exact P|apply lt_0_INR; lia]|lra]). lra.
Qed.
Print Assumptions C319_one_axis_refuted.

(* C320: a bin that holds the zero mode is the mean over all of its modes, the zero mode with power 0 *)
Definition spike (x : mode) : R := if eqm x (0, 0, 0)%nat then 1 else 0.
Lemma spike_power N L m : mesh_size N -> positive3 L -> m <> (0, 0, 0)%nat -> 0 < fst (power N L spike spike m).
Proof.
  intros HN HP M. assert (C := ncell_pos N HN). rewrite power_raw. destruct (is_zero m) eqn:E; [apply is_zero_iff in E; contradiction|].
  assert (VP : 0 < vol L) by (destruct L as [[x y] z]; destruct HP as (X & Y & Z); unfold vol; repeat apply Rmult_lt_0_compat; assumption).
  assert (R1 : fst (r2c N spike m) = / ncell N).
  { unfold r2c. cbn [fst]. rewrite (rsum_ext' _ (fun x => if eqm x (0, 0, 0)%nat then cos (angle N m x) else 0)) by (intros x _; unfold spike; destruct (eqm x _); ring).
    rewrite (pick N (fun x => cos (angle N m x)) (0, 0, 0)%nat (zero_is N HN)). rewrite angle_sym, angle_zero, cos_0. ring. }
  unfold raw, cscale, cmul, conj. cbn [fst snd]. rewrite R1. assert (I := Rinv_0_lt_compat _ C). apply Rmult_lt_0_compat; [exact VP|]. set (t := snd (r2c N spike m)). nra.
Qed.
Theorem C320_zero_mode_refuted : exists N L axes dk f r b p l,
  mesh_size N /\ positive3 L /\ some_axes axes /\ even_last N axes /\ 0 < dk /\
  ProjectedFFTPower N L (Sequence axes) (Some dk) 0 f None = Ok r /\ nth_error (bins r) 0 = Some b /\ b_power b = Some p /\
  NoDup l /\ (forall m, In m l <-> (is_mode N m /\ flat axes m /\ 0 <= size3 (kvec N L m) < dk) /\ m <> (0, 0, 0)%nat) /\
  mean_of (fun m => fst (power N L f f m) / depth L axes) l <> Some (fst p).
Proof.
  set (N := (4, 1, 1)%nat). set (L := (1, 1, 1)). assert (HA : some_axes [0]%nat) by (split; [constructor; [intros []|constructor]|split; [intros a [<-|[]]; lia|left; reflexivity]]).
  assert (HN : mesh_size N) by (cbn; lia). assert (HP : positive3 L) by (repeat split; lra). assert (P := PI_RGT_0).
  assert (HE : even_last N [0]%nat) by (right; reflexivity).
  assert (HK : nyquist N L [0]%nat (4 * PI)). { exists 0%nat, 0%nat. split; [left; reflexivity|]. split; [left; reflexivity|]. split; [intros c [<-|[]]; cbn [component extent nth]; split; lia || lra|]. cbn [component extent nth N L]. rewrite INR_IZR_INZ. cbn [Z.of_nat Pos.of_succ_nat Pos.succ]. field. }
  destruct (C315_slices N L [0]%nat (Some (4 * PI)) 0 (4 * PI) spike None HN HP HA HE) as (r & n & E & Ee & Eb & Hn & _ & HB).
  { intros d Hd. assert (4 * PI = d) by congruence. lra. }
  { exact HK. }
  { cbn [width]. lra. }
  cbn [width] in Hn, HB. assert (n1 : (0 < n)%nat).
  { destruct n; [|lia]. exfalso. change (INR 1) with 1 in Hn. lra. }
  destruct (HB 0%nat n1) as (l & b & S1 & S2 & _ & _ & S5). change (INR 0) with 0 in S1. change (INR 1) with 1 in S1. replace (0 + 0 * (4 * PI)) with 0 in S1 by ring. replace (0 + 1 * (4 * PI)) with (4 * PI) in S1 by ring.
  assert (IN0 : In (0, 0, 0)%nat l).
  { apply (proj2 S1). split; [apply zero_is; exact HN|]. split; [intros a A _; destruct a as [|[|[|a]]]; reflexivity || lia|]. rewrite size3_k2. unfold k2, kvec, norm2, N, L, kaxis, freq. cbn [Nat.mul Nat.add Nat.ltb Nat.leb Z.of_nat].
    replace (2 * PI * 0 / 1 * (2 * PI * 0 / 1) + 2 * PI * 0 / 1 * (2 * PI * 0 / 1) + 2 * PI * 0 / 1 * (2 * PI * 0 / 1)) with 0 by field. rewrite sqrt_0. lra. }
  assert (IN1 : In (1, 0, 0)%nat l).
  { apply (proj2 S1). split; [cbn; lia|]. split; [intros a A Hn1; destruct a as [|[|[|a]]]; try reflexivity; try lia; exfalso; apply Hn1; left; reflexivity|]. rewrite size3_k2. unfold k2, kvec, norm2, N, L, kaxis, freq. cbn [Nat.mul Nat.add Nat.ltb Nat.leb Z.of_nat Pos.of_succ_nat].
    replace (2 * PI * 1 / 1 * (2 * PI * 1 / 1) + 2 * PI * 0 / 1 * (2 * PI * 0 / 1) + 2 * PI * 0 / 1 * (2 * PI * 0 / 1)) with ((2 * PI) * (2 * PI)) by field. rewrite sqrt_square by lra. lra. }
  destruct (b_power b) as [p|] eqn:EP; [|subst l; destruct IN0]. destruct S5 as [S5 _].
  destruct (in_split _ _ IN0) as (u & v & EL). set (k := u ++ v).
  assert (PM : Permutation l ((0, 0, 0)%nat :: k)) by (rewrite EL; apply Permutation_sym, Permutation_middle).
  assert (NK : NoDup ((0, 0, 0)%nat :: k)) by (apply (Permutation_NoDup PM), S1). apply NoDup_cons_iff in NK. destruct NK as [N0 NK].
  exists N, L, [0]%nat, (4 * PI), spike, r, b, p, k. split; [exact HN|]. split; [exact HP|]. split; [exact HA|]. split; [exact HE|]. split; [lra|]. split; [exact E|]. split; [exact S2|]. split; [exact EP|]. split; [exact NK|]. split.
  - intros m. rewrite <- (proj2 S1). split.
    + intros M. split; [apply (Permutation_in _ (Permutation_sym PM)); right; exact M|]. intros ->. exact (N0 M).
    + intros [M M0]. apply (Permutation_in _ PM) in M. destruct M as [M|M]; [congruence|exact M].
  - intros F. apply mean_of_sum in F. apply mean_of_sum in S5. rewrite (Permutation_length PM), (rsum_perm _ _ (Permutation_map _ PM)) in S5. cbn [length] in S5. rewrite S_INR in S5.
    unfold rsum at 1 in S5. cbn [map fold_right] in S5. fold (rsum (map (fun m => fst (power N L spike spike m) / depth L [0]%nat) k)) in S5. rewrite <- F in S5.
    assert (Z0 : fst (power N L spike spike (0, 0, 0)%nat) = 0) by (rewrite power_raw; reflexivity). rewrite Z0 in S5. assert (P0 : fst p = 0) by lra.
    rewrite P0, Rmult_0_r in F. assert (IK : In (1, 0, 0)%nat k) by (apply (Permutation_in _ PM) in IN1; destruct IN1 as [IN1|IN1]; [discriminate IN1|exact IN1]).
    destruct (in_split _ _ IK) as (u' & v' & EK). rewrite EK in F. rewrite (rsum_perm _ _ (Permutation_map _ (Permutation_sym (Permutation_middle u' v' (1, 0, 0)%nat)))) in F. cbn [map] in F. unfold rsum in F. cbn [fold_right] in F. fold (rsum (map (fun m => fst (power N L spike spike m) / depth L [0]%nat) (u' ++ v'))) in F.
    assert (D := depth_pos L [0]%nat HP HA). assert (Q1 : 0 < fst (power N L spike spike (1, 0, 0)%nat) / depth L [0]%nat) by (apply Rdiv_lt_0_compat; [apply spike_power; [exact HN|exact HP|discriminate]|exact D]).
    assert (Q2 : 0 <= rsum (map (fun m => fst (power N L spike spike m) / depth L [0]%nat) (u' ++ v'))) by (apply rsum_nonneg'; intros m _; apply Rmult_le_pos; [apply auto_real; exact HP|apply Rlt_le, Rinv_0_lt_compat, D]).
    lra.
Qed.
Print Assumptions C320_zero_mode_refuted.

(* C321: objects placed at random have on average the shot noise of the catalog divided by the depth, in all bins without the
   zero mode *)
Definition reading (x : res result) (i : nat) : option R :=
  match x with Ok r => match nth_error (bins r) i with Some b => option_map fst (b_power b) | None => None end | Err _ => None end.
Theorem C321_shot_noise : forall N L kern kern2 volume compose throttle chunk (l : list rank) (r : list mode -> PaintModel.result) axes dk kmin K i k,
  mesh_size N -> window N (number N) nearest kern -> real_of volume = box_volume L -> Forall complete l -> (1 <= chunk)%Z ->
  (forall xs, In xs (placements N (count l)) ->
     PaintModel.to_real_field mode kern kern2 (ShnModel.size N) volume compose (throttle xs) chunk false true None (placed l xs) = Ok (r xs) /\ (0 < PaintModel.aW (r xs))%Qc) ->
  positive3 L -> some_axes axes -> even_last N axes -> (forall d, dk = Some d -> 0 < d) -> nyquist N L axes K ->
  0 < kmin -> kmin + INR (S i) * width L dk < K + width L dk / 2 ->
  shell N L axes (kmin + INR i * width L dk) (kmin + INR (S i) * width L dk) k -> k <> [] ->
  exists s, (forall xs, In xs (placements N (count l)) -> snd (catalog_power N L (r xs) None) = Some s) /\
  exists q, (forall xs, In xs (placements N (count l)) -> reading (ProjectedFFTPower N L (Sequence axes) dk kmin (read N (r xs)) None) i = Some (q xs)) /\
    mean q (placements N (count l)) = real_of s / depth L axes.
Proof.
  intros N L kern kern2 volume compose throttle chunk l r axes dk kmin K i k HN HW HV HC HT HR HP HA HE HD HK H0 HI HS HNE.
  destruct (C309_nearest N L kern kern2 volume compose throttle chunk l r HN HW HV HC HT HR) as (s & S1 & S2). exists s. split; [exact S1|].
  set (P := fun xs m => fst (power N L (read N (r xs)) (read N (r xs)) m) / depth L axes).
  assert (WP := width_pos L dk HP HD). assert (D := depth_pos L axes HP HA).
  assert (LK : 0 < INR (length k)) by (apply lt_0_INR; destruct k; [congruence|cbn [length]; lia]).
  exists (fun xs => rsum (map (P xs) k) / INR (length k)). split.
  - intros xs X. assert (HL : kmin < K + width L dk / 2). { assert (PI1 := pos_INR (S i)). assert (0 <= INR (S i) * width L dk) by (apply Rmult_le_pos; lra). lra. }
    destruct (C315_slices N L axes dk kmin K (read N (r xs)) None HN HP HA HE HD HK HL) as (q & n & Eq & _ & _ & Hn & _ & HB).
    assert (In1 : (i < n)%nat). { assert (A : INR (S i) < INR (S n)) by (apply (Rmult_lt_reg_r (width L dk)); lra). apply INR_lt in A. lia. }
    destruct (HB i In1) as (k' & b & B1 & B2 & _ & _ & B5). assert (PM := shell_perm _ _ _ _ _ _ _ B1 HS). unfold reading. rewrite Eq, B2.
    destruct (b_power b) as [p|]; [|subst k'; apply Permutation_nil in PM; congruence]. destruct B5 as [B5 _]. cbn [option_map]. rewrite (mean_of_perm _ _ _ PM) in B5. fold (P xs) in B5.
    rewrite <- B5. rewrite mean_ratio. unfold ceq0. destruct (Req_EM_T (INR (length k)) 0) as [Z0|_]; [lra|reflexivity].
  - unfold mean. set (pl := placements N (count l)) in *.
    rewrite (rsum_ext' _ (fun xs => rsum (map (P xs) k) * / INR (length k))) by reflexivity. rewrite rsum_scr, rsum_swap.
    assert (LP : INR (length pl) <> 0).
    { intros Z0. assert (HK1 : exists m, In m k) by (destruct k as [|m k']; [congruence|exists m; left; reflexivity]). 
      assert (pl <> []).
      { unfold pl. clear - HN. induction (count l) as [|c IH]; cbn [placements]; [discriminate|]. assert (Z1 := proj2 (in_cells N (0, 0, 0)%nat) (zero_is N HN)). destruct (cells N) as [|x cl]; [destruct Z1|]. cbn [flat_map]. destruct (placements N c) as [|y t]; [congruence|]. discriminate. }
      destruct pl; [congruence|]. cbn [length] in Z0. assert (PI1 := pos_INR (length pl)). rewrite S_INR in Z0. lra. }
    rewrite (rsum_ext' _ (fun _ => INR (length pl) * (real_of s / depth L axes))).
    + rewrite sum_const. field. split; [lra|split; assumption || lra].
    + intros m M. apply (proj2 HS) in M. destruct M as (MM & MF & MK). assert (M0 : m <> (0, 0, 0)%nat).
      { intros ->. assert (T : size3 (kvec N L (0, 0, 0)%nat) = 0). { rewrite size3_k2. replace (k2 N L (0, 0, 0)%nat) with 0; [apply sqrt_0|]. destruct N as [[n0 n1] n2], L as [[x y] z]. destruct HP as (X & Y & Z). destruct HN as (A & B & C). unfold k2, kvec, norm2.
          unfold kaxis, freq. replace (2 * 0 <? n0)%nat with true by (symmetry; apply Nat.ltb_lt; lia). replace (2 * 0 <? n1)%nat with true by (symmetry; apply Nat.ltb_lt; lia). replace (2 * 0 <? n2)%nat with true by (symmetry; apply Nat.ltb_lt; lia). cbn [Z.of_nat]. unfold Rdiv. ring. }
        rewrite T in MK. assert (0 <= INR i * width L dk) by (apply Rmult_le_pos; [apply pos_INR|lra]). lra. }
      specialize (S2 m MM M0). unfold mean in S2. fold pl in S2. unfold catalog_power in S2. cbn [fst] in S2.
      unfold P. rewrite (rsum_ext' _ (fun xs => fst (power N L (read N (r xs)) (read N (r xs)) m) * / depth L axes)) by reflexivity. rewrite rsum_scr.
      rewrite <- S2. field. split; [exact LP|lra].
Qed.
Print Assumptions C321_shot_noise.
(* the catalog of C309 along the first axis: a bin with the mode (1, 0, 0) *)
Example C321_case : exists q, (forall xs, In xs (placements (2, 1, 3)%nat (count sky_ranks)) -> reading (ProjectedFFTPower (2, 1, 3)%nat (2, 1, 3) (Sequence [0]%nat) (Some (3 * PI / 4)) (PI / 2) (read (2, 1, 3)%nat (sky_result xs)) None) 0 = Some (q xs)) /\
  mean q (placements (2, 1, 3)%nat (count sky_ranks)) = 10 / 9.
Proof.
  assert (P : positive3 (2, 1, 3)) by (repeat split; lra). assert (Q := PI_RGT_0). destruct C309_case as (HN & HV & HL & _ & _ & s' & Hs & Es).
  assert (HA : some_axes [0]%nat) by (split; [constructor; [intros []|constructor]|split; [intros a [<-|[]]; lia|left; reflexivity]]).
  destruct (C321_shot_noise (2, 1, 3)%nat (2, 1, 3) (kern_of (2, 1, 3)%nat nearest) (kern_of (2, 1, 3)%nat nearest) (zq 6) PaintModel.fadd (fun _ a => (a =? 0)%nat) 2 sky_ranks sky_result [0]%nat (Some (3 * PI / 4)) (PI / 2) PI 0 [(1, 0, 0)%nat] HN (C309_window _ nearest) HV HL ltac:(lia) sky_ok P HA) as (s & H & q & E & M).
  - right. reflexivity.
  - intros d D. assert (3 * PI / 4 = d) by congruence. lra.
  - exists 0%nat, 0%nat. split; [left; reflexivity|]. split; [left; reflexivity|]. split; [intros c [<-|[]]; cbn [component extent nth]; split; lia || lra|]. cbn [component extent nth]. rewrite INR_IZR_INZ. cbn [Z.of_nat Pos.of_succ_nat Pos.succ]. field.
  - lra.
  - cbn [width]. change (INR 1) with 1. lra.
  - cbn [width]. change (INR 1) with 1. change (INR 0) with 0. split; [constructor; [intros []|constructor]|]. intros [[i j] k]. split.
    + intros [X|[]]. injection X as <- <- <-. split; [cbn; lia|]. split; [intros a A N; destruct a as [|[|[|a]]]; try reflexivity; try lia; exfalso; apply N; left; reflexivity|].
      rewrite size3_k2. unfold k2, kvec, norm2, kaxis, freq. cbn [Nat.mul Nat.add Nat.ltb Nat.leb Z.of_nat Pos.of_succ_nat Pos.succ]. change (1 - 2)%Z with (-1)%Z.
      replace (2 * PI * -1 / 2 * (2 * PI * -1 / 2) + 2 * PI * 0 / 1 * (2 * PI * 0 / 1) + 2 * PI * 0 / 3 * (2 * PI * 0 / 3)) with (PI * PI) by field. rewrite sqrt_square by lra. lra.
    + intros ((A & B & C) & F & K). assert (j = 0%nat) by lia. assert (k = 0%nat). { apply (F 2%nat); [lia|]. intros [X|[]]. discriminate X. } subst j k. destruct i as [|[|i]]; [|left; reflexivity|lia].
      exfalso. rewrite size3_k2 in K. unfold k2, kvec, norm2, kaxis, freq in K. cbn [Nat.mul Nat.add Nat.ltb Nat.leb Z.of_nat] in K.
      replace (2 * PI * 0 / 2 * (2 * PI * 0 / 2) + 2 * PI * 0 / 1 * (2 * PI * 0 / 1) + 2 * PI * 0 / 3 * (2 * PI * 0 / 3)) with 0 in K by field. rewrite sqrt_0 in K. lra.
  - discriminate.
  - exists q. split; [exact E|]. rewrite M. assert (s = s').
    { assert (X : In (repeat (0, 0, 0)%nat 3) (placements (2, 1, 3)%nat (count sky_ranks))) by (apply placements_in; split; [reflexivity|repeat constructor]). assert (A := H _ X). assert (B := Hs _ X). unfold catalog_power in A. cbn [snd reported] in A. congruence. }
    subst s'. rewrite Es. cbn. lra.
Qed.
