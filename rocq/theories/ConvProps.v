(* Theorems about the multipoles of ConvolvedFFTPower. *)
From Verif Require Import Base.
From Coq Require Import Reals Lra Lia Permutation Sorted.
From Verif Require Import RandModel RandProofs ThreeModel ThreeSpec ThreeProofs YlmModel ConvModel ConvSpec ConvProofs ConvMain ConvPkmu ConvExamples.
Local Open Scope R_scope.

(* Every multipole is the mean over the modes of the shell of A0 times the conjugate of the transform of
   (2 l + 1) P_l(k . x) F; the modes are counted, with the ones that a compressed field leaves out. *)
Theorem C154_multipoles : forall (X K : Type) (grid : list X) xc e (modes : list K) kc compressed center cell volume norm comp1 comp2 F1 F2 poles kedges,
  poles <> [] -> NoDup poles -> kedges <> [] -> StronglySorted Rle kedges -> Forall (fun v => 0 <= v) kedges ->
  (forall x, In x grid -> length3 (position xc center cell x) <> 0) ->
  (compressed = true -> (forall x, snd (F1 x) = 0) /\ (forall x, snd (F2 x) = 0)) ->
  let shells := shell modes kc compressed kedges in
  exists out, compute grid xc e modes kc compressed center cell volume norm comp1 comp2 F1 F2 (map Z.of_nat poles) kedges = Ok out /\
  Permutation (map fst (m_power out)) (map Z.of_nat poles) /\
  m_modes out = map (fun b => INR (length (shells b))) (seq 0 (length kedges - 1)) /\
  m_k out = map (fun b => rmean (map (fun m => length3 (wave kc m)) (shells b))) (seq 0 (length kedges - 1)) /\
  forall l col, In (Z.of_nat l, col) (m_power out) -> length col = (length kedges - 1)%nat /\
    forall b, (b < length kedges - 1)%nat -> (compressed = true -> Nat.even l = true) -> (l = O \/ forall m, In m (shells b) -> length3 (wave kc m) <> 0) ->
      nth_error col b = Some (cmean (map (estimate grid xc e kc center cell volume norm comp1 comp2 F1 F2 l) (shells b))).
Proof. intros. cbn zeta. apply compute_ok; assumption. Qed.
Print Assumptions C154_multipoles.

(* two cells, three modes, multipoles 0, 1 and 4 *)
Example C154_multipoles_ex : exists out col,
  compute [0; 1]%nat ex_xc ex_e [0; 1; 2]%nat ex_kc false (0, 3, 0) (1, 1, 1) 8 (1 / 2) (fun _ => 1) (fun _ => 2) ex_F ex_F (map Z.of_nat [4; 0; 1]%nat) ex_edges = Ok out /\
  In (4%Z, col) (m_power out) /\
  nth_error (m_modes out) 1 = Some 2 /\ nth_error (m_k out) 1 = Some (Some (3 / 2)) /\
  nth_error col 1 = Some (cmean (map (estimate [0; 1]%nat ex_xc ex_e ex_kc (0, 3, 0) (1, 1, 1) 8 (1 / 2) (fun _ => 1) (fun _ => 2) ex_F ex_F 4) [(false, 1%nat); (false, 2%nat)])).
Proof.
  destruct (length_axis (3 / 2) ltac:(lra)) as (LB & _ & LC).
  destruct (C154_multipoles nat nat [0; 1]%nat ex_xc ex_e [0; 1; 2]%nat ex_kc false (0, 3, 0) (1, 1, 1) 8 (1 / 2) (fun _ => 1) (fun _ => 2) ex_F ex_F [4; 0; 1]%nat ex_edges) as (out & E & P & M & KM & H).
  - discriminate.
  - repeat constructor; cbn; intuition discriminate.
  - discriminate.
  - exact ex_sorted.
  - exact ex_pos.
  - intros x _. apply Rgt_not_eq. unfold length3, position, ex_xc, dot3. apply sqrt_lt_R0. pose proof (pos_INR x). nra.
  - discriminate.
  - assert (I4 : In 4%Z (map fst (m_power out))) by (apply (Permutation_in _ (Permutation_sym P)); left; reflexivity).
    apply in_map_iff in I4. destruct I4 as ([z col] & E4 & I4). cbn [fst] in E4. subst z.
    exists out, col. split; [exact E|]. split; [exact I4|]. rewrite <- ex_shell1.
    destruct (H 4%nat col I4) as [_ H4].
    split; [rewrite M; cbn [ex_edges length Nat.sub seq map nth_error]; fold ex_edges; rewrite ex_shell1; cbn [length INR]; f_equal; ring|].
    split; [rewrite KM; cbn [ex_edges length Nat.sub seq map nth_error]; fold ex_edges; rewrite ex_shell1; cbn [map]; unfold wave; cbn [fst snd ex_kc]; rewrite LB, LC; cbn [rmean rsum length INR]; f_equal; f_equal; field|].
    apply H4; [cbn; lia|discriminate|]. right. rewrite ex_shell1. intros m [<-|[<-|[]]]; unfold wave; cbn [fst snd ex_kc]; [rewrite LB|rewrite LC]; lra.
Qed.

(* For odd multipoles of real (compressed) meshes the modes left out count with the wrong sign. *)
Theorem C155_odd_compressed_refuted : exists (grid : list unit) xc e (modes : list unit) kc center cell volume norm comp1 comp2 F1 F2 l kedges out col v,
  kedges <> [] /\ StronglySorted Rle kedges /\ Forall (fun v => 0 <= v) kedges /\ (forall x, In x grid -> length3 (position xc center cell x) <> 0) /\
  (forall x, snd (F1 x) = 0) /\ (forall x, snd (F2 x) = 0) /\
  (forall m, In m (shell modes kc true kedges 0) -> length3 (wave kc m) <> 0) /\
  compute grid xc e modes kc true center cell volume norm comp1 comp2 F1 F2 [Z.of_nat l] kedges = Ok out /\ In (Z.of_nat l, col) (m_power out) /\
  nth_error col 0 = Some (Some v) /\ cmean (map (estimate grid xc e kc center cell volume norm comp1 comp2 F1 F2 l) (shell modes kc true kedges 0)) <> Some v.
Proof.
  destruct (length_axis 1 ltac:(lra)) as (_ & L1 & _). destruct (single_bin (0, 0, 1) true 1 ltac:(lia) ltac:(lra)) as (out & col & n & E & M & N & W & C).
  assert (Q : weighted (fun _ => (0, 0, 1)) true (power3d one_grid one_e 1 1 one_c one_F (Aell one_grid one_xc one_e (fun _ => (0, 0, 1)) (0, 0, 1) (0, 0, 0) 1 one_c one_F 1)) tt = (fst (estimate one_grid one_xc one_e (fun _ => (0, 0, 1)) (0, 0, 1) (0, 0, 0) 1 1 one_c one_c one_F one_F 1 (false, tt)) * 2, 0)).
  { unfold weighted, nonsingular. cbn [snd]. rewrite (rltb_yes 0 1) by lra. cbn [andb]. rewrite <- (power_estimate one_grid one_xc one_e (fun _ => (0, 0, 1)) (0, 0, 1) (0, 0, 0) 1 1 one_c one_c one_F one_F (Aell one_grid one_xc one_e (fun _ => (0, 0, 1)) (0, 0, 1) (0, 0, 0) 1 one_c one_F 1)); [reflexivity|].
    apply (aell_ok one_grid one_xc one_e (fun _ => (0, 0, 1)) (0, 0, 1) (0, 0, 0) 1 one_c one_F 1 tt); [intros x _; rewrite one_position|]; unfold norm2; lra. }
  assert (EST : forall s, estimate one_grid one_xc one_e (fun _ => (0, 0, 1)) (0, 0, 1) (0, 0, 0) 1 1 one_c one_c one_F one_F 1 (s, tt) = (if s then -3 else 3, 0)).
  { assert (CO : cosine (0, 0, 1) (0, 0, 1) = 1) by (unfold cosine; rewrite L1; unfold dot3; field).
    intros s. unfold estimate, transform, phase, wave, one_grid, one_e, one_F, one_c. cbn [map rsum fst snd]. destruct s; cbn [fst snd]; rewrite one_position; rewrite ?cosine_opp, CO; unfold rlegendre; cbn [rleg2 fst INR Nat.mul Nat.add]; f_equal; ring. }
  rewrite Q in C. rewrite EST in C. cbn [fst snd] in C. assert (n = 2) by (rewrite W; unfold weight, nonsingular; cbn [snd]; rewrite (rltb_yes 0 1) by lra; reflexivity). subst n. rewrite H in C.
  assert (SH : shell [tt] (fun _ => (0, 0, 1)) true [0; 2] 0 = [(false, tt); (true, tt)]).
  { unfold shell, all_modes. cbn [flat_map snd]. rewrite (rltb_yes 0 1) by lra. cbn [andb app]. unfold filter, wave. cbn [fst snd nth]. rewrite length3_opp, L1, (rleb_yes 0 1), (rltb_yes 1 2) by lra. reflexivity. }
  destruct edges02 as [E1 E2].
  exists one_grid, one_xc, one_e, [tt], (fun _ => (0, 0, 1)), (0, 0, 1), (0, 0, 0), 1, 1, one_c, one_c, one_F, one_F, 1%nat, [0; 2], out, col, (3 * 2 / 2, 0 / 2).
  split; [discriminate|]. split; [exact E1|]. split; [exact E2|]. split; [intros x _; rewrite one_position, L1; lra|]. split; [reflexivity|]. split; [reflexivity|].
  split; [rewrite SH; intros m [<-|[<-|[]]]; unfold wave; cbn [fst snd]; rewrite ?length3_opp, L1; lra|].
  split; [exact E|]. split; [rewrite M; left; reflexivity|]. split; [rewrite C; reflexivity|].
  rewrite SH. cbn [map]. rewrite !EST. unfold cmean. cbn [map rsum fst snd length INR]. intros Z. injection Z as Z _. lra.
Qed.
Print Assumptions C155_odd_compressed_refuted.

(* The zero mode, which has no direction, contributes to multipoles above the monopole. *)
Theorem C156_zero_mode_refuted : exists (grid : list unit) xc e (modes : list unit) kc center cell volume norm comp1 comp2 F1 F2 l kedges out col v,
  StronglySorted Rle kedges /\ Forall (fun v => 0 <= v) kedges /\ (forall x, In x grid -> length3 (position xc center cell x) <> 0) /\
  l <> O /\ (forall m, In m (shell modes kc false kedges 0) -> length3 (wave kc m) = 0) /\
  compute grid xc e modes kc false center cell volume norm comp1 comp2 F1 F2 [Z.of_nat l] kedges = Ok out /\ In (Z.of_nat l, col) (m_power out) /\
  nth_error col 0 = Some (Some v) /\ v <> (0, 0).
Proof.
  destruct (length_axis 0 ltac:(lra)) as (L0 & _). destruct (length_axis 1 ltac:(lra)) as (_ & L1 & _). destruct edges02 as [E1 E2].
  destruct (single_bin (0, 0, 0) false 2 ltac:(lia) ltac:(lra)) as (out & col & n & E & M & N & W & C).
  unfold weighted, power3d in C. cbn [andb] in C. rewrite zero_mode_A2 in C. cbn [weight andb] in W.
  exists one_grid, one_xc, one_e, [tt], (fun _ => (0, 0, 0)), (0, 0, 1), (0, 0, 0), 1, 1, one_c, one_c, one_F, one_F, 2%nat, [0; 2], out, col. eexists.
  split; [exact E1|]. split; [exact E2|]. split; [intros x _; rewrite one_position, L1; lra|]. split; [discriminate|].
  split; [intros [s k] _; unfold wave; cbn [fst snd]; destruct s; rewrite ?length3_opp; exact L0|].
  split; [exact E|]. split; [rewrite M; left; reflexivity|]. split; [rewrite C; reflexivity|].
  rewrite W. unfold A0, r2c, cscale, cmul, conj, csum, one_grid, one_e, one_F, one_c, weight. cbn [map rsum fst snd andb]. intros Z. injection Z as Z _. lra.
Qed.
Print Assumptions C156_zero_mode_refuted.

(* A negative multipole number is accepted and its power is zero everywhere. *)
Theorem C157_negative_refuted : exists (grid : list unit) xc e (modes : list unit) kc center cell volume norm comp1 comp2 F1 F2 l kedges out v,
  (l < 0)%Z /\ compute grid xc e modes kc false center cell volume norm comp1 comp2 F1 F2 [l] kedges = Ok out /\ m_power out = [(l, [Some v])] /\ v = (0, 0).
Proof.
  destruct (length_axis 1 ltac:(lra)) as (_ & L1 & _). destruct (single_bin (0, 0, 1) false (-2) ltac:(lia) ltac:(lra)) as (out & col & n & E & M & N & W & C).
  exists one_grid, one_xc, one_e, [tt], (fun _ => (0, 0, 1)), (0, 0, 1), (0, 0, 0), 1, 1, one_c, one_c, one_F, one_F, (-2)%Z, [0; 2], out. eexists.
  split; [lia|]. split; [exact E|]. split; [rewrite M, C; reflexivity|].
  assert (A : Aell one_grid one_xc one_e (fun _ => (0, 0, 1)) (0, 0, 1) (0, 0, 0) 1 one_c one_F (-2) tt = (0, 0)) by (unfold Aell, range_m; change (Z.to_nat (2 * -2 + 1)) with O; cbn [seq map]; unfold csum, cscale; cbn [map rsum fst snd]; f_equal; ring).
  unfold weighted, power3d. cbn [andb]. rewrite A. unfold cscale, cmul, conj. cbn [fst snd]. f_equal; field; exact N.
Qed.
Print Assumptions C157_negative_refuted.

(* The wedges of to_pkmu are the means over mu of the series of even multipoles. *)
Theorem C158_wedges : forall nk poles P mu_edges max_ell,
  NoDup (map fst poles) -> (forall l, Nat.even l = true -> (l <= max_ell)%nat -> In (l, P l) poles) ->
  (forall j a b, nth_error mu_edges j = Some a -> nth_error mu_edges (S j) = Some b -> a <> b) ->
  exists out, to_pkmu nk poles mu_edges max_ell = Ok out /\ length out = nk /\
  forall i j a b, (i < nk)%nat -> nth_error mu_edges j = Some a -> nth_error mu_edges (S j) = Some b ->
  exists w v, nth_error out i = Some w /\ length w = (length mu_edges - 1)%nat /\ nth_error w j = Some v /\
    mean_over (series max_ell (fun l => fst (P l i))) a b (fst v) /\ mean_over (series max_ell (fun l => snd (P l i))) a b (snd v).
Proof. exact to_pkmu_mean. Qed.
Print Assumptions C158_wedges.
(* Wedges that cover mu from 0 (or -1) to 1 give back the monopole. *)
Theorem C158_monopole : forall nk poles P mu_edges max_ell,
  NoDup (map fst poles) -> (forall l, Nat.even l = true -> (l <= max_ell)%nat -> In (l, P l) poles) ->
  (forall j a b, nth_error mu_edges j = Some a -> nth_error mu_edges (S j) = Some b -> a <> b) ->
  mu_edges <> [] -> (hd 0 mu_edges = 0 \/ hd 0 mu_edges = -1) -> last mu_edges 0 = 1 ->
  exists out, to_pkmu nk poles mu_edges max_ell = Ok out /\ length out = nk /\ forall i w, nth_error out i = Some w ->
    widths_sum mu_edges (map fst w) = (1 - hd 0 mu_edges) * fst (P O i) /\ widths_sum mu_edges (map snd w) = (1 - hd 0 mu_edges) * snd (P O i).
Proof. exact pkmu_total. Qed.
Print Assumptions C158_monopole.
(* A missing even multipole is refused. *)
Theorem C158_missing : forall nk poles mu_edges max_ell l, Nat.even l = true -> (l <= max_ell)%nat -> ~ In l (map fst poles) ->
  to_pkmu nk poles mu_edges max_ell = Err ValueError.
Proof.
  intros nk poles mu_edges max_ell l EV L N. unfold to_pkmu. rewrite ells_even. replace (existsb _ (even_ells max_ell)) with true; [reflexivity|]. symmetry. apply existsb_exists. exists l.
  split; [apply filter_In; split; [apply in_seq; lia|exact EV]|]. destruct (lookup l poles) eqn:E; [|reflexivity]. exfalso. apply N. unfold lookup in E. destruct (find (fun p => Nat.eqb (fst p) l) poles) as [[k f]|] eqn:F; [|discriminate].
  apply find_some in F. destruct F as [I Q]. cbn [fst] in Q. apply Nat.eqb_eq in Q. subst k. apply in_map_iff. exists (l, f). split; [reflexivity|exact I].
Qed.
Print Assumptions C158_missing.

(* two k bins, multipoles 0, 2, 4 in another order and an unused 1; three wedges *)
Definition ex_P (l i : nat) : comp := match l with O => (10 + INR i, 1) | 2%nat => (4, 2) | 4%nat => (-1, INR i) | _ => (0, 0) end.
Definition ex_poles : list (nat * (nat -> comp)) := [(4%nat, ex_P 4); (1%nat, fun _ => (7, 7)); (0%nat, ex_P 0); (2%nat, ex_P 2)].
Example C158_wedges_ex : exists out w, to_pkmu 2 ex_poles [0; 1/4; 1/2; 1] 4 = Ok out /\ nth_error out 1 = Some w /\ length w = 3%nat /\
  widths_sum [0; 1/4; 1/2; 1] (map fst w) = 11.
Proof.
  assert (ND : NoDup (map fst ex_poles)) by (cbn; repeat constructor; cbn; intuition discriminate).
  assert (HP : forall l, Nat.even l = true -> (l <= 4)%nat -> In (l, ex_P l) ex_poles) by (intros l E L; destruct l as [|[|[|[|[|l]]]]]; try discriminate; try lia; cbn; auto).
  assert (HM : forall j a b, nth_error [0; 1/4; 1/2; 1] j = Some a -> nth_error [0; 1/4; 1/2; 1] (S j) = Some b -> a <> b) by (intros [|[|[|[|j]]]] a b A B; cbn in A, B; try discriminate; try (destruct j; discriminate); injection A as <-; injection B as <-; lra).
  destruct (C158_wedges 2 ex_poles ex_P [0; 1/4; 1/2; 1] 4 ND HP HM) as (out & E & _ & H). destruct (H 1%nat O 0 (1/4) ltac:(lia) eq_refl eq_refl) as (w & v & W & LW & _).
  destruct (C158_monopole 2 ex_poles ex_P [0; 1/4; 1/2; 1] 4 ND HP HM ltac:(discriminate) (or_introl eq_refl) eq_refl) as (out' & E' & _ & T). rewrite E in E'. injection E' as <-.
  exists out, w. split; [exact E|]. split; [exact W|]. split; [exact LW|]. destruct (T 1%nat w W) as [T1 _]. rewrite T1. cbn [hd ex_P fst INR]. ring.
Qed.
Example C158_missing_ex : to_pkmu 2 [(0%nat, ex_P 0); (4%nat, ex_P 4)] [0; 1/2; 1] 4 = Err ValueError.
Proof. apply (C158_missing 2 _ _ 4 2); [reflexivity|lia|cbn; lia]. Qed.
