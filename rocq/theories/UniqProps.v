(* Properties C261-C266: the bins in wave number of FFTPower. *)
From Coq Require Import Reals List Bool Lia Lra Sorting.Sorted.
From Verif Require Import Base UniqModel UniqProofs UniqMain.
Import ListNotations.
Local Open Scope R_scope.

(* The mesh of a cubic box of length l; the modes of every rank are given by the sums of squares n of
   their integer wave numbers; their modulus is 2 pi sqrt(n) / l. *)
Definition wave (l : R) (n : Z) : R := 2 * PI / l * sqrt (IZR n).
Definition squares_of (l : R) (ranks : list (list Z)) : list (list R) := map (map (fun n => (2 * PI / l) ^ 2 * IZR n)) ranks.
Definition cutoff (N : list R) (l : R) (kmax : option R) : R := match kmax with Some k => k | None => PI * rmin N / l end.
Lemma cubic_edges N l ranks kmin kmax : 0 < l -> k_edges N [l; l; l] (squares_of l ranks) (Some 0) kmin kmax =
  rbind (find_unique_edges (squares_of l ranks) [2 * PI / l; 2 * PI / l; 2 * PI / l] (cutoff N l kmax)) (fun ec => Ok (fst ec, Some (snd ec))).
Proof.
  intros Hl. unfold k_edges. destruct (rltb 0 0) eqn:E; [apply rltb_iff in E; lra|]. cbn [map]. rewrite max3 by exact Hl. unfold cutoff. destruct kmax; [reflexivity|]. replace (PI * rmin N / l + 0 / 2) with (PI * rmin N / l) by lra. reflexivity.
Qed.
Lemma wave_pos l : 0 < l -> 0 < 2 * PI / l.
Proof. intros H. pose proof PI_RGT_0. unfold Rdiv. apply Rmult_lt_0_compat; [lra|apply Rinv_0_lt_compat, H]. Qed.
Theorem C261_modulus N l ranks kmin kmax : 0 < l -> (forall r n, In r ranks -> In n r -> (0 <= n < 2500000000)%Z) ->
  (exists n m, In n (concat ranks) /\ In m (concat ranks) /\ n <> m /\ wave l n < cutoff N l kmax /\ wave l m < cutoff N l kmax) ->
  exists edges coords, k_edges N [l; l; l] (squares_of l ranks) (Some 0) kmin kmax = Ok (edges, Some coords) /\ length edges = S (length coords) /\ nth_error edges 0 = Some 0 /\ StronglySorted Rlt coords /\
    (forall c, In c coords <-> exists n, In n (concat ranks) /\ c = wave l n /\ c < cutoff N l kmax) /\
    forall i c lo hi, nth_error coords i = Some c -> nth_error edges i = Some lo -> nth_error edges (S i) = Some hi ->
      lo <= c < hi /\ forall n, In n (concat ranks) -> wave l n < cutoff N l kmax -> lo <= wave l n < hi -> wave l n = c.
Proof.
  intros Hl small (n & m & Hn & Hm & NE & Ln & Lm). assert (PR : forall n, present ranks n <-> In n (concat ranks)) by (intros x; unfold present; rewrite in_concat; reflexivity).
  destruct (edges_cubic (2 * PI / l) (wave_pos l Hl) ranks small (cutoff N l kmax)) as (edges & coords & E & H1 & H2 & H3 & H4 & H5); [exists n, m; rewrite !PR; auto|].
  exists edges, coords. rewrite cubic_edges by exact Hl. unfold squares_of. rewrite E. split; [reflexivity|]. split; [exact H1|]. split; [exact H2|]. split; [exact H3|]. split.
  - intros c. rewrite H4. split; intros (x & A & B); exists x; (split; [apply PR; exact A|exact B]).
  - intros i c lo hi A B D. destruct (H5 i c lo hi A B D) as [G1 G2]. split; [exact G1|]. intros x Hx. apply G2, PR, Hx.
Qed.
Theorem C261_few N l ranks kmin kmax : 0 < l -> (forall r n, In r ranks -> In n r -> (0 <= n < 2500000000)%Z) ->
  (forall n m, In n (concat ranks) -> In m (concat ranks) -> wave l n < cutoff N l kmax -> wave l m < cutoff N l kmax -> n = m) -> k_edges N [l; l; l] (squares_of l ranks) (Some 0) kmin kmax = Err IndexError.
Proof.
  intros Hl small H. rewrite cubic_edges by exact Hl. unfold squares_of. rewrite (edges_few (2 * PI / l) ranks (cutoff N l kmax) (wave_pos l Hl) small); [reflexivity|].
  intros n m (r & R1 & R2) (s & S1 & S2). apply H; apply in_concat; [exists r|exists s]; auto.
Qed.
Print Assumptions C261_modulus.
Print Assumptions C261_few.
Example C261_ex : exists edges coords, k_edges [6; 6; 6] [1; 1; 1] (squares_of 1 [[0; 1; 2]; [3; 1]]%Z) (Some 0) 0 None = Ok (edges, Some coords) /\ In (wave 1 3) coords.
Proof.
  pose proof PI_RGT_0 as P. assert (CU : cutoff [6; 6; 6] 1 None = 6 * PI) by (unfold cutoff; rewrite rmin_same; field).
  assert (W : forall n, (0 <= n < 9)%Z -> wave 1 n < 6 * PI). { intros n [A B]. apply IZR_le in A. apply IZR_lt in B. unfold wave. assert (sqrt (IZR n) < 3) by (rewrite <- sqrt9; apply sqrt_lt_1; lra). pose proof (sqrt_pos (IZR n)). replace (2 * PI / 1) with (2 * PI) by field. nra. }
  destruct (C261_modulus [6; 6; 6] 1 [[0; 1; 2]; [3; 1]]%Z 0 None) as (edges & coords & E & _ & _ & _ & H & _).
  - lra.
  - intros r n [<-|[<-|[]]] Hn; cbn in Hn; lia.
  - exists 0%Z, 1%Z. rewrite CU. cbn [concat app]. repeat split; try (cbn; tauto); try lia; apply W; lia.
  - exists edges, coords. split; [exact E|]. apply H. exists 3%Z. rewrite CU. split; [cbn; tauto|]. split; [reflexivity|apply W; lia].
Qed.
Example C261_ex_few : k_edges [6; 6; 6] [1; 1; 1] (squares_of 1 [[0]; [0]]%Z) (Some 0) 0 None = Err IndexError.
Proof. apply C261_few; [lra|intros r n [<-|[<-|[]]] Hn; cbn in Hn; lia|]. intros n m Hn Hm _ _. cbn in Hn, Hm. lia. Qed.

(* C262: the modes at or above kmax are not among the moduli, but the last bin may contain them:
   a cubic mesh of 6 cells with the default kmax. *)
Theorem C262_last_bin_refuted : exists N L ranks edges coords, (forall x, In x (concat ranks) -> exists n, In n squares6 /\ x = IZR n) /\ k_edges N L ranks (Some 0) 0 None = Ok (edges, Some coords) /\ N = [6; 6; 6] /\ L = [2 * PI; 2 * PI; 2 * PI] /\
  exists i lo hi a b, nth_error edges i = Some lo /\ nth_error edges (S i) = Some hi /\ In a (concat ranks) /\ In b (concat ranks) /\ lo <= sqrt a < hi /\ lo <= sqrt b < hi /\ sqrt a <> sqrt b.
Proof. exact last_bin_mixed. Qed.
Print Assumptions C262_last_bin_refuted.

(* C263: moduli closer than a fraction of the fundamental are merged. *)
Theorem C263_merged_refuted : exists L ranks edges coords, In (1 ^ 2) (concat ranks) /\ In ((10001 / 10000) ^ 2) (concat ranks) /\ k_edges [2; 2; 2] L ranks (Some 0) 0 (Some 2) = Ok (edges, Some coords) /\ map (fun l => 2 * PI / l) L = [1; 10001 / 10000; 1] /\ ranks = [mesh2] /\
  exists i lo hi, nth_error edges i = Some lo /\ nth_error edges (S i) = Some hi /\ lo <= 1 < hi /\ lo <= 10001 / 10000 < hi /\ hi < 2.
Proof. exact merged. Qed.
Print Assumptions C263_merged_refuted.

Theorem C264_linear N L ranks dk kmin kmax : 0 < dk -> exists edges, k_edges N L ranks (Some dk) kmin (Some kmax) = Ok (edges, None) /\
  forall i, nth_error edges i = if Rlt_dec (kmin + INR i * dk) kmax then Some (kmin + INR i * dk) else None.
Proof. exact (edges_linear N L ranks dk kmin kmax). Qed.
Theorem C264_nyquist N L ranks dk kmin : 0 < dk -> L <> [] -> Forall (fun n => 0 <= n) N -> Forall (fun l => 0 < l) L ->
  exists edges, k_edges N L ranks (Some dk) kmin None = Ok (edges, None) /\ forall e n l, In e edges -> In n N -> In l L -> e < PI * n / l + dk / 2.
Proof. exact (edges_nyquist N L ranks dk kmin). Qed.
Theorem C264_default n l ranks : (0 <= n)%Z -> 0 < l -> exists edges, k_edges [IZR n; IZR n; IZR n] [l; l; l] ranks None 0 None = Ok (edges, None) /\
  forall i, nth_error edges i = if (i <=? Z.to_nat (n / 2))%nat then Some (INR i * (2 * PI / l)) else None.
Proof. exact (edges_default n l ranks). Qed.
Print Assumptions C264_linear.
Print Assumptions C264_nyquist.
Print Assumptions C264_default.
Example C264_ex : exists edges, k_edges [7; 7; 7] [1; 1; 1] [] None 0 None = Ok (edges, None) /\ length edges = 4%nat.
Proof.
  destruct (C264_default 7 1 []) as (e & E & H); [lia|lra|]. exists e. split; [exact E|]. change (Z.to_nat (7 / 2)) with 3%nat in H. assert (A : nth_error e 3 <> None) by (rewrite H; discriminate). assert (B : nth_error e 4 = None) by (rewrite H; reflexivity). apply nth_error_Some in A. apply nth_error_None in B. lia.
Qed.
Example C264_ex_nyquist : 0 < 1 /\ [1; 2] <> [] /\ Forall (fun n => 0 <= n) [4; 4] /\ Forall (fun l => 0 < l) [1; 2].
Proof. repeat split; try lra; try discriminate; repeat constructor; lra. Qed.

(* C265: a long box whose Nyquist frequency is that of two bins on each axis gets a single edge. *)
Theorem C265_long_box_refuted : exists N L, (forall n l, In n N -> In l L -> 0 < n /\ 0 < l) /\ Forall2 (fun n l => PI * n / l = 4 * PI) N L /\ forall ranks, k_edges N L ranks None 0 None = Ok ([0], None).
Proof. exact no_bins. Qed.
Print Assumptions C265_long_box_refuted.

Theorem C266_kmin_refuted : exists N L ranks kmin edges coords, 0 < kmin /\ k_edges N L ranks (Some 0) kmin None = Ok (edges, Some coords) /\ nth_error edges 0 = Some 0.
Proof. exact kmin_ignored. Qed.
Print Assumptions C266_kmin_refuted.
