(* Theorems about transform.py. *)
From Verif Require Import Base.
From Coq Require Import Reals Lra Lia String Permutation.
From Verif Require Import RandModel ThreeModel ThreeProofs SkyModel SkySpec SkyProofs SkyArrays SkyRedshift SkyMain SkyConcat.
Local Open Scope R_scope.
Local Notation length := List.length.

(* Right ascension and declination of any position: the position is at its distance from the observer in that direction. *)
Theorem C159_equatorial : forall pos observer, exists ra dec, CartesianToEquatorial pos observer = (ra, dec) /\ length ra = length pos /\ length dec = length pos /\
  forall i p, nth_error pos i = Some p -> exists a d, nth_error ra i = Some a /\ nth_error dec i = Some d /\
    0 <= a < 360 /\ -90 <= d <= 90 /\ p = toward observer (separation p observer) a d.
Proof.
  intros pos observer. eexists. eexists. split; [reflexivity|]. split; [apply map_length|]. split; [apply map_length|]. intros i p P.
  pose proof (equatorial_ok p observer) as Q. destruct (equatorial p observer) as [a d] eqn:E. exists a, d. rewrite !nth_error_map, P. cbn [option_map]. rewrite E. cbn [fst snd]. split; [reflexivity|]. split; [reflexivity|exact Q].
Qed.
Print Assumptions C159_equatorial.
(* the point on the unit sphere, times the comoving distance, from the observer; scalars are spread over the rows *)
Theorem C159_cartesian : forall ra dec redshift dist observer degrees n,
  (forall c, In c [ra; dec; redshift] -> length c = n \/ length c = 1%nat) -> (exists c, In c [ra; dec; redshift] /\ length c = n) ->
  exists pos, SkyToCartesian ra dec redshift dist observer degrees = Ok pos /\ length pos = n /\
  forall i a d z, (i < n)%nat -> spread n ra i a -> spread n dec i d -> spread n redshift i z ->
    nth_error pos i = Some (toward observer (dist z) (if degrees then a else a * (180 / PI)) (if degrees then d else d * (180 / PI))).
Proof. exact to_cartesian_ok. Qed.
Print Assumptions C159_cartesian.
(* arrays of different sizes are refused *)
Theorem C159_mismatch : forall ra dec redshift dist observer degrees a b,
  In a [ra; dec; redshift] -> In b [ra; dec; redshift] -> length a <> length b -> length a <> 1%nat -> length b <> 1%nat ->
  SkyToCartesian ra dec redshift dist observer degrees = Err ValueError.
Proof.
  intros ra dec redshift dist observer degrees a b A B N A1 B1. unfold SkyToCartesian, broadcast. rewrite (broadcast_size_bad _ (length a) (length b)); [reflexivity|apply in_map; exact A|apply in_map; exact B|exact N|exact A1|exact B1].
Qed.
Print Assumptions C159_mismatch.

Example C159_equatorial_ex : CartesianToEquatorial [(1, 2 + 3, 1); (1, 2, -4)] (1, 2, 1) = ([90; 0], [0; -90]).
Proof.
  assert (E1 : equatorial (toward (1, 2, 1) 3 90 0) (1, 2, 1) = (90, 0)) by (apply equatorial_toward; lra).
  assert (T : toward (1, 2, 1) 3 90 0 = (1, 2 + 3, 1)).
  { unfold toward. rewrite Rmult_0_l, cos_0, sin_0, degree_90, cos_PI2, sin_PI2. f_equal; [f_equal|]; ring. }
  unfold CartesianToEquatorial. cbn [map]. rewrite <- T, E1. cbn [fst snd].
  assert (E2 : equatorial (1, 2, -4) (1, 2, 1) = (0, -90)).
  { unfold equatorial. cbn [minus3]. replace (1 - 1) with 0 by ring. replace (2 - 2) with 0 by ring. replace (-4 - 1) with (-5) by ring. rewrite hypot_axis, Rabs_R0. unfold arctan2.
    replace (rltb 0 0) with false by (symmetry; apply Bool.not_true_iff_false; rewrite rltb_iff; lra). replace (rltb 0 (-5)) with false by (symmetry; apply Bool.not_true_iff_false; rewrite rltb_iff; lra). replace (rltb (-5) 0) with true by (symmetry; apply rltb_iff; lra).
    f_equal; [|unfold rad2deg; pose proof PI_RGT_0; field; lra]. destruct (fmod_ok (rad2deg 0 - 360) 360 ltac:(lra)) as [B [k K]]. set (v := fmod _ _) in *. replace (rad2deg 0) with 0 in K by (unfold rad2deg; ring).
    assert (K1 : 360 * IZR (- k - 1) = v) by (rewrite minus_IZR, opp_IZR; lra). assert (K2 : (-1 < - k - 1)%Z) by (apply lt_IZR; lra). assert (K3 : (- k - 1 < 1)%Z) by (apply lt_IZR; lra). replace (- k - 1)%Z with 0%Z in K1 by lia. lra. }
  rewrite E2. reflexivity.
Qed.
Example C159_cartesian_ex : exists pos, SkyToCartesian [0; 90] [0] [2; 3] (fun z => 2 * z) (1, 1, 1) true = Ok pos /\ nth_error pos 1 = Some (1, 1 + 6, 1).
Proof.
  destruct (C159_cartesian [0; 90] [0] [2; 3] (fun z => 2 * z) (1, 1, 1) true 2) as (pos & E & _ & H); [cbn; intuition (subst; auto)|exists [0; 90]; split; [left; reflexivity|reflexivity]|].
  exists pos. split; [exact E|]. rewrite (H 1%nat 90 0 3); [|lia|left; split; reflexivity|right; reflexivity|left; split; reflexivity].
  unfold toward. rewrite Rmult_0_l, cos_0, sin_0, degree_90, cos_PI2, sin_PI2. f_equal. f_equal; [f_equal|]; ring.
Qed.
Example C159_mismatch_ex : SkyToCartesian [1; 2] [3; 4; 5] [0] (fun z => z) (0, 0, 0) true = Err ValueError.
Proof. apply (C159_mismatch _ _ _ _ _ _ [1; 2] [3; 4; 5]); cbn; auto. Qed.

(* Redshifts from distances: exact at the 1025 tabulated redshifts, elsewhere right within the ratio of two of them; the velocity
   away from the observer adds v / c (1 + z). *)
Theorem C160_sky : forall f observer zmax pos velocity, increasing f -> zmin < zmax ->
  (forall p, In p pos -> exists z, 0 <= z <= zmax /\ separation p observer = f z) ->
  (forall v, velocity = Some v -> length v = length pos /\ forall p, In p pos -> separation p observer <> 0) ->
  exists out, CartesianToSky pos f velocity observer zmax = Ok out /\ length out = length pos /\
  forall i p z, nth_error pos i = Some p -> 0 <= z <= zmax -> separation p observer = f z ->
  exists ra dec z0 zout, nth_error out i = Some (ra, dec, Some zout) /\ 0 <= ra < 360 /\ -90 <= dec <= 90 /\ p = toward observer (f z) ra dec /\
    (node zmax z -> z0 = z) /\ (z <= zmin -> 0 <= z0 <= zmin) /\ (zmin <= z -> z / ratio zmax <= z0 <= z * ratio zmax) /\
    match velocity with None => zout = z0 | Some vel => exists v, nth_error vel i = Some v /\ 1 + zout = (1 + z0) * (1 + radial v p observer / speed_of_light) end.
Proof.
  intros f observer zmax pos velocity I B H V. destruct (to_sky_ok f observer zmax pos velocity I B H V) as (out & E & L & N). exists out. split; [exact E|]. split; [exact L|]. intros i p z P Z S.
  destruct (N i p z P Z S) as (ra & dec & z0 & zout & Q & R1 & R2 & R3 & (R4 & R5 & R6) & R7). exists ra, dec, z0, zout. repeat (split; [assumption|]).
  destruct velocity as [vel|]; [|exact R7]. destruct (V vel eq_refl) as [LV _]. cbn [velocity_of] in R7. destruct (nth_error vel i) as [v|] eqn:EV; [exists v; split; [reflexivity|exact R7]|].
  apply nth_error_None in EV. assert (i < length pos)%nat by (apply nth_error_Some; congruence). lia.
Qed.
Print Assumptions C160_sky.
(* back and forth *)
Theorem C160_roundtrip : forall ra dec redshift f observer zmax n, increasing f -> f 0 = 0 -> zmin < zmax ->
  (forall c, In c [ra; dec; redshift] -> length c = n \/ length c = 1%nat) -> (exists c, In c [ra; dec; redshift] /\ length c = n) ->
  (forall a, In a ra -> 0 <= a < 360) -> (forall d, In d dec -> -90 < d < 90) -> (forall z, In z redshift -> 0 < z <= zmax) ->
  exists pos out, SkyToCartesian ra dec redshift f observer true = Ok pos /\ CartesianToSky pos f None observer zmax = Ok out /\ length out = n /\
  forall i a d z, (i < n)%nat -> spread n ra i a -> spread n dec i d -> spread n redshift i z ->
  exists zout, nth_error out i = Some (a, d, Some zout) /\
    (node zmax z -> zout = z) /\ (z <= zmin -> 0 <= zout <= zmin) /\ (zmin <= z -> z / ratio zmax <= zout <= z * ratio zmax).
Proof. exact sky_roundtrip. Qed.
Print Assumptions C160_roundtrip.
(* objects beyond zmax are refused *)
Theorem C160_beyond : forall f observer zmax pos, increasing f -> zmin < zmax ->
  (forall p, In p pos -> (exists z, 0 <= z <= zmax /\ separation p observer = f z) \/ f zmax < separation p observer) ->
  (exists p, In p pos /\ f zmax < separation p observer) -> CartesianToSky pos f None observer zmax = Err ValueError.
Proof. exact to_sky_beyond. Qed.
Print Assumptions C160_beyond.

Lemma zmin_lt_100 : zmin < 100.
Proof. unfold zmin. rewrite <- Rinv_1 at 2 || idtac. apply Rlt_trans with 1; [|lra]. rewrite <- Rinv_1. apply Rinv_lt_contravar; [|apply Rlt_pow_R1; [lra|lia]]. rewrite Rmult_1_l. apply pow_lt. lra. Qed.
Lemma double_increasing : increasing (fun z => 2 * z). Proof. intros a b A B. lra. Qed.
Example C160_sky_ex : exists out zout, CartesianToSky [(0, 0, 200); (4, 0, 3)] (fun z => 2 * z) (Some [(0, 1, - speed_of_light / 2); (1, 2, 3)]) (0, 0, 0) 100 = Ok out /\
  nth_error out 0 = Some zout /\ snd zout = Some (101 / 2 - 1).
Proof.
  assert (S0 : separation (0, 0, 200) (0, 0, 0) = 2 * 100) by (unfold separation; replace (_ + _ + _) with (200 * 200) by ring; rewrite sqrt_square; lra).
  assert (S1 : separation (4, 0, 3) (0, 0, 0) = 2 * (5 / 2)) by (unfold separation; replace (_ + _ + _) with (5 * 5) by ring; rewrite sqrt_square; lra).
  destruct (C160_sky (fun z => 2 * z) (0, 0, 0) 100 [(0, 0, 200); (4, 0, 3)] (Some [(0, 1, - speed_of_light / 2); (1, 2, 3)]) double_increasing zmin_lt_100) as (out & E & L & N).
  - intros p [<-|[<-|[]]]; [exists 100; split; [lra|exact S0]|exists (5 / 2); split; [lra|exact S1]].
  - intros v [= <-]. split; [reflexivity|]. intros p [<-|[<-|[]]]; [rewrite S0|rewrite S1]; lra.
  - destruct (N 0%nat (0, 0, 200) 100 eq_refl ltac:(lra) S0) as (ra & dec & z0 & zout & Q & _ & _ & _ & R & _ & _ & v & Ev & R'). injection Ev as <-.
    exists out, (ra, dec, Some zout). split; [exact E|]. split; [exact Q|]. cbn [snd]. f_equal.
    assert (z0 = 100).
    { apply R. right. exists 1023%nat. split; [lia|]. replace (INR 1023 / 1023) with 1 by (rewrite INR_IZR_INZ; field). pose proof zmin_pos. rewrite Rpower_1; [field; lra|]. apply Rdiv_lt_0_compat; lra. }
    subst z0. unfold radial in R'. rewrite S0 in R'. unfold speed_of_light in R'. lra.
Qed.
Example C160_roundtrip_ex : exists pos out zout, SkyToCartesian [10; 350] [45] [1; 3] (fun z => 2 * z) (1, 2, 3) true = Ok pos /\ CartesianToSky pos (fun z => 2 * z) None (1, 2, 3) 100 = Ok out /\
  nth_error out 1 = Some (350, 45, Some zout) /\ 3 / ratio 100 <= zout <= 3 * ratio 100.
Proof.
  destruct (C160_roundtrip [10; 350] [45] [1; 3] (fun z => 2 * z) (1, 2, 3) 100 2 double_increasing ltac:(lra) zmin_lt_100) as (pos & out & E1 & E2 & _ & N).
  - cbn. intuition (subst; auto).
  - exists [1; 3]. split; [right; right; left; reflexivity|reflexivity].
  - intros a [<-|[<-|[]]]; lra.
  - intros a [<-|[]]; lra.
  - intros a [<-|[<-|[]]]; lra.
  - destruct (N 1%nat 350 45 3) as (zout & Q & _ & _ & R); [lia|left; split; reflexivity|right; reflexivity|left; split; reflexivity|]. exists pos, out, zout. split; [exact E1|]. split; [exact E2|]. split; [exact Q|]. apply R.
    apply Rle_trans with 1; [|lra]. unfold zmin. rewrite <- Rinv_1. apply Rinv_le_contravar; [lra|]. left. apply Rlt_pow_R1; [lra|lia].
Qed.
Example C160_beyond_ex : CartesianToSky [(0, 0, 201)] (fun z => 2 * z) None (0, 0, 0) 100 = Err ValueError.
Proof.
  assert (S0 : separation (0, 0, 201) (0, 0, 0) = 201) by (unfold separation; replace (_ + _ + _) with (201 * 201) by ring; rewrite sqrt_square; lra).
  apply C160_beyond; [exact double_increasing|exact zmin_lt_100| |].
  - intros p [<-|[]]. right. rewrite S0. lra.
  - exists (0, 0, 201). split; [left; reflexivity|rewrite S0; lra].
Qed.

(* VectorProjection gives the orthogonal projection on the direction. *)
Theorem C161_projection : forall vector direction, inner direction direction <> 0 -> (forall v, In v vector -> length v = length direction) ->
  exists out, VectorProjection vector direction = Ok out /\ length out = length vector /\
  forall i v p, nth_error vector i = Some v -> nth_error out i = Some p -> along p direction /\ inner (minusv v p) direction = 0.
Proof. exact projection_ok. Qed.
Print Assumptions C161_projection.
Theorem C161_length_of_direction : forall vector direction t, t <> 0 -> inner direction direction <> 0 -> (forall v, In v vector -> length v = length direction) ->
  VectorProjection vector (map (Rmult t) direction) = VectorProjection vector direction.
Proof. exact projection_scale. Qed.
Print Assumptions C161_length_of_direction.
Theorem C161_twice : forall vector direction out, inner direction direction <> 0 -> (forall v, In v vector -> length v = length direction) ->
  VectorProjection vector direction = Ok out -> VectorProjection out direction = Ok out.
Proof. exact projection_twice. Qed.
Print Assumptions C161_twice.
Example C161_projection_ex : VectorProjection [[1; 2; 3]; [-4; 0; 2]] [0; 0; -5] = Ok [[0; 0; 3]; [0; 0; 2]].
Proof.
  rewrite projection_eq.
  - cbn [map]. unfold inner. cbn [combine map fold_right fst snd]. repeat f_equal; field.
  - unfold inner. cbn. lra.
  - intros v [<-|[<-|[]]]; reflexivity.
Qed.
Example C161_twice_ex : VectorProjection [[0; 0; 3]; [0; 0; 2]] [0; 0; -5] = Ok [[0; 0; 3]; [0; 0; 2]].
Proof. apply (C161_twice [[1; 2; 3]; [-4; 0; 2]]); [unfold inner; cbn; lra|intros v [<-|[<-|[]]]; reflexivity|exact C161_projection_ex]. Qed.
Example C161_length_of_direction_ex : VectorProjection [[1; 2; 3]] (map (Rmult (-2)) [1; 0; 1]) = VectorProjection [[1; 2; 3]] [1; 0; 1].
Proof. apply C161_length_of_direction; [lra|unfold inner; cbn; lra|intros v [<-|[]]; reflexivity]. Qed.

(* The documentation allows vectors of shape (..., D): the result should have that shape. *)
Theorem C162_shape_refuted : exists lead lead' lead'' D, projection_shape (lead ++ [D]) D <> Ok (lead ++ [D]) /\
  projection_shape (lead' ++ [D]) D = Err ValueError /\ projection_shape (lead'' ++ [D]) D = Err IndexError.
Proof. exists [2; 3]%nat, [2; 5]%nat, [], 3%nat. split; [discriminate|]. split; reflexivity. Qed.
Print Assumptions C162_shape_refuted.
(* for an array of vectors the shape is right *)
Theorem C162_rows : forall n D, projection_shape [n; D] D = Ok [n; D].
Proof.
  intros n D. unfold projection_shape, broadcast_shape. cbn [length Nat.max Nat.sub repeat app combine map fst snd]. rewrite !Nat.eqb_refl.
  destruct n as [|[|n]]; destruct D as [|[|D]]; reflexivity.
Qed.
Print Assumptions C162_rows.
Example C162_rows_ex : projection_shape [7; 3]%nat 3 = Ok [7; 3]%nat. Proof. apply C162_rows. Qed.

(* StackColumns: row i holds the values of the columns at i; scalars are spread. *)
Theorem C163_stack : forall (A : Type) (cols : list (list A)) n, (forall c, In c cols -> length c = n \/ length c = 1%nat) -> (exists c, In c cols /\ length c = n) ->
  exists out, StackColumns cols = Ok out /\ length out = n /\ forall i, (i < n)%nat -> exists r, nth_error out i = Some r /\ length r = length cols /\
    forall j c, nth_error cols j = Some c -> exists v, nth_error r j = Some v /\ spread n c i v.
Proof. intros A. exact stack_ok. Qed.
Print Assumptions C163_stack.
Theorem C163_mismatch : forall (A : Type) (cols : list (list A)) a b, In a cols -> In b cols -> length a <> length b -> length a <> 1%nat -> length b <> 1%nat -> StackColumns cols = Err ValueError.
Proof.
  intros A cols a b Ia Ib N A1 B1. unfold StackColumns, broadcast. rewrite (broadcast_size_bad _ (length a) (length b)); [destruct cols; reflexivity|apply in_map, Ia|apply in_map, Ib|exact N|exact A1|exact B1].
Qed.
Print Assumptions C163_mismatch.
Example C163_stack_ex : StackColumns [[1; 2; 3]; [9]; [4; 5; 6]]%nat = Ok [[1; 9; 4]; [2; 9; 5]; [3; 9; 6]]%nat. Proof. reflexivity. Qed.
Example C163_mismatch_ex : StackColumns [[1; 2; 3]; [4; 5]]%nat = Err ValueError. Proof. apply (C163_mismatch nat _ [1; 2; 3] [4; 5])%nat; cbn; auto. Qed.

(* ConcatenateSources: on every rank the rows of the sources one after the other, each row with its values in all columns. *)
Theorem C164_concatenate : forall (V T : Type) (s0 : source V T) rest columns, let sources := s0 :: rest in let cols := wanted s0 columns in
  (forall s, In s sources -> s_comm s = s_comm s0) ->
  (forall s c, In s sources -> In c cols -> In c (colnames s)) ->
  (forall s c v, In s sources -> In (c, v) (s_cols s) -> length v = s_size s) ->
  (forall c, In c cols -> ~ In c ["size"; "comm"; "cls"]%string) ->
  exists out, ConcatenateSources sources columns = Ok out /\ s_attrs out = s_attrs s0 /\ s_comm out = s_comm s0 /\
    s_size out = fold_right Nat.add O (map s_size sources) /\ NoDup (colnames out) /\ (forall c, In c (colnames out) <-> In c cols) /\
    rows (col out) (s_size out) cols = flat_map (fun s => rows (col s) (s_size s) cols) sources.
Proof. intros V T. exact concat_ok. Qed.
Print Assumptions C164_concatenate.
(* All ranks together hold the rows of all sources, none lost or repeated. *)
Theorem C164_ranks : forall (V T rank : Type) (ranks : list rank) (part : rank -> nat -> source V T) n columns cols, (0 < n)%nat ->
  (forall r, In r ranks -> wanted (part r O) columns = cols) ->
  (forall r i, In r ranks -> (i < n)%nat -> s_comm (part r i) = s_comm (part r O) /\ (forall c, In c cols -> In c (colnames (part r i))) /\ forall c v, In (c, v) (s_cols (part r i)) -> length v = s_size (part r i)) ->
  (forall c, In c cols -> ~ In c ["size"; "comm"; "cls"]%string) ->
  exists out : rank -> source V T, (forall r, In r ranks -> ConcatenateSources (map (part r) (seq 0 n)) columns = Ok (out r)) /\
    Permutation (flat_map (fun r => rows (col (out r)) (s_size (out r)) cols) ranks) (flat_map (fun i => flat_map (fun r => rows (col (part r i)) (s_size (part r i)) cols) ranks) (seq 0 n)).
Proof.
  intros V T rank ranks part n columns cols N W H R. destruct n as [|n]; [lia|].
  exists (fun r => match ConcatenateSources (map (part r) (seq 0 (S n))) columns with Ok s => s | Err _ => part r O end).
  assert (Q : forall r, In r ranks -> exists o, ConcatenateSources (map (part r) (seq 0 (S n))) columns = Ok o /\ rows (col o) (s_size o) cols = flat_map (fun i => rows (col (part r i)) (s_size (part r i)) cols) (seq 0 (S n))).
  { intros r Ir. destruct (C164_concatenate V T (part r O) (map (part r) (seq 1 n)) columns) as (o & E & _ & _ & _ & _ & _ & P).
    - intros s Hs. change (part r O :: map (part r) (seq 1 n)) with (map (part r) (seq 0 (S n))) in Hs. apply in_map_iff in Hs. destruct Hs as (i & <- & Hs). apply in_seq in Hs. apply (H r i Ir); lia.
    - intros s c Hs C. rewrite (W r Ir) in C. change (part r O :: map (part r) (seq 1 n)) with (map (part r) (seq 0 (S n))) in Hs. apply in_map_iff in Hs. destruct Hs as (i & <- & Hs). apply in_seq in Hs. apply (H r i Ir); [lia|exact C].
    - intros s c v Hs C. change (part r O :: map (part r) (seq 1 n)) with (map (part r) (seq 0 (S n))) in Hs. apply in_map_iff in Hs. destruct Hs as (i & <- & Hs). apply in_seq in Hs. apply (proj2 (proj2 (H r i Ir ltac:(lia))) c v C).
    - intros c C. rewrite (W r Ir) in C. apply R, C.
    - exists o. rewrite (W r Ir) in P. change (part r O :: map (part r) (seq 1 n)) with (map (part r) (seq 0 (S n))) in E, P. split; [exact E|]. rewrite P. clear. induction (seq 0 (S n)) as [|i l IH]; [reflexivity|]. cbn [map flat_map]. rewrite IH. reflexivity. }
  split.
  - intros r Ir. destruct (Q r Ir) as (o & E & _). rewrite E. reflexivity.
  - rewrite (flat_map_ext_in _ (fun r => flat_map (fun i => rows (col (part r i)) (s_size (part r i)) cols) (seq 0 (S n)))).
    + apply (flat_map_swap (fun r i => rows (col (part r i)) (s_size (part r i)) cols)).
    + intros r Ir. destruct (Q r Ir) as (o & E & P). rewrite E. exact P.
Qed.
Print Assumptions C164_ranks.
(* a column missing from one source is refused *)
Theorem C164_missing : forall (V T : Type) (s0 : source V T) rest columns s c, In s (s0 :: rest) -> In c (wanted s0 columns) -> ~ In c (colnames s) ->
  ConcatenateSources (s0 :: rest) columns = Err ValueError.
Proof. intros V T s0 rest columns s c. exact (concat_missing s0 rest columns s c). Qed.
Print Assumptions C164_missing.
Definition ex_s (n : nat) (extra : list (string * list nat)) : source nat nat := {| s_comm := 0; s_size := n; s_cols := extra ++ [("Mass", seq 5 n); ("Weight", seq 0 n)]%string; s_attrs := [("BoxSize", n)]%string |}.
Example C164_concatenate_ex : ConcatenateSources [ex_s 2 []; ex_s 1 [("X", [8])]%string%nat; ex_s 0 []] (Some ["Weight"; "Mass"; "Weight"]%string) =
  Ok {| s_comm := 0; s_size := 3; s_cols := [("Weight", [0; 1; 0]); ("Mass", [5; 6; 5])]%string%nat; s_attrs := [("BoxSize", 2%nat)]%string |}.
Proof. reflexivity. Qed.
Example C164_ranks_ex : exists out : nat -> source nat nat, (forall r, In r [0; 1]%nat -> ConcatenateSources (map (fun i => ex_s (r + i) []) (seq 0 3)) None = Ok (out r)).
Proof.
  destruct (C164_ranks nat nat nat [0; 1]%nat (fun r i => ex_s (r + i) []) 3 None ["Mass"; "Weight"]%string) as (out & E & _).
  - lia.
  - intros r _. reflexivity.
  - intros r i _ _. split; [reflexivity|]. split; [intros c C; exact C|]. intros c v [[= <- <-]|[[= <- <-]|[]]]; apply seq_length.
  - intros c [<-|[<-|[]]]; cbn; intuition discriminate.
  - exists out. exact E.
Qed.
Example C164_missing_ex : ConcatenateSources [ex_s 1 [("X", [8])]%string%nat; ex_s 1 []] None = Err ValueError.
Proof. apply (C164_missing nat nat _ _ None (ex_s 1 []) "X"%string); [right; left; reflexivity|left; reflexivity|cbn; intuition discriminate]. Qed.

(* Columns can have any name. *)
Theorem C165_names_refuted : exists (s : source nat nat), (forall c v, In (c, v) (s_cols s) -> length v = s_size s) /\ NoDup (colnames s) /\ ConcatenateSources [s; s] None = Err TypeError.
Proof.
  exists (ex_s 1 [("size", [3])]%string%nat). split; [|split; [|reflexivity]].
  - intros c v [[= <- <-]|[[= <- <-]|[[= <- <-]|[]]]]; reflexivity.
  - cbn. repeat constructor; cbn; intuition discriminate.
Qed.
Print Assumptions C165_names_refuted.
