(* Sky coordinates of positions, projections, concatenation. *)
From Verif Require Import Base.
From Coq Require Import Reals Lra Lia String Permutation.
From Verif Require Import RandModel ThreeModel ThreeProofs SkyModel SkySpec SkyProofs SkyArrays SkyRedshift.
Local Open Scope R_scope.
Local Notation length := List.length.

Lemma minus3_twice p o : equatorial (minus3 p o) (0, 0, 0) = equatorial p o.
Proof. destruct p as [[a b] c], o as [[x y] z]. unfold equatorial. cbn [minus3]. rewrite !Rminus_0_r. reflexivity. Qed.
Lemma norm3_separation p o : norm3 (minus3 p o) = separation p o.
Proof. destruct p as [[a b] c], o as [[x y] z]. reflexivity. Qed.
Lemma separation_pos p o : 0 <= separation p o.
Proof. destruct p as [[a b] c], o as [[x y] z]. apply sqrt_pos. Qed.

Definition shifted (v : option point) (pos observer : point) (z out : R) : Prop :=
  match v with None => out = z | Some v => 1 + out = (1 + z) * (1 + radial v pos observer / speed_of_light) end.
Definition redshift_of (zmax z out : R) : Prop :=
  (node zmax z -> out = z) /\ (z <= zmin -> 0 <= out <= zmin) /\ (zmin <= z -> z / ratio zmax <= out <= z * ratio zmax).
Lemma sky_ok f observer zmax pos v z : increasing f -> zmin < zmax -> 0 <= z <= zmax -> separation pos observer = f z -> (v <> None -> separation pos observer <> 0) ->
  exists ra dec z0 out, sky f observer zmax pos v = Ok (ra, dec, Some out) /\ 0 <= ra < 360 /\ -90 <= dec <= 90 /\ pos = toward observer (f z) ra dec /\
    redshift_of zmax z z0 /\ shifted v pos observer z0 out.
Proof.
  intros I B Z S V. unfold sky. rewrite minus3_twice, norm3_separation. destruct (z_ok zmax B f z I Z) as (z0 & E & P). rewrite S. rewrite E. cbn [rbind].
  pose proof (equatorial_ok pos observer) as Q. destruct (equatorial pos observer) as [ra dec]. destruct Q as (A & D & Q). rewrite S in Q.
  destruct v as [v|].
  - destruct (Req_EM_T (f z) 0) as [N|N]; [exfalso; apply V; [discriminate|congruence]|].
    exists ra, dec, z0, (z0 + dotp (minus3 pos observer) v / f z / c_light * (1 + z0)). repeat (split; [first [reflexivity|exact A|exact D|exact Q|exact P]|]).
    unfold shifted, radial. destruct pos as [[a b] c], observer as [[x y] w], v as [[u t] s]. rewrite S. cbn [minus3 dotp]. unfold c_light, speed_of_light. field. lra.
  - exists ra, dec, z0, z0. repeat (split; [first [reflexivity|exact A|exact D|exact Q|exact P]|]). reflexivity.
Qed.
Lemma sky_beyond f observer zmax pos v : increasing f -> zmin < zmax -> f zmax < separation pos observer -> sky f observer zmax pos v = Err ValueError.
Proof. intros I B H. unfold sky. rewrite norm3_separation, (z_beyond zmax B f _ I H). reflexivity. Qed.

(* arrays *)
Lemma rall_nth {A} : forall (l : list (res A)), (forall x, In x l -> exists a, x = Ok a) -> exists out, rall l = Ok out /\ length out = length l /\ forall i a, nth_error l i = Some (Ok a) -> nth_error out i = Some a.
Proof.
  induction l as [|x l IH]; intros H; [exists []; split; [reflexivity|]; split; [reflexivity|intros [|i] a; discriminate]|].
  destruct (H x (or_introl eq_refl)) as [a ->]. destruct IH as (out & E & L & N); [intros y Y; apply H; right; exact Y|]. exists (a :: out). cbn [rall rbind]. rewrite E. cbn [rbind length]. split; [reflexivity|]. split; [rewrite L; reflexivity|].
  intros [|i] b Q; cbn [nth_error] in *; [congruence|apply N, Q].
Qed.
Lemma rall_err {A} (e : exn) : forall (l : list (res A)), (forall x, In x l -> x = Err e \/ exists a, x = Ok a) -> (exists x, In x l /\ x = Err e) -> rall l = Err e.
Proof.
  induction l as [|x l IH]; intros H (y & I & Y); [destruct I|]. cbn [rall]. destruct (H x (or_introl eq_refl)) as [->|[a ->]]; [reflexivity|]. cbn [rbind]. rewrite IH; [reflexivity|intros z Z; apply H; right; exact Z|].
  destruct I as [<-|I]; [discriminate|]. exists y. split; assumption.
Qed.
Definition velocity_of (velocity : option (list point)) (i : nat) : option point := match velocity with None => None | Some v => nth_error v i end.

Lemma to_sky_ok f observer zmax pos velocity : increasing f -> zmin < zmax ->
  (forall p, In p pos -> exists z, 0 <= z <= zmax /\ separation p observer = f z) ->
  (forall v, velocity = Some v -> length v = length pos /\ forall p, In p pos -> separation p observer <> 0) ->
  exists out, CartesianToSky pos f velocity observer zmax = Ok out /\ length out = length pos /\
  forall i p z, nth_error pos i = Some p -> 0 <= z <= zmax -> separation p observer = f z ->
  exists ra dec z0 zout, nth_error out i = Some (ra, dec, Some zout) /\ 0 <= ra < 360 /\ -90 <= dec <= 90 /\ p = toward observer (f z) ra dec /\
    redshift_of zmax z z0 /\ shifted (velocity_of velocity i) p observer z0 zout.
Proof.
  intros I B H V. unfold CartesianToSky. destruct velocity as [vel|].
  - destruct (V vel eq_refl) as [L N]. rewrite L, Nat.eqb_refl.
    destruct (rall_nth (map (fun pv => sky f observer zmax (fst pv) (Some (snd pv))) (combine pos vel))) as (out & E & LO & NO).
    + intros x X. apply in_map_iff in X. destruct X as ([p v] & <- & X). cbn [fst snd]. apply in_combine_l in X. destruct (H p X) as (z & Z & S). destruct (sky_ok f observer zmax p (Some v) z I B Z S) as (ra & dec & z0 & zo & Q & _); [intros _; apply N, X|]. rewrite Q. eexists. reflexivity.
    + exists out. split; [exact E|]. split; [rewrite LO, map_length, combine_length; lia|]. intros i p z P Z S.
      destruct (nth_error vel i) as [v|] eqn:Ev; [|apply nth_error_None in Ev; assert (i < length pos)%nat by (apply nth_error_Some; congruence); lia].
      destruct (sky_ok f observer zmax p (Some v) z I B Z S) as (ra & dec & z0 & zo & Q & R); [intros _; apply N, (nth_error_In _ _ P)|]. exists ra, dec, z0, zo. split; [|cbn [velocity_of]; rewrite Ev; exact R].
      apply NO. rewrite nth_error_map, (nth_error_combine pos vel i p v P Ev). cbn [option_map fst snd]. rewrite Q. reflexivity.
  - destruct (rall_nth (map (fun p => sky f observer zmax p None) pos)) as (out & E & LO & NO).
    + intros x X. apply in_map_iff in X. destruct X as (p & <- & X). destruct (H p X) as (z & Z & S). destruct (sky_ok f observer zmax p None z I B Z S) as (ra & dec & z0 & zo & Q & _); [intros C; contradiction|]. rewrite Q. eexists. reflexivity.
    + exists out. split; [exact E|]. split; [rewrite LO, map_length; reflexivity|]. intros i p z P Z S.
      destruct (sky_ok f observer zmax p None z I B Z S) as (ra & dec & z0 & zo & Q & R); [intros C; contradiction|]. exists ra, dec, z0, zo. split; [|exact R].
      apply NO. rewrite nth_error_map, P. cbn [option_map]. rewrite Q. reflexivity.
Qed.
Lemma to_sky_beyond f observer zmax pos : increasing f -> zmin < zmax -> (forall p, In p pos -> (exists z, 0 <= z <= zmax /\ separation p observer = f z) \/ f zmax < separation p observer) ->
  (exists p, In p pos /\ f zmax < separation p observer) -> CartesianToSky pos f None observer zmax = Err ValueError.
Proof.
  intros I B H (p & P & S). unfold CartesianToSky. apply rall_err.
  - intros x X. apply in_map_iff in X. destruct X as (q & <- & Q). destruct (H q Q) as [(z & Z & E)|G]; [right|left; apply sky_beyond; assumption].
    destruct (sky_ok f observer zmax q None z I B Z E) as (ra & dec & z0 & zo & R & _); [intros C; contradiction|]. rewrite R. eexists. reflexivity.
  - exists (sky f observer zmax p None). split; [apply in_map_iff; exists p; split; [reflexivity|exact P]|apply sky_beyond; assumption].
Qed.
Lemma spread_ex {A} n (a : list A) i : (length a = n \/ length a = 1%nat) -> (i < n)%nat -> exists v, spread n a i v /\ In v a.
Proof.
  intros [L|L] I.
  - destruct (nth_error a i) as [v|] eqn:E; [|apply nth_error_None in E; lia]. exists v. split; [left; split; assumption|apply (nth_error_In _ _ E)].
  - destruct a as [|v [|? ?]]; try discriminate. exists v. split; [right; reflexivity|left; reflexivity].
Qed.
Lemma sky_roundtrip ra dec redshift f observer zmax n : increasing f -> f 0 = 0 -> zmin < zmax ->
  (forall c, In c [ra; dec; redshift] -> length c = n \/ length c = 1%nat) -> (exists c, In c [ra; dec; redshift] /\ length c = n) ->
  (forall a, In a ra -> 0 <= a < 360) -> (forall d, In d dec -> -90 < d < 90) -> (forall z, In z redshift -> 0 < z <= zmax) ->
  exists pos out, SkyToCartesian ra dec redshift f observer true = Ok pos /\ CartesianToSky pos f None observer zmax = Ok out /\ length out = n /\
  forall i a d z, (i < n)%nat -> spread n ra i a -> spread n dec i d -> spread n redshift i z ->
  exists zout, nth_error out i = Some (a, d, Some zout) /\ redshift_of zmax z zout.
Proof.
  intros I F0 B H E A D Z. destruct (to_cartesian_ok ra dec redshift f observer true n H E) as (pos & EP & LP & NP).
  assert (FP : forall z, 0 < z -> 0 < f z) by (intros z Hz; rewrite <- F0; apply I; [lra|exact Hz]).
  assert (W : forall i, (i < n)%nat -> exists a d z, spread n ra i a /\ spread n dec i d /\ spread n redshift i z /\ In a ra /\ In d dec /\ In z redshift).
  { intros i Li. destruct (spread_ex n ra i (H ra ltac:(cbn; auto)) Li) as (a & Sa & Ia). destruct (spread_ex n dec i (H dec ltac:(cbn; auto)) Li) as (d & Sd & Id). destruct (spread_ex n redshift i (H redshift ltac:(cbn; auto)) Li) as (z & Sz & Iz). exists a, d, z. auto 10. }
  destruct (to_sky_ok f observer zmax pos None I B) as (out & EO & LO & NO).
  - intros p P. apply In_nth_error in P. destruct P as [i P]. assert (Li : (i < n)%nat) by (rewrite <- LP; apply nth_error_Some; congruence).
    destruct (W i Li) as (a & d & z & Sa & Sd & Sz & Ia & Id & Iz). rewrite (NP i a d z Li Sa Sd Sz) in P. injection P as <-. exists z. destruct (Z z Iz). split; [lra|]. apply toward_separation. left. apply FP. assumption.
  - intros v Q. discriminate.
  - exists pos, out. split; [exact EP|]. split; [exact EO|]. split; [congruence|]. intros i a d z Li Sa Sd Sz.
    pose proof (NP i a d z Li Sa Sd Sz) as P. cbn [angle] in P.
    assert (Ia : In a ra) by (destruct Sa as [[_ Q]| ->]; [apply (nth_error_In _ _ Q)|left; reflexivity]). assert (Id : In d dec) by (destruct Sd as [[_ Q]| ->]; [apply (nth_error_In _ _ Q)|left; reflexivity]). assert (Iz : In z redshift) by (destruct Sz as [[_ Q]| ->]; [apply (nth_error_In _ _ Q)|left; reflexivity]).
    destruct (Z z Iz) as [Z1 Z2]. destruct (NO i _ z P) as (ra' & dec' & z0 & zo & Q & R1 & R2 & R3 & R4 & R5); [lra|apply toward_separation; left; apply FP, Z1|].
    destruct (toward_unique observer (f z) a d ra' dec' (FP z Z1) (D d Id) R2 (A a Ia) R1 R3) as [-> ->]. cbn [velocity_of shifted] in R5. subst zo. exists z0. split; [exact Q|exact R4].
Qed.

(* projections *)
Lemma dotv_inner a b : dotv a b = inner a b. Proof. reflexivity. Qed.
Lemma inner_comm : forall a b, inner a b = inner b a.
Proof. induction a as [|x a IH]; intros [|y b]; try reflexivity. unfold inner in *. cbn [combine map fold_right fst snd]. rewrite IH. ring. Qed.
Lemma inner_scale t : forall a b, inner (map (Rmult t) a) b = t * inner a b.
Proof. induction a as [|x a IH]; intros [|y b]; unfold inner in *; cbn [combine map fold_right fst snd]; try ring. rewrite IH. ring. Qed.
Lemma inner_minus : forall a b c, length a = length c -> length b = length c -> inner (minusv a b) c = inner a c - inner b c.
Proof. induction a as [|x a IH]; intros [|y b] [|z c] La Lb; try discriminate; unfold inner, minusv in *; cbn [combine map fold_right fst snd]; [ring|]. cbn in La, Lb. rewrite IH by lia. ring. Qed.
Lemma inner_pos : forall d, 0 <= inner d d.
Proof. induction d as [|x d IH]; unfold inner in *; cbn [combine map fold_right fst snd]; [lra|]. nra. Qed.
Lemma proj_row d n v : 0 < inner d d -> n = sqrt (inner d d) ->
  map (fun x => inner v (map (fun x => x / n) d) * x) (map (fun x => x / n) d) = map (Rmult (inner v d / inner d d)) d.
Proof.
  intros P ->. assert (S : 0 < sqrt (inner d d)) by (apply sqrt_lt_R0, P). rewrite map_map. apply map_ext. intros x.
  replace (map (fun x => x / sqrt (inner d d)) d) with (map (Rmult (/ sqrt (inner d d))) d) by (apply map_ext; intros y; field; lra).
  rewrite (inner_comm v (map _ d)), inner_scale, (inner_comm d v). rewrite <- (sqrt_sqrt (inner d d)) at 3 by lra. field. lra.
Qed.
Lemma projection_eq vector direction : inner direction direction <> 0 -> (forall v, In v vector -> length v = length direction) ->
  VectorProjection vector direction = Ok (map (fun v => map (Rmult (inner v direction / inner direction direction)) direction) vector).
Proof.
  intros N L. unfold VectorProjection. replace (forallb _ vector) with true by (symmetry; apply forallb_forall; intros v V; apply Nat.eqb_eq, L, V). cbn [negb].
  pose proof (inner_pos direction) as P. unfold normalized. change (dotv direction direction) with (inner direction direction). destruct (Req_EM_T (sqrt (inner direction direction)) 0) as [E|E].
  - exfalso. apply sqrt_eq_0 in E; [contradiction|exact P].
  - f_equal. apply map_ext. intros v. apply (proj_row direction _ v); [lra|reflexivity].
Qed.
Lemma projection_ok vector direction : inner direction direction <> 0 -> (forall v, In v vector -> length v = length direction) ->
  exists out, VectorProjection vector direction = Ok out /\ length out = length vector /\
  forall i v p, nth_error vector i = Some v -> nth_error out i = Some p -> along p direction /\ inner (minusv v p) direction = 0.
Proof.
  intros N L. rewrite (projection_eq vector direction N L). eexists. split; [reflexivity|]. split; [apply map_length|]. intros i v p V P. rewrite nth_error_map, V in P. injection P as <-.
  split; [eexists; reflexivity|]. rewrite inner_minus by (rewrite ?map_length; try reflexivity; apply L, (nth_error_In _ _ V)). rewrite inner_scale. field. exact N.
Qed.
Lemma projection_scale vector direction t : t <> 0 -> inner direction direction <> 0 -> (forall v, In v vector -> length v = length direction) ->
  VectorProjection vector (map (Rmult t) direction) = VectorProjection vector direction.
Proof.
  intros T N L. assert (N' : inner (map (Rmult t) direction) (map (Rmult t) direction) <> 0) by (rewrite inner_scale, inner_comm, inner_scale; repeat (apply Rmult_integral_contrapositive_currified; try assumption)).
  rewrite !projection_eq by (try assumption; intros v V; rewrite ?map_length; apply L, V). f_equal. apply map_ext. intros v. rewrite map_map. apply map_ext. intros x.
  rewrite (inner_comm v), !inner_scale, (inner_comm direction (map _ _)), inner_scale, (inner_comm direction v). field. split; assumption.
Qed.
Lemma projection_twice vector direction out : inner direction direction <> 0 -> (forall v, In v vector -> length v = length direction) ->
  VectorProjection vector direction = Ok out -> VectorProjection out direction = Ok out.
Proof.
  intros N L E. rewrite (projection_eq vector direction N L) in E. injection E as <-. rewrite (projection_eq _ direction N).
  - f_equal. rewrite map_map. apply map_ext. intros v. apply map_ext. intros x. rewrite inner_scale. field. exact N.
  - intros p P. apply in_map_iff in P. destruct P as (v & <- & _). apply map_length.
Qed.
