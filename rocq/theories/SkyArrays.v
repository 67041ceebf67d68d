(* Arrays: broadcasting, stacking, conversion of arrays of coordinates. *)
From Verif Require Import Base.
From Coq Require Import Reals Lra Lia.
From Verif Require Import RandModel ThreeModel ThreeProofs SkyModel SkySpec SkyProofs.
Local Open Scope nat_scope.

Lemma broadcast_size_ok sizes n : (forall s, In s sizes -> s = n \/ s = 1) -> In n sizes -> broadcast_size sizes = Ok n.
Proof.
  intros H I. unfold broadcast_size. destruct (filter (fun m => negb (Nat.eqb m 1)) sizes) as [|m rest] eqn:F.
  - f_equal. destruct (Nat.eq_dec n 1) as [|N]; [lia|]. exfalso. assert (Q : In n (filter (fun m => negb (Nat.eqb m 1)) sizes)) by (apply filter_In; split; [exact I|apply negb_true_iff, Nat.eqb_neq; exact N]). rewrite F in Q. exact Q.
  - assert (A : forall k, In k (m :: rest) -> k = n).
    { intros k K. rewrite <- F in K. apply filter_In in K. destruct K as [K1 K2]. apply negb_true_iff, Nat.eqb_neq in K2. destruct (H k K1); [assumption|contradiction]. }
    replace (forallb (Nat.eqb m) rest) with true; [f_equal; apply A; left; reflexivity|]. symmetry. apply forallb_forall. intros k K. apply Nat.eqb_eq. rewrite (A m (or_introl eq_refl)). symmetry. apply A. right. exact K.
Qed.
Lemma broadcast_size_bad sizes a b : In a sizes -> In b sizes -> a <> b -> a <> 1 -> b <> 1 -> broadcast_size sizes = Err ValueError.
Proof.
  intros A B N A1 B1. unfold broadcast_size.
  assert (FA : In a (filter (fun m => negb (Nat.eqb m 1)) sizes)) by (apply filter_In; split; [exact A|apply negb_true_iff, Nat.eqb_neq; exact A1]).
  assert (FB : In b (filter (fun m => negb (Nat.eqb m 1)) sizes)) by (apply filter_In; split; [exact B|apply negb_true_iff, Nat.eqb_neq; exact B1]).
  destruct (filter _ sizes) as [|m rest]; [destruct FA|]. destruct (forallb (Nat.eqb m) rest) eqn:F; [|reflexivity]. exfalso. rewrite forallb_forall in F.
  assert (A' : a = m) by (destruct FA as [->|FA]; [reflexivity|apply F, Nat.eqb_eq in FA; congruence]).
  assert (B' : b = m) by (destruct FB as [->|FB]; [reflexivity|apply F, Nat.eqb_eq in FB; congruence]). congruence.
Qed.
Section Col.
Context {A : Type}.
Definition fits (n : nat) (c : list A) : Prop := length c = n \/ length c = 1.
Lemma expand_length n (c : list A) : fits n c -> length (expand n c) = n.
Proof. intros [H|H]; destruct c as [|x [|y c]]; cbn [expand length] in *; try discriminate; rewrite ?repeat_length; lia. Qed.
Lemma expand_spread n (c : list A) i v : i < n -> fits n c -> (nth_error (expand n c) i = Some v <-> spread n c i v).
Proof.
  intros I F. unfold spread. destruct c as [|x [|y c]]; cbn [expand].
  - destruct F as [F|F]; cbn in F; [lia|discriminate].
  - rewrite nth_error_repeat by exact I. split.
    + intros [= ->]. right. reflexivity.
    + intros [[L E]|[= ->]]; [|reflexivity]. cbn in L. subst n. destruct i; [|lia]. exact E.
  - destruct F as [F|F]; [|cbn in F; discriminate]. split; [intros E; left; split; [exact F|exact E]|intros [[_ E]|E]; [exact E|discriminate]].
Qed.
Lemma broadcast_ok (cols : list (list A)) n : (forall c, In c cols -> fits n c) -> (exists c, In c cols /\ length c = n) -> broadcast cols = Ok (map (expand n) cols).
Proof.
  intros H (c & I & L). unfold broadcast. rewrite (broadcast_size_ok _ n); [reflexivity| |].
  - intros s S. apply in_map_iff in S. destruct S as (d & <- & D). destruct (H d D); auto.
  - rewrite <- L. apply in_map, I.
Qed.
Lemma flat_pick (cols : list (list A)) i : (forall c, In c cols -> i < length c) ->
  let r := flat_map (fun c => match nth_error c i with Some x => [x] | None => [] end) cols in
  length r = length cols /\ forall j c, nth_error cols j = Some c -> nth_error r j = nth_error c i.
Proof.
  cbn zeta. induction cols as [|c cols IH]; intros H; [split; [reflexivity|intros [|j] d E; discriminate]|].
  destruct IH as [L E]; [intros d D; apply H; right; exact D|]. cbn [flat_map]. destruct (nth_error c i) as [x|] eqn:X; [|apply nth_error_None in X; specialize (H c (or_introl eq_refl)); lia].
  cbn [app length]. split; [rewrite L; reflexivity|]. intros [|j] d D; cbn [nth_error] in *; [injection D as <-; rewrite X; reflexivity|apply E, D].
Qed.
Lemma vstackT_ok (cols : list (list A)) n : cols <> [] -> (forall c, In c cols -> length c = n) ->
  length (vstackT cols) = n /\ forall i, i < n -> exists r, nth_error (vstackT cols) i = Some r /\ length r = length cols /\ forall j c, nth_error cols j = Some c -> nth_error r j = nth_error c i.
Proof.
  intros N H. destruct cols as [|c0 cols]; [contradiction|]. unfold vstackT. rewrite map_length, seq_length. rewrite (H c0 (or_introl eq_refl)). split; [reflexivity|]. intros i I.
  exists (flat_map (fun col : list A => match nth_error col i with Some x => [x] | None => [] end) (c0 :: cols)). rewrite nth_error_map. rewrite (nth_error_nth' (seq 0 n) 0) by (rewrite seq_length; exact I). rewrite seq_nth by exact I. split; [reflexivity|].
  apply flat_pick. intros c C. rewrite (H c C). exact I.
Qed.
Lemma stack_ok (cols : list (list A)) n : (forall c, In c cols -> length c = n \/ length c = 1) -> (exists c, In c cols /\ length c = n) ->
  exists out, StackColumns cols = Ok out /\ length out = n /\ forall i, i < n -> exists r, nth_error out i = Some r /\ length r = length cols /\
    forall j c, nth_error cols j = Some c -> exists v, nth_error r j = Some v /\ spread n c i v.
Proof.
  intros H E. assert (N : cols <> []) by (destruct E as (c & I & _); intros ->; exact I).
  destruct (vstackT_ok (map (expand n) cols) n) as [L R]; [destruct cols; [contradiction|discriminate]|intros d D; apply in_map_iff in D; destruct D as (c & <- & C); apply expand_length, H, C|].
  exists (vstackT (map (expand n) cols)). split; [unfold StackColumns; destruct cols as [|c cols]; [contradiction|]; rewrite (broadcast_ok _ n H E); reflexivity|]. split; [exact L|].
  intros i I. destruct (R i I) as (r & Q & Lr & P). exists r. split; [exact Q|]. split; [rewrite Lr, map_length; reflexivity|]. intros j c C.
  assert (F : fits n c) by (apply H, (nth_error_In _ _ C)). specialize (P j (expand n c)). rewrite nth_error_map, C in P. specialize (P eq_refl).
  destruct (nth_error (expand n c) i) as [v|] eqn:X; [|apply nth_error_None in X; rewrite expand_length in X by exact F; lia]. exists v. split; [exact P|]. apply (expand_spread n c i v I F), X.
Qed.
End Col.

Lemma zip3_nth {A} : forall (rows : list (list A)), (forall r, In r rows -> length r = 3) -> length (zip3 rows) = length rows /\
  forall i x y z, nth_error rows i = Some [x; y; z] -> nth_error (zip3 rows) i = Some (x, y, z).
Proof.
  induction rows as [|r rows IH]; intros H; [split; [reflexivity|intros [|i]; discriminate]|].
  destruct IH as [L E]; [intros d D; apply H; right; exact D|]. pose proof (H r (or_introl eq_refl)) as Lr. destruct r as [|a [|b [|c [|? ?]]]]; try discriminate.
  cbn [zip3 flat_map app length]. fold (zip3 rows). split; [rewrite L; reflexivity|]. intros [|i] x y z Q; cbn [nth_error] in *; [congruence|apply E, Q].
Qed.
Lemma nth_error_combine {A B} : forall (l : list A) (m : list B) i a b, nth_error l i = Some a -> nth_error m i = Some b -> nth_error (combine l m) i = Some (a, b).
Proof. induction l as [|x l IH]; intros [|y m] [|i] a b Ha Hb; try discriminate; cbn in *; [congruence|apply IH; assumption]. Qed.

Definition angle (degrees : bool) (v : R) : R := if degrees then v else rad2deg v.
Lemma angle_degree degrees v : (angle degrees v * degree)%R = (if degrees then deg2rad v else v).
Proof. destruct degrees; [reflexivity|apply rad2deg_degree]. Qed.

Lemma unit_sphere_ok ra dec degrees n : length ra = n -> length dec = n ->
  exists pos, SkyToUnitSphere ra dec degrees = Ok pos /\ length pos = n /\
  forall i a d, nth_error ra i = Some a -> nth_error dec i = Some d -> nth_error pos i = Some (toward (0, 0, 0)%R 1 (angle degrees a) (angle degrees d)).
Proof.
  intros La Ld. unfold SkyToUnitSphere. rewrite (broadcast_ok [ra; dec] n); [|intros c [<-|[<-|[]]]; left; assumption|exists ra; split; [left; reflexivity|exact La]]. cbn [rbind map].
  assert (EX : forall c : list R, length c = n -> expand n c = c) by (clear; intros [|x [|y c]] L; cbn [expand length] in *; subst n; reflexivity). rewrite !EX by assumption.
  set (f := fun v => if degrees then deg2rad v else v). set (rd := combine (map f ra) (map f dec)).
  assert (Lrd : length rd = n) by (unfold rd; rewrite combine_length, !map_length; lia).
  set (X := map (fun p => cos (snd p) * cos (fst p))%R rd). set (Y := map (fun p => cos (snd p) * sin (fst p))%R rd). set (Z := map (fun p => sin (snd p)) rd).
  destruct (vstackT_ok [X; Y; Z] n) as [LV V]; [discriminate|intros c [<-|[<-|[<-|[]]]]; unfold X, Y, Z; rewrite map_length; exact Lrd|].
  destruct (zip3_nth (vstackT [X; Y; Z])) as [LZ EZ].
  { intros r Hr. apply In_nth_error in Hr. destruct Hr as [i Hi]. assert (I : i < n) by (rewrite <- LV; apply nth_error_Some; congruence). destruct (V i I) as (r' & E & L & _). rewrite Hi in E. injection E as <-. exact L. }
  eexists. split; [reflexivity|]. split; [rewrite LZ; exact LV|]. intros i a d Ha Hd.
  assert (I : i < n) by (rewrite <- La; apply nth_error_Some; congruence). destruct (V i I) as (r & E & L & P).
  assert (Q : nth_error rd i = Some (f a, f d)) by (unfold rd; apply nth_error_combine; rewrite nth_error_map; [rewrite Ha|rewrite Hd]; reflexivity).
  pose proof (P 0 X eq_refl) as P0. pose proof (P 1 Y eq_refl) as P1. pose proof (P 2 Z eq_refl) as P2. unfold X, Y, Z in P0, P1, P2. rewrite nth_error_map, Q in P0, P1, P2. cbn [option_map fst snd] in P0, P1, P2.
  destruct r as [|r0 [|r1 [|r2 [|? ?]]]]; try discriminate. cbn [nth_error] in P0, P1, P2. injection P0 as ->. injection P1 as ->. injection P2 as ->. apply EZ in E. rewrite E. unfold toward. rewrite !angle_degree. fold (f a) (f d). f_equal. f_equal; [f_equal|]; ring.
Qed.
Lemma to_cartesian_ok ra dec redshift dist observer degrees n :
  (forall c, In c [ra; dec; redshift] -> length c = n \/ length c = 1) -> (exists c, In c [ra; dec; redshift] /\ length c = n) ->
  exists pos, SkyToCartesian ra dec redshift dist observer degrees = Ok pos /\ length pos = n /\
  forall i a d z, i < n -> spread n ra i a -> spread n dec i d -> spread n redshift i z -> nth_error pos i = Some (toward observer (dist z) (angle degrees a) (angle degrees d)).
Proof.
  intros H E. unfold SkyToCartesian. rewrite (broadcast_ok _ n H E). cbn [rbind map].
  assert (F1 : fits n ra) by (apply H; left; reflexivity). assert (F2 : fits n dec) by (apply H; right; left; reflexivity). assert (F3 : fits n redshift) by (apply H; right; right; left; reflexivity).
  destruct (unit_sphere_ok (expand n ra) (expand n dec) degrees n (expand_length n _ F1) (expand_length n _ F2)) as (pos & -> & LP & P). cbn [rbind]. eexists. split; [reflexivity|].
  split; [rewrite map_length, combine_length, map_length, expand_length, LP by assumption; lia|]. intros i a d z I A D Z.
  apply (expand_spread n _ i a I F1) in A. apply (expand_spread n _ i d I F2) in D. apply (expand_spread n _ i z I F3) in Z. specialize (P i a d A D). rewrite nth_error_map.
  rewrite (nth_error_combine (map dist (expand n redshift)) pos i (dist z) (toward (0, 0, 0)%R 1 (angle degrees a) (angle degrees d))); [|rewrite nth_error_map, Z; reflexivity|exact P]. cbn [option_map].
  unfold toward. destruct observer as [[o0 o1] o2]. f_equal. f_equal; [f_equal|]; ring.
Qed.
