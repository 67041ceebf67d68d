From Verif Require Import Base BaseProofs.
From Coq Require Import Reals Lra.
From Verif Require Import RandModel RandProofs ThreeModel ThreeProofs SkyModel ConvModel MockModel MockSpec MockProofs MockMean DftModel DftSpec DftProofs DftMain UniqModel PrjModel PrjSpec.
Local Open Scope R_scope.
Local Notation length := List.length.

Lemma eql_iff : forall a b, eql a b = true <-> a = b.
Proof.
  induction a as [|x a IH]; intros [|y b]; cbn [eql]; try (split; [discriminate|discriminate]); [split; reflexivity|].
  rewrite andb_true_iff, Nat.eqb_eq, IH. split; [intros [-> ->]; reflexivity|intros E; injection E; auto].
Qed.
Lemma in_grid : forall s c, In c (grid s) <-> Forall2 (fun i n => (i < n)%nat) c s.
Proof.
  induction s as [|n s IH]; intros c; cbn [grid].
  - cbn [In]. split; [intros [<-|[]]; constructor|intros H; inversion H; left; reflexivity].
  - rewrite in_flat_map. split.
    + intros (i & Hi & Hc). apply in_map_iff in Hc. destruct Hc as (c' & <- & Hc). apply in_seq in Hi. constructor; [lia|]. apply IH. exact Hc.
    + intros H. inversion H as [|i n' c' s' Hi Hc]; subst. exists i. split; [apply in_seq; lia|]. apply in_map. apply IH. exact Hc.
Qed.
Lemma nodup_flat {A B} (h : A -> list B) : forall l, NoDup l -> (forall a, In a l -> NoDup (h a)) -> (forall a b x, In a l -> In b l -> In x (h a) -> In x (h b) -> a = b) -> NoDup (flat_map h l).
Proof.
  induction l as [|a l IH]; intros ND H1 H2; cbn [flat_map]; [constructor|]. apply NoDup_cons_iff in ND. destruct ND as [Na ND].
  assert (G : forall u v : list B, NoDup u -> NoDup v -> (forall x, In x u -> ~ In x v) -> NoDup (u ++ v)).
  { induction u as [|x u IHu]; intros v U V D; [exact V|]. apply NoDup_cons_iff in U. destruct U as [Nx U]. cbn [app]. constructor.
    - rewrite in_app_iff. intros [X|X]; [exact (Nx X)|]. exact (D x (or_introl eq_refl) X).
    - apply IHu; [exact U|exact V|]. intros y Y. apply D. right. exact Y. }
  apply G.
  - apply H1. left. reflexivity.
  - apply IH; [exact ND|intros b Hb; apply H1; right; exact Hb|]. intros b c x Hb Hc. apply H2; right; assumption.
  - intros x X Y. apply in_flat_map in Y. destruct Y as (b & Hb & Y). assert (a = b) by (apply (H2 a b x); [left; reflexivity|right; exact Hb|exact X|exact Y]). subst b. exact (Na Hb).
Qed.
Lemma nodup_map_inj {A B} (h : A -> B) : forall l, (forall x y, In x l -> In y l -> h x = h y -> x = y) -> NoDup l -> NoDup (map h l).
Proof.
  induction l as [|a l IH]; intros I ND; cbn [map]; [constructor|]. apply NoDup_cons_iff in ND. destruct ND as [Na ND]. constructor.
  - intros H. apply in_map_iff in H. destruct H as (b & E & Hb). assert (b = a) by (apply I; [right; exact Hb|left; reflexivity|exact E]). subst b. exact (Na Hb).
  - apply IH; [intros x y X Y; apply I; right; assumption|exact ND].
Qed.
Lemma nodup_grid : forall s, NoDup (grid s).
Proof.
  induction s as [|n s IH]; cbn [grid]; [constructor; [intros []|constructor]|]. apply nodup_flat.
  - apply seq_NoDup.
  - intros i _. apply nodup_map_inj; [intros x y _ _ E; injection E; auto|exact IH].
  - intros a b x _ _ X Y. apply in_map_iff in X. apply in_map_iff in Y. destruct X as (u & <- & _). destruct Y as (v & E & _). injection E. auto.
Qed.

(* sums over the projected mesh *)
Lemma preview_sum N axes f (h : list nat -> R) : (forall a, In a axes -> (a < 3)%nat) ->
  rsum (map (fun c => preview N axes f c * h c) (grid (sizes N axes))) = rsum (map (fun x => f x * h (map (fun a => ax a x) axes)) (cells N)).
Proof.
  intros HA. rewrite (rsum_ext' _ (fun c => rsum (map (fun x => if eql c (map (fun a => ax a x) axes) then f x * h c else 0) (cells N)))).
  - rewrite rsum_swap. apply rsum_ext'. intros x X. apply in_cells in X.
    rewrite (rsum_one eql (fun c => f x * h c)); [reflexivity|exact eql_iff|apply nodup_grid|].
    apply in_grid. unfold sizes. clear - X HA. induction axes as [|a r IH]; cbn [map]; [constructor|]. constructor.
    + assert (A := HA a (or_introl eq_refl)). destruct N as [[n0 n1] n2], x as [[i j] k]. destruct X as (X & Y & Z). destruct a as [|[|[|a]]]; cbn [ax]; try assumption; lia.
    + apply IH. intros b Hb. apply HA. right. exact Hb.
  - intros c _. unfold preview. rewrite rsum_filter, <- rsum_scr. apply rsum_ext'. intros x _.
    destruct (eql c (map (fun a => ax a x) axes)) eqn:E.
    + apply eql_iff in E. subst c. assert (E2 : eql (map (fun a => ax a x) axes) (map (fun a => ax a x) axes) = true) by (apply eql_iff; reflexivity). rewrite E2. reflexivity.
    + destruct (eql (map (fun a => ax a x) axes) c) eqn:E2; [|ring]. apply eql_iff in E2. subst c. assert (E3 : eql (map (fun a => ax a x) axes) (map (fun a => ax a x) axes) = true) by (apply eql_iff; reflexivity). congruence.
Qed.
(* the mode of the mesh of a mode of the projected mesh *)
Definition spot (axes m : list nat) (a : nat) : nat := match find (fun p => (fst p =? a)%nat) (combine axes m) with Some p => snd p | None => 0%nat end.
Definition lifted (axes m : list nat) : mode := (spot axes m 0%nat, spot axes m 1%nat, spot axes m 2%nat).

(* the possible axes *)
Lemma axes_cases axes : some_axes axes -> In axes [[0]; [1]; [2]; [0; 1]; [0; 2]; [1; 0]; [1; 2]; [2; 0]; [2; 1]]%nat.
Proof.
  intros (ND & HA & HL). destruct axes as [|a [|b [|c r]]]; cbn [length] in HL; try lia.
  - assert (A := HA a (or_introl eq_refl)). destruct a as [|[|[|a]]]; try lia; cbn; tauto.
  - assert (A := HA a (or_introl eq_refl)). assert (B := HA b (or_intror (or_introl eq_refl))).
    apply NoDup_cons_iff in ND. destruct ND as [ND _]. cbn [In] in ND.
    destruct a as [|[|[|a]]]; try lia; destruct b as [|[|[|b]]]; try lia; try (exfalso; apply ND; left; reflexivity); cbn; auto 12.
Qed.
Ltac each_axes H := apply axes_cases in H; cbn [In] in H; repeat (destruct H as [<-|H]; [|]); [..|destruct H].
Lemma turn_angle N axes m x : some_axes axes -> length m = length axes ->
  2 * PI * turn (sizes N axes) m (map (fun a => ax a x) axes) = angle N (lifted axes m) x.
Proof.
  intros HA HL. destruct N as [[n0 n1] n2], x as [[a b] c].
  each_axes HA; cbn [length] in HL;
    (destruct m as [|i m]; [discriminate HL|]); try (destruct m as [|j m]; [discriminate HL|]); (destruct m; [|discriminate HL]);
    unfold lifted, spot; cbn [combine find fst snd Nat.eqb sizes map ax turn angle]; rewrite ?Nat.mul_0_l; change (INR 0) with 0; unfold Rdiv; ring.
Qed.
Lemma ck_r2c N axes f m : some_axes axes -> length m = length axes -> ck N axes f m = r2c N f (lifted axes m).
Proof.
  intros HA HL. unfold ck, rfftn, r2c, cscale. cbn [fst snd].
  rewrite (preview_sum N axes f (fun c => cos (2 * PI * turn (sizes N axes) m c))) by apply HA.
  rewrite (preview_sum N axes f (fun c => sin (2 * PI * turn (sizes N axes) m c))) by apply HA.
  f_equal; [f_equal; apply rsum_ext'; intros x _; rewrite (turn_angle N axes m x HA HL); reflexivity|].
  rewrite Ropp_mult_distr_r. f_equal. f_equal. apply rsum_ext'. intros x _. rewrite (turn_angle N axes m x HA HL). reflexivity.
Qed.
Lemma lifted_zero axes m : some_axes axes -> length m = length axes -> is_zero (lifted axes m) = forallb (fun i => (i =? 0)%nat) m.
Proof.
  intros HA HL.
  each_axes HA; cbn [length] in HL;
    (destruct m as [|i m]; [discriminate HL|]); try (destruct m as [|j m]; [discriminate HL|]); (destruct m; [|discriminate HL]);
    unfold lifted, spot; cbn [combine find fst snd Nat.eqb is_zero forallb];
    repeat match goal with |- context [(?u =? 0)%nat] => is_var u; destruct (u =? 0)%nat end; reflexivity.
Qed.
Lemma area_depth L axes : some_axes axes -> area L axes * depth L axes = vol L.
Proof. intros HA. destruct L as [[x y] z]. each_axes HA; cbn; ring. Qed.
Lemma depth_pos L axes : positive3 L -> some_axes axes -> 0 < depth L axes.
Proof. intros HL HA. destruct L as [[x y] z]. destruct HL as (X & Y & Z). assert (0 < x * y) by (apply Rmult_lt_0_compat; assumption). assert (0 < x * z) by (apply Rmult_lt_0_compat; assumption). assert (0 < y * z) by (apply Rmult_lt_0_compat; assumption). each_axes HA; cbn; nra. Qed.
Lemma area_fold L axes : some_axes axes -> fold_left Rmult (map (fun a => len a L) axes) 1 = area L axes.
Proof. intros HA. destruct L as [[x y] z]. each_axes HA; cbn; ring. Qed.
Lemma pk_power N L axes f g m : positive3 L -> some_axes axes -> length m = length axes ->
  cscale (area L axes) (pk N axes f g m) = cscale (/ depth L axes) (power N L f g (lifted axes m)).
Proof.
  intros HP HA HL. rewrite power_raw, (lifted_zero axes m HA HL). unfold pk. destruct (forallb _ m).
  - unfold cscale. cbn [fst snd]. f_equal; ring.
  - rewrite !(ck_r2c N axes) by assumption. fold (raw N f g (lifted axes m)). assert (D := depth_pos L axes HP HA).
    rewrite <- (area_depth L axes HA). unfold cscale. cbn [fst snd]. f_equal; field; lra.
Qed.
Lemma kmag_size N L axes m : some_axes axes -> length m = length axes -> kmag N L axes m = size3 (kvec N L (lifted axes m)).
Proof.
  intros HA HL. assert (K0 : forall n l, kaxis n l 0 = 0).
  { intros n l. unfold kaxis, freq. destruct (2 * 0 <? n)%nat eqn:E; [cbn [Z.of_nat]; unfold Rdiv; ring|]. apply Nat.ltb_ge in E. replace n with 0%nat by lia. cbn [Z.of_nat Z.sub Z.opp Z.add]. unfold Rdiv. ring. }
  destruct N as [[n0 n1] n2], L as [[l0 l1] l2].
  each_axes HA; cbn [length] in HL;
    (destruct m as [|i m]; [discriminate HL|]); try (destruct m as [|j m]; [discriminate HL|]); (destruct m; [|discriminate HL]);
    unfold kmag, lifted, spot; cbn [combine find fst snd Nat.eqb map ax len rsum fold_right kvec size3]; unfold rsum; cbn [fold_right fold_left]; rewrite ?K0; f_equal; ring.
Qed.
