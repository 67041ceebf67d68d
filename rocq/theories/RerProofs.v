(* Proofs about RerModel *)
From Coq Require Import QArith Qcanon.
From Verif Require Import Base BaseProofs Num PairModel PairProofs TpcfModel RerModel.
Local Open Scope nat_scope.

(* ---- what is claimed ---- *)
(* nearer to the centre than half of every side, by squares *)
Definition in_sphere (L : v3) (p : v3) : Prop :=
  let d i := (coord p i - Q2Qc (1 # 2) * coord L i)%Qc in
  forall i, i < 3 -> (d 0%nat * d 0%nat + d 1%nat * d 1%nat + d 2%nat * d 2%nat < (Q2Qc (1 # 2) * coord L i) * (Q2Qc (1 # 2) * coord L i))%Qc.
Definition positive (L : v3) : Prop := forall i, i < 3 -> (0 < coord L i)%Qc.
Definition boxed (c : cat) : Prop := exists L, a_box c = Some (BVec L) /\ positive L.
(* the objects l' are those of l that satisfy P, in the same order *)
Definition selection (P : object -> Prop) (l l' : list object) : Prop := exists keep, (forall p, keep p = true <-> P p) /\ l' = filter keep l.
(* the objects that count in an angular correlation function with analytic randoms, or in another one *)
Definition counted (angular : bool) (c : cat) (l : list object) : Prop :=
  if angular then exists L, a_box c = Some (BVec L) /\ selection (fun p => in_sphere L (fst p)) (a_objects c) l else l = a_objects c.

Lemma vmin_le L i : i < 3 -> (vmin L <= coord L i)%Qc.
Proof.
  intros H. unfold vmin. destruct (qmin_le (qmin (coord L 0) (coord L 1)) (coord L 2)) as [A B]. destruct (qmin_le (coord L 0) (coord L 1)) as [C D].
  destruct i as [|[|[|i]]]; [apply (Qcle_trans _ _ _ A C)|apply (Qcle_trans _ _ _ A D)|exact B|lia].
Qed.
Lemma vmin_one L : exists i, i < 3 /\ vmin L = coord L i.
Proof.
  unfold vmin, qmin. repeat match goal with |- context [Qclt_le_dec ?a ?b] => destruct (Qclt_le_dec a b) end; first [exists 0; split; [lia|reflexivity]|exists 1; split; [lia|reflexivity]|exists 2; split; [lia|reflexivity]].
Qed.
Lemma square_le a b : (0 <= a)%Qc -> (a <= b)%Qc -> (a * a <= b * b)%Qc.
Proof.
  intros Ha H. apply Qcle_trans with (a * b)%Qc.
  - rewrite (Qcmult_comm a b). apply Qcmult_le_compat_r; assumption.
  - apply Qcmult_le_compat_r; [assumption|]. eapply Qcle_trans; eassumption.
Qed.
Lemma near_ok L p : positive L -> near L p = true <-> in_sphere L (fst p).
Proof.
  intros HP. unfold near, in_sphere. rewrite qgt_iff. split.
  - intros H i Hi. eapply Qclt_le_trans; [exact H|]. apply square_le.
    + destruct (vmin_one L) as (j & Hj & ->). assert (0 <= coord L j)%Qc by (apply Qclt_le_weak, HP, Hj). 
      rewrite <- (Qcmult_0_l (coord L j)). apply Qcmult_le_compat_r; [discriminate|assumption].
    + rewrite (Qcmult_comm _ (vmin L)), (Qcmult_comm _ (coord L i)). apply Qcmult_le_compat_r; [apply vmin_le, Hi|discriminate].
  - intros H. destruct (vmin_one L) as (j & Hj & ->). apply H, Hj.
Qed.
Lemma filter_idem {A} (f : A -> bool) (l : list A) : filter f (filter f l) = filter f l.
Proof. induction l as [|a l IH]; [reflexivity|]. cbn [filter]. destruct (f a) eqn:E; [cbn [filter]; rewrite E, IH; reflexivity|exact IH]. Qed.

Section R.
Variable counts : list object -> option (list object) -> pcounts.
Variable natural_of : pcounts -> nat -> option nat -> pcounts * list TpcfModel.num.

(* the result with analytic randoms depends on the objects only, and on whether the two catalogs are one *)
Definition natural_spec (l1 : list object) (l2 : option (list object)) : tpcf :=
  let r := natural_of (counts l1 l2) (length l1) (option_map (@length object) l2) in
  {| t_D1D2 := counts l1 l2; t_D1R2 := None; t_D2R1 := None; t_R1R2 := fst r; t_corr := snd r |}.
Lemma natural_result_one a : natural_result counts natural_of a None = natural_spec (a_objects a) None.
Proof. unfold natural_result, natural_spec, pair_count, is_cross, csize. cbn [option_map]. destruct (natural_of _ _ _). reflexivity. Qed.
Lemma natural_result_same a b : a_id b = a_id a -> natural_result counts natural_of a (Some b) = natural_spec (a_objects a) None.
Proof. intros E. unfold natural_result, natural_spec, pair_count, is_cross, csize. rewrite E, Nat.eqb_refl. cbn [negb option_map]. destruct (natural_of _ _ _). reflexivity. Qed.
Lemma natural_result_two a b : a_id b <> a_id a -> natural_result counts natural_of a (Some b) = natural_spec (a_objects a) (Some (a_objects b)).
Proof. intros E. apply Nat.eqb_neq in E. unfold natural_result, natural_spec, pair_count, is_cross, csize. rewrite E. cbn [negb option_map]. destruct (natural_of _ _ _). reflexivity. Qed.
End R.

Lemma run_plain counts natural_of o : o_randoms1 o = None ->
  run counts natural_of (Some true) false o = (Ok tt, with_result o (natural_result counts natural_of (o_data1 o) (o_data2 o))).
Proof. intros E. unfold run. rewrite E. reflexivity. Qed.
Lemma run_angular counts natural_of o : o_randoms1 o = None -> boxed (o_data1 o) -> (forall d, o_data2 o = Some d -> boxed d) ->
  exists o' l1 l2, run counts natural_of (Some true) true o = (Ok tt, o') /\
    o_randoms1 o' = None /\ boxed (o_data1 o') /\ (forall d, o_data2 o' = Some d -> boxed d) /\
    a_objects (o_data1 o') = l1 /\ option_map a_objects (o_data2 o') = l2 /\
    counted true (o_data1 o) l1 /\ match o_data2 o, l2 with None, None => True | Some d, Some l => counted true d l | _, _ => False end /\
    o_out o' = Some (natural_spec counts natural_of l1 l2) /\
    (forall n, exists o'', runs counts natural_of n (Some true) true o' = (Ok tt, o'') /\ o_out o'' = o_out o').
Proof.
  intros ER B1 B2.
  destruct (o_data1 o) as [i1 l1 b1] eqn:E1. destruct B1 as (L1 & EB1 & P1). cbn [a_box] in EB1. subst b1.
  assert (K : forall n o1 id1 id2 m1 m2 L2, o_randoms1 o1 = None -> o_data1 o1 = {| a_id := id1; a_objects := filter (near L1) m1; a_box := Some (BVec L1) |} ->
    (o_data2 o1 = None /\ o_out o1 = Some (natural_spec counts natural_of (filter (near L1) m1) None) \/
     o_data2 o1 = Some {| a_id := id2; a_objects := filter (near L2) m2; a_box := Some (BVec L2) |} /\ o_out o1 = Some (natural_spec counts natural_of (filter (near L1) m1) (Some (filter (near L2) m2)))) ->
    exists o'', runs counts natural_of n (Some true) true o1 = (Ok tt, o'') /\ o_out o'' = o_out o1).
  { induction n as [|n IH]; intros o1 id1 id2 m1 m2 L2 R D1 D2; [exists o1; split; reflexivity|]. cbn [runs]. unfold run, restricted. rewrite R, D1. cbn [restrict a_box a_objects].
    destruct D2 as [[D2 O]|[D2 O]]; rewrite D2; cbn [restrict a_box a_objects].
    - destruct (IH (with_result (with_data o1 {| a_id := o_next o1; a_objects := filter (near L1) (filter (near L1) m1); a_box := Some (BVec L1) |} None (S (o_next o1)))
        (natural_result counts natural_of {| a_id := o_next o1; a_objects := filter (near L1) (filter (near L1) m1); a_box := Some (BVec L1) |} None)) (o_next o1) 0 m1 [] L1) as (o'' & E & O'').
      + exact R.
      + cbn [with_result with_data o_data1]. rewrite filter_idem. reflexivity.
      + left. cbn [with_result with_data o_data2 o_out]. split; [reflexivity|]. rewrite natural_result_one. cbn [a_objects]. rewrite filter_idem. reflexivity.
      + exists o''. split; [exact E|]. rewrite O''. cbn [with_result o_out]. rewrite natural_result_one. cbn [a_objects]. rewrite filter_idem. symmetry. exact O.
    - destruct (IH (with_result (with_data o1 {| a_id := o_next o1; a_objects := filter (near L1) (filter (near L1) m1); a_box := Some (BVec L1) |}
          (Some {| a_id := S (o_next o1); a_objects := filter (near L2) (filter (near L2) m2); a_box := Some (BVec L2) |}) (S (S (o_next o1))))
        (natural_result counts natural_of {| a_id := o_next o1; a_objects := filter (near L1) (filter (near L1) m1); a_box := Some (BVec L1) |}
          (Some {| a_id := S (o_next o1); a_objects := filter (near L2) (filter (near L2) m2); a_box := Some (BVec L2) |}))) (o_next o1) (S (o_next o1)) m1 m2 L2) as (o'' & E & O'').
      + exact R.
      + cbn [with_result with_data o_data1]. rewrite filter_idem. reflexivity.
      + right. cbn [with_result with_data o_data2 o_out]. rewrite filter_idem. split; [reflexivity|]. rewrite natural_result_two by (cbn [a_id]; lia). cbn [a_objects]. rewrite !filter_idem. reflexivity.
      + exists o''. split; [exact E|]. rewrite O''. cbn [with_result o_out]. rewrite natural_result_two by (cbn [a_id]; lia). cbn [a_objects]. rewrite !filter_idem. symmetry. exact O. }
  assert (C1 : counted true {| a_id := i1; a_objects := l1; a_box := Some (BVec L1) |} (filter (near L1) l1)) by (exists L1; split; [reflexivity|]; exists (near L1); split; [intros p; apply near_ok, P1|reflexivity]).
  unfold run. rewrite ER. unfold restricted. rewrite E1. cbn [restrict a_box a_objects]. destruct (o_data2 o) as [d2|] eqn:E2.
  - destruct (B2 d2 eq_refl) as (L2 & EB2 & P2). destruct d2 as [i2 l2 b2]. cbn [a_box] in EB2. subst b2. cbn [restrict a_box a_objects].
    eexists. exists (filter (near L1) l1), (Some (filter (near L2) l2)). split; [reflexivity|]. cbn [with_result with_data o_randoms1 o_data1 o_data2 o_out a_objects option_map].
    split; [exact ER|]. split; [exists L1; split; [reflexivity|exact P1]|]. split; [intros d H; injection H as <-; exists L2; split; [reflexivity|exact P2]|].
    split; [reflexivity|]. split; [reflexivity|]. split; [exact C1|]. split; [exists L2; split; [reflexivity|]; exists (near L2); split; [intros p; apply near_ok, P2|reflexivity]|].
    assert (T : natural_result counts natural_of {| a_id := o_next o; a_objects := filter (near L1) l1; a_box := Some (BVec L1) |} (Some {| a_id := S (o_next o); a_objects := filter (near L2) l2; a_box := Some (BVec L2) |})
      = natural_spec counts natural_of (filter (near L1) l1) (Some (filter (near L2) l2))) by (rewrite natural_result_two by (cbn [a_id]; lia); reflexivity).
    rewrite T. split; [reflexivity|]. intros n.
    destruct (K n (with_result (with_data o {| a_id := o_next o; a_objects := filter (near L1) l1; a_box := Some (BVec L1) |} (Some {| a_id := S (o_next o); a_objects := filter (near L2) l2; a_box := Some (BVec L2) |}) (S (S (o_next o))))
      (natural_spec counts natural_of (filter (near L1) l1) (Some (filter (near L2) l2)))) (o_next o) (S (o_next o)) l1 l2 L2) as (o'' & R & O); [exact ER|reflexivity|right; split; reflexivity|].
    exists o''. split; [exact R|exact O].
  - eexists. exists (filter (near L1) l1), None. split; [reflexivity|]. cbn [with_result with_data o_randoms1 o_data1 o_data2 o_out a_objects option_map].
    split; [exact ER|]. split; [exists L1; split; [reflexivity|exact P1]|]. split; [discriminate|].
    split; [reflexivity|]. split; [reflexivity|]. split; [exact C1|]. split; [exact I|]. rewrite natural_result_one. cbn [a_objects]. split; [reflexivity|]. intros n.
    destruct (K n (with_result (with_data o {| a_id := o_next o; a_objects := filter (near L1) l1; a_box := Some (BVec L1) |} None (S (o_next o)))
      (natural_spec counts natural_of (filter (near L1) l1) None)) (o_next o) 0 l1 [] L1) as (o'' & R & O); [exact ER|reflexivity|left; split; reflexivity|].
    exists o''. split; [exact R|exact O].
Qed.

Lemma run_plain_again counts natural_of o : o_randoms1 o = None ->
  exists o', run counts natural_of (Some true) false o = (Ok tt, o') /\
    o_out o' = Some (natural_spec counts natural_of (a_objects (o_data1 o))
      (match o_data2 o with None => None | Some d => if Nat.eq_dec (a_id d) (a_id (o_data1 o)) then None else Some (a_objects d) end)) /\
    forall n, exists o'', runs counts natural_of n (Some true) false o' = (Ok tt, o'') /\ o_out o'' = o_out o'.
Proof.
  intros E. eexists. split; [apply run_plain, E|]. split.
  - cbn [with_result o_out]. destruct (o_data2 o) as [d|]; [|rewrite natural_result_one; reflexivity].
    destruct (Nat.eq_dec (a_id d) (a_id (o_data1 o))) as [H|H]; [rewrite natural_result_same by exact H; reflexivity|rewrite natural_result_two by exact H; reflexivity].
  - assert (G : forall n o1, o_randoms1 o1 = None -> o_out o1 = Some (natural_result counts natural_of (o_data1 o1) (o_data2 o1)) ->
      exists o'', runs counts natural_of n (Some true) false o1 = (Ok tt, o'') /\ o_out o'' = o_out o1).
    { induction n as [|n IH]; intros o1 R O; [exists o1; split; reflexivity|]. cbn [runs]. rewrite run_plain by exact R.
      destruct (IH (with_result o1 (natural_result counts natural_of (o_data1 o1) (o_data2 o1))) R eq_refl) as (o'' & H & H'). exists o''. split; [exact H|]. rewrite H', O. reflexivity. }
    intros n. destruct (G n (with_result o (natural_result counts natural_of (o_data1 o) (o_data2 o))) E eq_refl) as (o'' & H & H'). exists o''. split; [exact H|exact H'].
Qed.
(* the estimate of Landy and Szalay, once *)
Lemma run_landy_once counts natural_of periodic angular o r1 : o_randoms1 o = Some r1 -> (forall p, o_R1R2 o <> RStat p) ->
  let r2 := match o_randoms2 o with Some r => r | None => r1 end in
  let D1R2 := pair_count counts (o_data1 o) (Some r2) in
  exists o' t, run counts natural_of periodic angular o = (Ok tt, o') /\ o_out o' = Some t /\
    t_D1D2 t = pair_count counts (o_data1 o) (o_data2 o) /\ t_D1R2 t = Some D1R2 /\
    t_D2R1 t = Some (match o_data2 o with Some d => pair_count counts d (Some r1) | None => D1R2 end) /\
    t_R1R2 t = (match o_R1R2 o with RCounter p => p | _ => pair_count counts r1 (Some r2) end) /\
    o_data1 o' = o_data1 o /\ o_data2 o' = o_data2 o /\ run counts natural_of periodic angular o' = (Err AttributeError, o').
Proof.
  intros E N r2 D1R2. unfold run. rewrite E.
  set (o1 := match o_data2 o, o_randoms2 o with Some _, None => with_randoms2 o (Some r1) | _, _ => o end).
  assert (H : o_data1 o1 = o_data1 o /\ o_data2 o1 = o_data2 o /\ o_R1R2 o1 = o_R1R2 o /\ o_randoms1 o1 = Some r1 /\ (match o_randoms2 o1 with Some r => r | None => r1 end) = r2 /\
    (match o_data2 o1, o_randoms2 o1 with Some _, None => False | _, _ => True end)).
  { unfold o1, r2. destruct (o_data2 o) eqn:E2; destruct (o_randoms2 o) eqn:E3; cbn [with_randoms2 o_data1 o_data2 o_R1R2 o_randoms1 o_randoms2]; rewrite ?E2, ?E3; repeat split; auto. }
  destruct H as (H1 & H2 & H3 & H4 & H5 & H6). rewrite H3.
  assert (G : forall g, (o_R1R2 o = RNone /\ g = None \/ exists p, o_R1R2 o = RCounter p /\ g = Some p) ->
    exists o' t, (Ok tt, with_result o1 (landy_result counts (o_data1 o1) (o_data2 o1) r1 (o_randoms2 o1) g)) = (Ok tt, o') /\ o_out o' = Some t /\
    t_D1D2 t = pair_count counts (o_data1 o) (o_data2 o) /\ t_D1R2 t = Some D1R2 /\
    t_D2R1 t = Some (match o_data2 o with Some d => pair_count counts d (Some r1) | None => D1R2 end) /\
    t_R1R2 t = (match o_R1R2 o with RCounter p => p | _ => pair_count counts r1 (Some r2) end) /\
    o_data1 o' = o_data1 o /\ o_data2 o' = o_data2 o /\ run counts natural_of periodic angular o' = (Err AttributeError, o')).
  { intros g Hg. eexists. eexists. split; [reflexivity|]. split; [reflexivity|]. unfold landy_result. rewrite H5. cbn [t_D1D2 t_D1R2 t_D2R1 t_R1R2 with_result o_data1 o_data2]. rewrite H1, H2.
    split; [reflexivity|]. split; [reflexivity|]. split; [reflexivity|]. split; [destruct Hg as [[Hr ->]|(p & Hr & ->)]; rewrite Hr; reflexivity|]. split; [reflexivity|]. split; [reflexivity|].
    unfold run. cbn [with_result o_randoms1 o_data2 o_randoms2 o_R1R2]. rewrite H4, ?H2. rewrite H2 in H6. destruct periodic as [[|]|]; destruct (o_data2 o); destruct (o_randoms2 o1); try contradiction; reflexivity. }
  destruct (o_R1R2 o) as [|p|p] eqn:ER; [| |exfalso; apply (N p); reflexivity].
  - destruct (G None) as (o' & t & X); [left; split; reflexivity|]. exists o', t. destruct periodic as [[|]|]; exact X.
  - destruct (G (Some p)) as (o' & t & X); [right; exists p; split; reflexivity|]. exists o', t. destruct periodic as [[|]|]; exact X.
Qed.
(* the first run gives the estimate of TpcfModel *)
Lemma run_estimate counts natural_of (cat_of : nat -> cat) periodic angular o d1 d2 r1 r2 given nat_of pick :
  o_data1 o = cat_of d1 -> o_data2 o = option_map cat_of d2 -> o_randoms1 o = Some (cat_of r1) -> o_randoms2 o = option_map cat_of r2 ->
  o_R1R2 o = match given with Some p => RCounter p | None => RNone end ->
  exists t, TpcfModel.run (fun a b => pair_count counts (cat_of a) (option_map cat_of b)) nat_of periodic pick d1 d2 (Some r1) r2 given = Ok t /\
    fst (run counts natural_of periodic angular o) = Ok tt /\ o_out (snd (run counts natural_of periodic angular o)) = Some t.
Proof.
  intros H1 H2 H3 H4 H5. unfold TpcfModel.run, run. rewrite H3.
  assert (G : forall r2', landy_result counts (cat_of d1) (option_map cat_of d2) (cat_of r1) (option_map cat_of r2') given =
    LandySzalay (fun a b => pair_count counts (cat_of a) (option_map cat_of b)) d1 d2 r1 r2' given).
  { intros r2'. unfold landy_result, LandySzalay. destruct r2'; destruct d2; destruct given; reflexivity. }
  exists (LandySzalay (fun a b => pair_count counts (cat_of a) (option_map cat_of b)) d1 d2 r1 (match d2, r2 with Some _, None => Some r1 | _, _ => r2 end) given).
  split; [destruct periodic as [[|]|]; reflexivity|]. rewrite <- G, H2, H4.
  destruct d2; destruct r2; cbn [option_map]; destruct given; destruct periodic as [[|]|]; cbn [with_randoms2 o_R1R2 o_data1 o_data2 o_randoms2]; rewrite ?H5, ?H1, ?H2, ?H4; split; reflexivity.
Qed.
