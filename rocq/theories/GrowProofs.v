(* Growth functions: specification and lemmas. *)
From Verif Require Import Base ThreeModel ThreeProofs GrowModel.
From Coq Require Import Reals Lra.
From Coquelicot Require Import Coquelicot.
Local Open Scope R_scope.

(* the growth equations at first and second order in the scale factor, in log a *)
Record grows (b : background) (Y G Y2 G2 : R -> R) (lo hi : R) : Prop := {
  gr_Y : forall t, lo < t < hi -> is_derive Y t (G t);
  gr_G : forall t, lo < t < hi -> is_derive G t (3 / 2 * Om b (exp t) * Y t - (2 + exp t * efunc_prime b (exp t) / efunc b (exp t)) * G t);
  gr_Y2 : forall t, lo < t < hi -> is_derive Y2 t (G2 t);
  gr_G2 : forall t, lo < t < hi -> is_derive G2 t (3 / 2 * Om b (exp t) * (Y2 t - Y t ^ 2) - (2 + exp t * efunc_prime b (exp t) / efunc b (exp t)) * G2 t) }.
(* what odeint returns *)
Definition solved (ts : list R) (y0 : state) (ys : list state) (Y G Y2 G2 : R -> R) (lo hi : R) : Prop :=
  (forall t, In t ts -> lo < t < hi) /\ (Y (hd 0 ts), G (hd 0 ts), Y2 (hd 0 ts), G2 (hd 0 ts)) = y0 /\ ys = map (fun t => (Y t, G t, Y2 t, G2 t)) ts.

Lemma ode_ok b Y G Y2 G2 t : ode b (Y, G, Y2, G2) t =
  (G, 3 / 2 * Om b (exp t) * Y - (2 + exp t * efunc_prime b (exp t) / efunc b (exp t)) * G, G2,
   3 / 2 * Om b (exp t) * (Y2 - Y ^ 2) - (2 + exp t * efunc_prime b (exp t) / efunc b (exp t)) * G2).
Proof. unfold ode, Hfac, E, dE. apply f_equal2; [apply f_equal2; [apply f_equal2; [reflexivity|]|reflexivity]|]; unfold Rdiv; ring. Qed.

(* ---- sorting ---- *)
Inductive ascending : list R -> Prop :=
| so_nil : ascending []
| so_one x : ascending (x :: nil)
| so_cons x y l : x <= y -> ascending (y :: l) -> ascending (x :: y :: l).
Lemma sorted_tail x l : ascending (x :: l) -> ascending l. Proof. inversion 1; subst; [constructor|assumption]. Qed.
Lemma sorted_le l : forall x y, ascending (x :: l) -> In y (x :: l) -> x <= y.
Proof.
  induction l as [|z l IH]; intros x y H I.
  - destruct I as [<-|[]]. apply Rle_refl.
  - inversion H as [| |? ? ? L T]; subst. destruct I as [<-|I]; [apply Rle_refl|]. apply Rle_trans with z; [exact L|exact (IH z y T I)].
Qed.
Lemma rleb_no x y : rleb x y = false -> y < x. Proof. unfold rleb. destruct (Rle_dec x y); [discriminate|]. intros _. lra. Qed.
Lemma rleb_yes x y : rleb x y = true -> x <= y. Proof. unfold rleb. destruct (Rle_dec x y); [auto|discriminate]. Qed.
Lemma rltb_no x y : rltb x y = false -> y <= x. Proof. unfold rltb. destruct (Rlt_dec x y); [discriminate|]. intros _. lra. Qed.
Lemma rltb_yes x y : rltb x y = true -> x < y. Proof. unfold rltb. destruct (Rlt_dec x y); [auto|discriminate]. Qed.
Lemma rltb_t x y : x < y -> rltb x y = true. Proof. unfold rltb. destruct (Rlt_dec x y); [reflexivity|lra]. Qed.
Lemma rltb_f x y : y <= x -> rltb x y = false. Proof. unfold rltb. destruct (Rlt_dec x y); [lra|reflexivity]. Qed.
Lemma rleb_t x y : x <= y -> rleb x y = true. Proof. unfold rleb. destruct (Rle_dec x y); [reflexivity|lra]. Qed.
Lemma rleb_f x y : y < x -> rleb x y = false. Proof. unfold rleb. destruct (Rle_dec x y); [lra|reflexivity]. Qed.
Lemma insert_in x y l : In y (insert x l) <-> y = x \/ In y l.
Proof.
  induction l as [|z l IH]; cbn [insert].
  - cbn [In]. split; [intros [<-|[]]; left; reflexivity|intros [->|[]]; left; reflexivity].
  - destruct (rleb x z); cbn [In]; [split; [intros [<-|I]; auto|intros [->|I]; auto]|]. rewrite IH. tauto.
Qed.
Lemma sort_in x l : In x (sort l) <-> In x l.
Proof. induction l as [|y l IH]; [reflexivity|]. cbn [sort fold_right]. fold (sort l). rewrite insert_in, IH. cbn [In]. split; intros [->|]; auto. Qed.
Lemma insert_sorted x l : ascending l -> ascending (insert x l).
Proof.
  induction 1 as [|y|y z l L S IH]; cbn [insert].
  - constructor.
  - destruct (rleb x y) eqn:C; (apply so_cons; [|apply so_one]); [exact (rleb_yes _ _ C)|apply Rlt_le, rleb_no, C].
  - destruct (rleb x y) eqn:C; [constructor; [exact (rleb_yes _ _ C)|constructor; assumption]|].
    cbn [insert] in IH. destruct (rleb x z) eqn:D; constructor; [apply Rlt_le, rleb_no, C|exact IH|exact L|exact IH].
Qed.
Lemma sort_sorted l : ascending (sort l).
Proof. induction l as [|x l IH]; [constructor|]. cbn [sort fold_right]. apply insert_sorted, IH. Qed.
Lemma map_ln_sorted l : (forall x, In x l -> 0 < x) -> ascending l -> ascending (map ln l).
Proof.
  intros P H. induction H as [|x|x y l L S IH]; cbn [map]; try constructor.
  - destruct L as [L| ->]; [|apply Rle_refl]. left. apply ln_increasing; [apply P; left; reflexivity|exact L].
  - apply IH. intros u I. apply P. right. exact I.
Qed.

(* ---- interpolation at the nodes ---- *)
Lemma interp_from_node (F : R -> R) l : forall x, ascending l -> In x l -> (forall x0, hd_error l = Some x0 -> x0 <= x) ->
  interp_from x (map (fun t => (t, F t)) l) = F x.
Proof.
  induction l as [|x0 l IH]; intros x H I L; [destruct I|]. cbn [map interp_from].
  destruct l as [|x1 l]; cbn [map].
  - destruct I as [->|[]]. reflexivity.
  - inversion H as [| |? ? ? L1 T]; subst. destruct (rltb x x1) eqn:C.
    + apply rltb_yes in C. assert (X : x = x0).
      { destruct I as [->|I]; [reflexivity|]. pose proof (sorted_le l x1 x T I). lra. }
      subst. ring.
    + apply rltb_no in C. change (interp_from x (map (fun t => (t, F t)) (x1 :: l)) = F x). apply IH; [exact T| |intros y E; injection E as <-; exact C].
      destruct I as [->|I]; [|exact I]. left. lra.
Qed.
Lemma interp_node (F : R -> R) l x : ascending l -> In x l -> np_interp x (map (fun t => (t, F t)) l) = F x.
Proof.
  intros H I. unfold np_interp. destruct l as [|x0 l]; [destruct I|]. cbn [map].
  rewrite rltb_f by exact (sorted_le l x0 x H I). change ((x0, F x0) :: map (fun t => (t, F t)) l) with (map (fun t => (t, F t)) (x0 :: l)).
  apply interp_from_node; [exact H|exact I|]. intros y Ey. injection Ey as <-. exact (sorted_le l x0 x H I).
Qed.
(* beyond the last node *)
Lemma interp_from_last (F : R -> R) l : forall x d, (forall y, In y l -> y <= x) -> l <> [] -> interp_from x (map (fun t => (t, F t)) l) = F (last l d).
Proof.
  induction l as [|x0 l IH]; intros x d B N; [congruence|]. cbn [map interp_from]. destruct l as [|x1 l]; cbn [map]; [reflexivity|].
  rewrite rltb_f by (apply B; right; left; reflexivity). change (interp_from x (map (fun t => (t, F t)) (x1 :: l)) = F (last (x1 :: l) d)).
  apply IH; [intros y I; apply B; right; exact I|discriminate].
Qed.
Lemma interp_last (F : R -> R) l x d : (forall y, In y l -> y <= x) -> l <> [] -> np_interp x (map (fun t => (t, F t)) l) = F (last l d).
Proof.
  intros B N. destruct l as [|x0 l]; [congruence|]. unfold np_interp. cbn [map]. rewrite rltb_f by (apply B; left; reflexivity).
  exact (interp_from_last F (x0 :: l) x d B N).
Qed.

(* ---- the node closest to the normalization ---- *)
Lemma argmin_min x l : l <> [] -> (forall y, In y l -> snd (argmin x l) <= Rabs (y - x)) /\ (fst (argmin x l) < length l)%nat /\ snd (argmin x l) = Rabs (nth (fst (argmin x l)) l 0 - x).
Proof.
  induction l as [|y l IH]; intros N; [congruence|]. destruct l as [|z l].
  - cbn [argmin fst snd nth length]. split; [|split; [lia|reflexivity]]. intros u [<-|[]]. apply Rle_refl.
  - destruct (IH ltac:(discriminate)) as (A & B & C). cbn [argmin]. change (argmin x (z :: l)) with (argmin x (z :: l)) in *.
    remember (argmin x (z :: l)) as r eqn:Er. destruct r as [i m]. cbn [fst snd] in *.
    replace (match l with [] => (0%nat, Rabs (z - x)) | _ :: _ => let '(i, m) := argmin x l in if rleb (Rabs (z - x)) m then (0%nat, Rabs (z - x)) else (S i, m) end) with (i, m).
    destruct (rleb (Rabs (y - x)) m) eqn:D; cbn [fst snd].
    + apply rleb_yes in D. split; [|split; [cbn; lia|reflexivity]]. intros u [<-|I]; [apply Rle_refl|]. apply Rle_trans with m; [exact D|exact (A u I)].
    + apply rleb_no in D. split; [|split; [cbn in B |- *; lia|exact C]]. intros u [<-|I]; [lra|exact (A u I)].
Qed.
Lemma argmin_node x l : In x l -> nth (fst (argmin x l)) l 0 = x /\ (fst (argmin x l) < length l)%nat.
Proof.
  intros I. destruct (argmin_min x l) as (A & B & C); [intros ->; destruct I|]. split; [|exact B].
  pose proof (A x I) as H. rewrite C in H. replace (x - x) with 0 in H by ring. rewrite Rabs_R0 in H.
  pose proof (Rabs_pos (nth (fst (argmin x l)) l 0 - x)). destruct (Req_dec (nth (fst (argmin x l)) l 0 - x) 0) as [Z|Z]; [lra|].
  pose proof (Rabs_pos_lt _ Z). lra.
Qed.

(* ---- the times ---- *)
Lemma times_some al an : 0 < an -> (forall a, In a al -> 0 < a) ->
  ascending (times (Some al) an) /\ (forall a, a = an \/ In a al -> In (ln a) (times (Some al) an)).
Proof.
  intros Pn Pa. cbn [times]. set (l := if existsb (reqb an) al then al else an :: al).
  assert (P : forall x, In x l -> 0 < x).
  { unfold l. intros x I. destruct (existsb (reqb an) al); [exact (Pa x I)|]. destruct I as [<-|I]; [exact Pn|exact (Pa x I)]. }
  assert (Q : forall a, a = an \/ In a al -> In a l).
  { unfold l. intros a H. destruct (existsb (reqb an) al) eqn:C.
    - destruct H as [->|H]; [|exact H]. apply existsb_exists in C. destruct C as (x & I & C). unfold reqb in C. destruct (Req_EM_T an x) as [->|]; [exact I|discriminate].
    - destruct H as [->|H]; [left; reflexivity|right; exact H]. }
  assert (S0 : 0 < / 10 ^ 7) by (apply Rinv_0_lt_compat, pow_lt; lra).
  destruct (rltb (/ 10 ^ 7) (hd 0 (sort l))) eqn:C.
  - split.
    + apply map_ln_sorted; [intros x [<-|I]; [exact S0|apply P, sort_in, I]|]. apply rltb_yes in C. pose proof (sort_sorted l) as S1.
      destruct (sort l) as [|x r]; constructor; [cbn [hd] in C; lra|exact S1].
    + intros a H. apply in_map. right. apply sort_in, Q, H.
  - split; [apply map_ln_sorted; [intros x I; apply P, sort_in, I|apply sort_sorted]|]. intros a H. apply in_map, sort_in, Q, H.
Qed.
Lemma times_bounds al an : 0 < an -> (forall a, In a al -> 0 < a) -> forall t, In t (times (Some al) an) -> exists a, t = ln a /\ 0 < a /\ (a = an \/ In a al \/ a = / 10 ^ 7).
Proof.
  intros Pn Pa t I. cbn [times] in I. set (l := if existsb (reqb an) al then al else an :: al) in I.
  assert (Q : forall a, In a l -> a = an \/ In a al).
  { unfold l. intros a H. destruct (existsb (reqb an) al); [right; exact H|]. destruct H as [->|H]; auto. }
  apply in_map_iff in I. destruct I as (a & <- & I). exists a. split; [reflexivity|].
  assert (J : a = / 10 ^ 7 \/ In a l).
  { destruct (rltb _ _); [destruct I as [<-|I]; [left; reflexivity|right; apply sort_in, I]|right; apply sort_in, I]. }
  destruct J as [->|J]; [split; [apply Rinv_0_lt_compat, pow_lt; lra|right; right; reflexivity]|].
  destruct (Q a J) as [->|K]; [split; [exact Pn|left; reflexivity]|split; [exact (Pa a K)|right; left; exact K]].
Qed.

(* ---- the tables ---- *)
Lemma combine_map_l {A B} (f : A -> B) l : combine (map f l) l = map (fun x => (f x, x)) l.
Proof. induction l as [|x l IH]; [reflexivity|]. cbn [map combine]. rewrite IH. reflexivity. Qed.
Lemma combine_map_r {A B} (f : A -> B) l : combine l (map f l) = map (fun x => (x, f x)) l.
Proof. induction l as [|x l IH]; [reflexivity|]. cbn [map combine]. rewrite IH. reflexivity. Qed.
Definition d2 (b : background) (Y G : R -> R) (t : R) : R := 3 / 2 * Om b (exp t) * Y t - (2 + exp t * efunc_prime b (exp t) / efunc b (exp t)) * G t.
Definition d2' (b : background) (Y Y2 G2 : R -> R) (t : R) : R := 3 / 2 * Om b (exp t) * (Y2 t - Y t ^ 2) - (2 + exp t * efunc_prime b (exp t) / efunc b (exp t)) * G2 t.
Lemma solve_tables b odeint y0 lna an Y G Y2 G2 lo hi : solved lna y0 (odeint (ode b) y0 lna) Y G Y2 G2 lo hi -> In (ln an) lna ->
  let g := solve b odeint y0 lna an in
  g_lna g = lna /\ g_D1 g = map (fun t => (Y t / Y (ln an), G t / Y (ln an), d2 b Y G t / Y (ln an))) lna /\
  g_D2 g = map (fun t => (Y2 t / Y2 (ln an), G2 t / Y2 (ln an), d2' b Y Y2 G2 t / Y2 (ln an))) lna.
Proof.
  intros (_ & _ & H) I. unfold solve. rewrite H. cbn [g_lna g_D1 g_D2].
  rewrite combine_map_l, !map_map. destruct (argmin_node (ln an) lna I) as [X L]. set (i := fst (argmin (ln an) lna)) in *.
  assert (A1 : nth i (map (fun t => fst (let '(yi, t0) := ((Y t, G t, Y2 t, G2 t), t) in let '(D1, F1, D2, F2) := yi in let '(_, F1p, _, F2p) := ode b yi t0 in ((D1, F1, F1p), (D2, F2, F2p)))) lna) (0, 0, 0)
    = (Y (ln an), G (ln an), d2 b Y G (ln an))).
  { rewrite (nth_indep _ (0, 0, 0) ((fun t => (Y t, G t, d2 b Y G t)) 0)) by (rewrite map_length; exact L).
    erewrite (map_ext _ (fun t => (Y t, G t, d2 b Y G t))).
    - rewrite (map_nth (fun t => (Y t, G t, d2 b Y G t))), X. reflexivity.
    - intros t. cbn beta iota. rewrite ode_ok. reflexivity. }
  assert (A2 : nth i (map (fun t => snd (let '(yi, t0) := ((Y t, G t, Y2 t, G2 t), t) in let '(D1, F1, D2, F2) := yi in let '(_, F1p, _, F2p) := ode b yi t0 in ((D1, F1, F1p), (D2, F2, F2p)))) lna) (0, 0, 0)
    = (Y2 (ln an), G2 (ln an), d2' b Y Y2 G2 (ln an))).
  { rewrite (nth_indep _ (0, 0, 0) ((fun t => (Y2 t, G2 t, d2' b Y Y2 G2 t)) 0)) by (rewrite map_length; exact L).
    erewrite (map_ext _ (fun t => (Y2 t, G2 t, d2' b Y Y2 G2 t))).
    - rewrite (map_nth (fun t => (Y2 t, G2 t, d2' b Y Y2 G2 t))), X. reflexivity.
    - intros t. cbn beta iota. rewrite ode_ok. reflexivity. }
  rewrite A1, A2. cbn [order]. split; [reflexivity|]. split; rewrite ?map_map; apply map_ext; intros t; cbn beta iota; rewrite ode_ok; reflexivity.
Qed.
Lemma D1_node b odeint y0 lna an Y G Y2 G2 lo hi a : solved lna y0 (odeint (ode b) y0 lna) Y G Y2 G2 lo hi -> In (ln an) lna -> ascending lna -> In (ln a) lna ->
  let g := solve b odeint y0 lna an in let t := ln a in let n := Y (ln an) in let n2 := Y2 (ln an) in
  (D1 g a 0 = Y t / n /\ D1 g a 1 = G t / n /\ D1 g a 2 = d2 b Y G t / n) /\
  (D2 g a 0 = Y2 t / n2 /\ D2 g a 1 = G2 t / n2 /\ D2 g a 2 = d2' b Y Y2 G2 t / n2).
Proof.
  intros H I S Ia. cbn zeta. destruct (solve_tables b odeint y0 lna an Y G Y2 G2 lo hi H I) as (A & B & C). cbn zeta in *. unfold D1, D2. rewrite A, B, C, !map_map.
  repeat split; rewrite combine_map_r; cbn [order]; match goal with |- np_interp _ (map (fun x => (x, @?F x)) _) = _ => exact (interp_node F lna (ln a) S Ia) end.
Qed.
