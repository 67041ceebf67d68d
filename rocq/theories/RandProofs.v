(* Proofs about the analytic random counts. *)
From Coq Require Import List Reals Lra Lia.
From Verif Require Import RandModel.
Import ListNotations.
Local Open Scope R_scope.

(* edges that do not decrease, from lo to hi *)
Fixpoint rising (l : list R) : Prop :=
  match l with
  | a :: (b :: _) as t => a <= b /\ rising t
  | _ => True
  end.
Definition spans (l : list R) (lo hi : R) : Prop := rising l /\ hd 0 l = lo /\ last l 0 = hi /\ l <> [].

Lemma rsum_app a b : rsum (a ++ b) = rsum a + rsum b.
Proof. induction a as [|x a IH]; cbn [app rsum]; [ring|rewrite IH; ring]. Qed.
Lemma rsum_scale c l : rsum (map (fun v => v / c) l) = rsum l / c.
Proof. unfold Rdiv. induction l as [|x l IH]; cbn [map rsum]; [ring|rewrite IH; ring]. Qed.
Lemma diff_sum : forall l, l <> [] -> rsum (diff l) = last l 0 - hd 0 l.
Proof.
  induction l as [|a l IH]; [contradiction|]. intros _. destruct l as [|b l]; [cbn; ring|]. change (diff (a :: b :: l)) with ((b - a) :: diff (b :: l)). cbn [rsum]. rewrite IH by discriminate. cbn [hd last]. ring.
Qed.
Lemma diff_map_nonneg f : forall l, (forall x y, In x l -> In y l -> x <= y -> f x <= f y) -> rising l -> Forall (fun v => 0 <= v) (diff (map f l)).
Proof.
  induction l as [|a l IH]; intros F S; [constructor|]. destruct l as [|b l]; [constructor|]. cbn [map]. change (diff (f a :: f b :: map f l)) with ((f b - f a) :: diff (f b :: map f l)). destruct S as [S1 S2]. constructor.
  - assert (f a <= f b) by (apply F; [left; reflexivity|right; left; reflexivity|exact S1]). lra.
  - apply IH; [intros x y Hx Hy; apply F; right; assumption|exact S2].
Qed.
Lemma hd_map (f : R -> R) l : l <> [] -> hd 0 (map f l) = f (hd 0 l).
Proof. destruct l; [contradiction|reflexivity]. Qed.
Lemma last_map (f : R -> R) l : l <> [] -> last (map f l) 0 = f (last l 0).
Proof.
  induction l as [|a l IH]; [contradiction|]. intros _. destruct l as [|b l]; [reflexivity|]. change (last (map f (a :: b :: l)) 0) with (last (map f (b :: l)) 0). change (last (a :: b :: l) 0) with (last (b :: l) 0). apply IH. discriminate.
Qed.
Lemma div_nonneg c l : 0 < c -> Forall (fun v => 0 <= v) l -> Forall (fun v => 0 <= v) (map (fun v => v / c) l).
Proof. intros Hc H. induction H; constructor; [apply Rmult_le_pos; [assumption|apply Rlt_le, Rinv_0_lt_compat, Hc]|assumption]. Qed.
Lemma rising_ge : forall l lo, rising l -> hd 0 l = lo -> forall x, In x l -> lo <= x.
Proof.
  induction l as [|a l IH]; intros lo S H x Hx; [destruct Hx|]. cbn [hd] in H. subst a. destruct Hx as [->|Hx]; [lra|]. destruct l as [|b l]; [destruct Hx|]. destruct S as [S1 S2]. apply Rle_trans with b; [exact S1|]. apply (IH b S2 eq_refl x Hx).
Qed.
Lemma pow_le' n x y : 0 <= x -> x <= y -> x ^ n <= y ^ n.
Proof. intros. apply pow_incr. split; assumption. Qed.
Lemma cube_rising l : spans l (hd 0 l) (last l 0) -> 0 <= hd 0 l -> forall x y, In x l -> In y l -> x <= y -> 4 / 3 * PI * x ^ 3 <= 4 / 3 * PI * y ^ 3.
Proof.
  intros (S & _) H x y Hx Hy L. apply Rmult_le_compat_l; [pose proof PI_RGT_0; lra|]. apply pow_le'; [|exact L]. apply Rle_trans with (1 := H). apply rising_ge with l; [exact S|reflexivity|exact Hx].
Qed.
(* 1d: shells of a ball *)
Lemma fill_1d_ok edges L lo hi : spans edges lo hi -> 0 <= lo -> 0 < volume L ->
  Forall (fun f => 0 <= f) (fill_1d edges L) /\ rsum (fill_1d edges L) = (4 / 3 * PI * hi ^ 3 - 4 / 3 * PI * lo ^ 3) / volume L.
Proof.
  intros (S & <- & <- & N) H V. unfold fill_1d. split.
  - apply div_nonneg; [exact V|]. apply diff_map_nonneg; [|exact S]. apply cube_rising; [split; [exact S|split; [reflexivity|split; [reflexivity|exact N]]]|exact H].
  - rewrite rsum_scale, diff_sum by (destruct edges; [contradiction|discriminate]). rewrite (hd_map (fun r => 4 / 3 * PI * r ^ 3)), (last_map (fun r => 4 / 3 * PI * r ^ 3)) by exact N. reflexivity.
Qed.
(* a product f a * g b over a grid: double differences are products of differences *)
Lemma diff_rows_outer (u v : R -> R) b : forall a, diff_rows (outer (fun x y => u x * v y) a b) = map (fun d => map (fun y => d * v y) b) (diff (map u a)).
Proof.
  assert (forall x y l, map (fun p => snd p - fst p) (combine (map (fun z => u x * v z) l) (map (fun z => u y * v z) l)) = map (fun z => (u y - u x) * v z) l) as E.
  { intros x y l. induction l as [|z l IH]; [reflexivity|]. cbn [map combine fst snd]. rewrite IH. f_equal. ring. }
  induction a as [|x a IH]; [reflexivity|]. destruct a as [|y a]; [reflexivity|]. unfold outer in *. cbn [map]. 
  change (diff_rows (map (fun z => u x * v z) b :: map (fun z => u y * v z) b :: map (fun x => map (fun z => u x * v z) b) a)) with
    (map (fun p => snd p - fst p) (combine (map (fun z => u x * v z) b) (map (fun z => u y * v z) b)) :: diff_rows (map (fun x => map (fun z => u x * v z) b) (y :: a))).
  rewrite IH, E. reflexivity.
Qed.
Lemma diff_scale (v : R -> R) d : forall b, diff (map (fun y => d * v y) b) = map (fun e => d * e) (diff (map v b)).
Proof.
  induction b as [|x b IH]; [reflexivity|]. destruct b as [|y b]; [reflexivity|]. cbn [map] in *. 
  change (diff (d * v x :: d * v y :: map (fun z => d * v z) b)) with ((d * v y - d * v x) :: diff (d * v y :: map (fun z => d * v z) b)). rewrite IH. change (diff (v x :: v y :: map v b)) with ((v y - v x) :: diff (v y :: map v b)). cbn [map]. f_equal. ring.
Qed.
Lemma outer_ext f g a b : (forall x y, f x y = g x y) -> outer f a b = outer g a b.
Proof. intros H. unfold outer. apply map_ext. intros x. apply map_ext. intros y. apply H. Qed.
Lemma diff2_outer (u v : R -> R) a b : diff2 (outer (fun x y => u x * v y) a b) = outer Rmult (diff (map u a)) (diff (map v b)).
Proof. unfold diff2. rewrite (diff_rows_outer u v b a), map_map. unfold outer. apply map_ext. intros d. apply diff_scale. Qed.
Lemma rsum_mul c l : rsum (map (fun e => c * e) l) = c * rsum l.
Proof. induction l as [|x l IH]; cbn [map rsum]; [ring|rewrite IH; ring]. Qed.
Lemma outer_nonneg a b c : 0 < c -> Forall (fun v => 0 <= v) a -> Forall (fun v => 0 <= v) b -> Forall (Forall (fun v => 0 <= v)) (map (map (fun v => v / c)) (outer Rmult a b)).
Proof.
  intros C A B. unfold outer. induction A as [|x a Hx A IH]; constructor; [|exact IH]. apply div_nonneg; [exact C|]. clear IH. induction B; cbn [map]; constructor; [apply Rmult_le_pos; assumption|assumption].
Qed.
(* 2d: the wedges of a shell make up the shell *)
Lemma fill_2d_ok edges mus L lo hi : spans edges lo hi -> 0 <= lo -> spans mus 0 1 -> 0 < volume L ->
  Forall (Forall (fun f => 0 <= f)) (fill_2d edges mus L) /\ map rsum (fill_2d edges mus L) = fill_1d edges L.
Proof.
  intros S H (SM & M0 & M1 & NM) V. unfold fill_2d, fill_1d.
  rewrite (outer_ext (fun r mu => 2 / 3 * PI * (r ^ 3 * mu) * 2) (fun r mu => (fun r => 4 / 3 * PI * r ^ 3) r * (fun mu => mu) mu)) by (intros; cbv beta; field).
  rewrite diff2_outer, map_id. destruct S as (S & <- & <- & N). split.
  - apply outer_nonneg; [exact V| |].
    + apply diff_map_nonneg; [|exact S]. apply cube_rising; [split; [exact S|split; [reflexivity|split; [reflexivity|exact N]]]|exact H].
    + rewrite <- (map_id mus). apply diff_map_nonneg; [intros; assumption|exact SM].
  - unfold outer. rewrite !map_map. apply map_ext. intros d. rewrite rsum_scale. f_equal. rewrite rsum_mul, diff_sum by exact NM. rewrite M0, M1. ring.
Qed.
(* projected: rings of a cylinder of height 2 pimax *)
Lemma fill_proj_ok rps pis L lo hi plo phi : spans rps lo hi -> 0 <= lo -> spans pis plo phi -> 0 < volume L ->
  Forall (Forall (fun f => 0 <= f)) (fill_proj rps pis L) /\
  rsum (map rsum (fill_proj rps pis L)) = (PI * hi ^ 2 - PI * lo ^ 2) * (2 * phi - 2 * plo) / volume L.
Proof.
  intros (S & <- & <- & N) H (SP & <- & <- & NP) V. unfold fill_proj.
  rewrite (outer_ext (fun rp p => PI * (rp ^ 2 * (2 * p))) (fun rp p => (fun rp => PI * rp ^ 2) rp * (fun p => 2 * p) p)) by (intros; cbv beta; ring).
  rewrite diff2_outer. split.
  - apply outer_nonneg; [exact V| |].
    + apply diff_map_nonneg; [|exact S]. intros x y Hx Hy Lxy. apply Rmult_le_compat_l; [apply Rlt_le, PI_RGT_0|]. apply pow_le'; [|exact Lxy]. apply Rle_trans with (1 := H). apply rising_ge with rps; [exact S|reflexivity|exact Hx].
    + apply diff_map_nonneg; [intros; lra|exact SP].
  - unfold outer. rewrite map_map, map_map.
    assert (map (fun x => rsum (map (fun v => v / volume L) (map (Rmult x) (diff (map (Rmult 2) pis))))) (diff (map (fun rp => PI * rp ^ 2) rps)) =
            map (fun x => ((2 * last pis 0 - 2 * hd 0 pis) / volume L) * x) (diff (map (fun rp => PI * rp ^ 2) rps))) as ->.
    { apply map_ext. intros d. rewrite rsum_scale, rsum_mul, diff_sum by (destruct pis; [contradiction|discriminate]). rewrite (hd_map (Rmult 2)), (last_map (Rmult 2)) by exact NP. unfold Rdiv. ring. }
    rewrite rsum_mul, diff_sum by (destruct rps; [contradiction|discriminate]). rewrite (hd_map (fun rp => PI * rp ^ 2)), (last_map (fun rp => PI * rp ^ 2)) by exact N. unfold Rdiv. ring.
Qed.
(* angular *)
Definition cap_fraction (theta : R) : R := (1 - cos (deg2rad theta)) / 2.
Lemma sin_half_30 : sin (1 / 2 * deg2rad 60) = 1 / 2.
Proof. replace (1 / 2 * deg2rad 60) with (PI / 6) by (unfold deg2rad; field). apply sin_PI6. Qed.
Lemma cap_60 : cap_area 60 = Some (2 * PI).
Proof.
  unfold cap_area. rewrite sin_half_30. replace (1 - (2 * (1 / 2)) ^ 2) with 0 by field. unfold np_sqrt. destruct (Rle_dec 0 0) as [_|N]; [|exfalso; apply N; lra]. rewrite sqrt_0. f_equal. field.
Qed.
Lemma cap_0 : cap_area 0 = Some 0.
Proof.
  unfold cap_area. replace (1 / 2 * deg2rad 0) with 0 by (unfold deg2rad; field). rewrite sin_0. replace (1 - (2 * 0) ^ 2) with 1 by field. unfold np_sqrt. destruct (Rle_dec 0 1) as [_|N]; [|exfalso; apply N; lra]. rewrite sqrt_1. f_equal. field.
Qed.
Lemma cap_90 : cap_area 90 = None.
Proof.
  unfold cap_area. replace (1 / 2 * deg2rad 90) with (PI / 4) by (unfold deg2rad; field). rewrite sin_PI4.
  assert (1 - (2 * (1 / sqrt 2)) ^ 2 = - 1) as ->. { pose proof (sqrt_sqrt 2 ltac:(lra)) as Q. assert (sqrt 2 <> 0) as N by (apply Rgt_not_eq, sqrt_lt_R0; lra). replace ((2 * (1 / sqrt 2)) ^ 2) with (4 / (sqrt 2 * sqrt 2)) by (field; exact N). rewrite Q. lra. }
  unfold np_sqrt. destruct (Rle_dec 0 (-1)) as [H|_]; [lra|reflexivity].
Qed.
Lemma fraction_60 : cap_fraction 60 = 1 / 4.
Proof. unfold cap_fraction. replace (deg2rad 60) with (PI / 3) by (unfold deg2rad; field). rewrite cos_PI3. field. Qed.
Lemma angular_wrong : (fill_angular [0; 60] = [Some (1 / 2)] /\ cap_fraction 60 - cap_fraction 0 = 1 / 4) /\ fill_angular [0; 90] = [None].
Proof.
  split; [split|].
  - unfold fill_angular. cbn [map]. rewrite cap_0, cap_60. cbn [odiff ominus map option_map]. do 2 f_equal. pose proof PI_RGT_0. field. lra.
  - rewrite fraction_60. unfold cap_fraction. replace (deg2rad 0) with 0 by (unfold deg2rad; field). rewrite cos_0. field.
  - unfold fill_angular. cbn [map]. rewrite cap_0, cap_90. reflexivity.
Qed.
