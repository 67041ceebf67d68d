(* Theorems about the spherical harmonics made with sympy. *)
From Verif Require Import Base.
From Coq Require Import Reals Sorted Permutation Lra Lia.
From Verif Require Import RandModel ThreeModel ThreeSpec ThreeProofs ThreeExamples ThreeProps YlmModel YlmSpec YlmProofs YlmMain.
Local Open Scope nat_scope.

(* The real harmonics of get_real_Ylm satisfy the addition theorem for every degree. *)
Theorem C152_addition : forall l a b, unit3 a -> unit3 b ->
  (4 * PI * rsum (map (fun m => real_Ylm l m a * real_Ylm l m b) (orders l)) = INR (2 * l + 1) * rlegendre l (dot3 a b))%R.
Proof. exact real_addition_all. Qed.
Print Assumptions C152_addition.
Definition axis : point := (0, 0, 1)%R.
Definition slanted : point := (3/5, 0, 4/5)%R.
Example C152_addition_ex : orders 3 = [-3; -2; -1; 0; 1; 2; 3]%Z /\
  (4 * PI * rsum (map (fun m => real_Ylm 3 m axis * real_Ylm 3 m slanted) (orders 3)) = 14 / 25)%R.
Proof.
  split; [reflexivity|]. rewrite C152_addition by (unfold unit3, axis, slanted, dot3; field). unfold rlegendre, axis, slanted, dot3. cbn [rleg2 fst Nat.mul Nat.add INR]. field.
Qed.
(* In particular the squares at one direction add up to (2 l + 1) / (4 pi). *)
Theorem C152_unit : forall l a, unit3 a -> (rsum (map (fun m => real_Ylm l m a * real_Ylm l m a) (orders l)) = INR (2 * l + 1) / (4 * PI))%R.
Proof.
  intros l a U. pose proof (C152_addition l a a U U) as E. pose proof PI_RGT_0 as P. unfold unit3 in U. rewrite U in E.
  assert (L1 : forall n, fst (rleg2 n 1) = 1%R /\ snd (rleg2 n 1) = 1%R).
  { induction n as [|n [A B]]; [split; reflexivity|]. cbn [rleg2]. destruct (rleg2 n 1) as [p q]. cbn [fst snd] in *. subst. split; [reflexivity|]. rewrite !plus_INR, mult_INR. cbn [INR]. pose proof (pos_INR n). field. lra. }
  unfold rlegendre in E. rewrite (proj1 (L1 l)) in E. apply (Rmult_eq_reg_l (4 * PI)); [|lra]. rewrite E. field. lra.
Qed.
Print Assumptions C152_unit.
Example C152_unit_ex : (rsum (map (fun m => real_Ylm 4 m slanted * real_Ylm 4 m slanted) (orders 4)) = 9 / (4 * PI))%R.
Proof. rewrite C152_unit by (unfold unit3, slanted, dot3; field). cbn [Nat.mul Nat.add INR]. f_equal. ring. Qed.

(* The complex harmonics of YlmCache satisfy it as well ... *)
Theorem C153_addition : forall l a b, unit3 a -> unit3 b ->
  (fst (cache_Ylm l 0 a) * fst (cache_Ylm l 0 b) + 2 * rsum (map (fun m => re_prod (cache_Ylm l m a) (cache_Ylm l m b)) (seq 1 l)) = INR (2 * l + 1) / (4 * PI) * rlegendre l (dot3 a b))%R.
Proof. exact cache_addition. Qed.
Print Assumptions C153_addition.
Example C153_addition_ex :
  (fst (cache_Ylm 3 0 axis) * fst (cache_Ylm 3 0 slanted) + 2 * rsum (map (fun m => re_prod (cache_Ylm 3 m axis) (cache_Ylm 3 m slanted)) (seq 1 3)) = 7 / (4 * PI) * (2 / 25))%R.
Proof. rewrite C153_addition by (unfold unit3, axis, slanted, dot3; field). unfold rlegendre, axis, slanted, dot3. cbn [rleg2 fst Nat.mul Nat.add INR]. field. apply Rgt_not_eq, PI_RGT_0. Qed.
(* ... so with the cache's own harmonics the three-point function is the triplet sum at all multipoles. *)
Theorem C153_triplets : forall edges poles box catalog ranks,
  StronglySorted Rle edges -> NoDup poles -> poles <> [] ->
  (forall s, In s catalog -> in_box box (fst s)) ->
  (forall k, In k ranks -> enum_ok edges box k) ->
  decomposed edges box catalog ranks -> 10 <= maxload ranks ->
  exists out, run edges poles box cache_Ylm ranks = Ok out /\ length out = length poles /\
  forall q l a b, nth_error poles q = Some l -> a < length edges - 1 -> b < length edges - 1 ->
    at3 out q a b = Some (INR (2 * l + 1) / ((4 * PI) * (4 * PI)) * triplets edges box l catalog a b)%R.
Proof. intros edges poles box catalog ranks A B C. intros. apply C32_triplets; auto using cache_addition. Qed.
Print Assumptions C153_triplets.
Example C153_triplets_ex : exists out, run exedges [7; 0; 4] exbox cache_Ylm exranks = Ok out /\
  at3 out 0 0 1 = Some (INR 15 / ((4 * PI) * (4 * PI)) * triplets exedges exbox 7 excat 0 1)%R.
Proof.
  destruct (C153_triplets exedges [7; 0; 4] exbox excat exranks) as (out & E & _ & H).
  - exact ex_sorted.
  - repeat constructor; cbn; intuition discriminate.
  - discriminate.
  - exact ex_inbox.
  - intros k I. apply in_map_iff in I. destruct I as (x & <- & _). apply full_ok.
  - apply full_decomposed. reflexivity.
  - cbn. lia.
  - exists out. split; [exact E|]. apply (H 0 7 0 1); cbn; [reflexivity|lia|lia].
Qed.
