(* C368, C369 *)
From Verif Require Import Base BaseProofs RpsModel.
From Coq Require Import Sorted.
Local Open Scope nat_scope.

(* the partner in b of the first element of s that is x *)
Fixpoint partner (s b : list Z) (x : Z) : option Z :=
  match s, b with y :: s, v :: b => if (y =? x)%Z then Some v else partner s b x | _, _ => None end.
Definition replaced (s b : list Z) (x o : Z) : Z := match partner s b x with Some v => v | None => o end.

Lemma partner_in s : forall b x, StronglySorted Z.le s -> length b = length s -> In x s ->
  nth (searchsorted s x) s 0%Z = x /\ searchsorted s x < length s /\ nth_error b (searchsorted s x) = partner s b x /\ partner s b x <> None.
Proof.
  induction s as [|y s IH]; intros b x S L I; [contradiction|]. destruct b as [|v b]; [discriminate|]. inversion_clear S as [|? ? S' F]. cbn [searchsorted partner]. destruct (Z.ltb_spec y x) as [H|H].
  - destruct I as [->|I]; [lia|]. destruct (Z.eqb_spec y x); [lia|]. cbn [length] in *. destruct (IH b x S' ltac:(lia) I) as (A & B & C & D). cbn [nth nth_error]. repeat split; [exact A|lia|exact C|exact D].
  - assert (y = x) as ->. { destruct I as [->|I]; [reflexivity|]. rewrite Forall_forall in F. specialize (F x I). lia. }
    rewrite Z.eqb_refl. cbn. repeat split; [lia|discriminate].
Qed.
Lemma partner_out s : forall b x, ~ In x s -> partner s b x = None.
Proof. induction s as [|y s IH]; intros [|v b] x N; try reflexivity. cbn [partner]. destruct (Z.eqb_spec y x) as [->|]; [exfalso; apply N; left; reflexivity|]. apply IH. intros H. apply N. right. exact H. Qed.
Lemma assign_ok s b : s <> [] -> StronglySorted Z.le s -> length b = length s -> forall arr o, length o = length arr ->
  assign s b arr (map (fun x => Nat.min (searchsorted s x) (length s - 1)) arr) o = Ok (map (fun p => replaced s b (fst p) (snd p)) (combine arr o)).
Proof.
  intros NE S L. induction arr as [|x arr IH]; intros [|o out] LO; try reflexivity; try discriminate. cbn [map assign combine fst snd]. cbn [length] in LO. rewrite IH by lia. unfold replaced.
  destruct (in_dec Z.eq_dec x s) as [I|N].
  - destruct (partner_in s b x S L I) as (A & B & C & D). rewrite Nat.min_l by lia. rewrite A, Z.eqb_refl, C. destruct (partner s b x); [reflexivity|contradiction].
  - rewrite (partner_out s b x N). destruct (Z.eqb_spec (nth (Nat.min (searchsorted s x) (length s - 1)) s 0%Z) x) as [E|_]; [|reflexivity]. exfalso. apply N. rewrite <- E. apply nth_In. destruct s; [congruence|cbn [length]; lia].
Qed.
Lemma general arr s b o : StronglySorted Z.le s -> length b = length s -> length o = length arr ->
  replacesorted arr s b (Some o) = Ok (map (fun p => replaced s b (fst p) (snd p)) (combine arr o)).
Proof.
  intros S L LO. unfold replacesorted. destruct s as [|y s].
  - f_equal. revert o LO. induction arr as [|x arr IH]; intros [|z o] LO; try reflexivity; try discriminate. cbn [combine map fst snd]. f_equal. apply IH. cbn in LO. lia.
  - rewrite LO, Nat.eqb_refl. apply assign_ok; [discriminate|exact S|exact L|exact LO].
Qed.
Lemma diag (g : Z -> Z -> Z) l : map (fun p => g (fst p) (snd p)) (combine l l) = map (fun x => g x x) l.
Proof. induction l as [|x l IH]; [reflexivity|]. cbn [combine map fst snd]. f_equal. exact IH. Qed.

(* ---- C368: every element of s is replaced by its partner in b, all others stay ---- *)
Theorem C368_values : forall arr s b, StronglySorted Z.le s -> length b = length s ->
  replacesorted arr s b None = Ok (map (fun x => replaced s b x x) arr) /\
  replacesorted arr s b (Some arr) = replacesorted arr s b None.
Proof.
  intros arr s b S L. assert (E : replacesorted arr s b None = replacesorted arr s b (Some arr)) by reflexivity. rewrite E. split; [|reflexivity]. rewrite general by auto. rewrite diag. reflexivity.
Qed.
Print Assumptions C368_values.
(* what happens to one element, without the helper *)
Theorem C368_element : forall arr s b, StronglySorted Z.lt s -> length b = length s -> exists r, replacesorted arr s b None = Ok r /\ length r = length arr /\
  forall k x, nth_error arr k = Some x ->
    (forall j v, nth_error s j = Some x -> nth_error b j = Some v -> nth_error r k = Some v) /\ (~ In x s -> nth_error r k = Some x).
Proof.
  intros arr s b S L. assert (S' : StronglySorted Z.le s) by (clear L; induction S as [|y s S IH F]; constructor; [exact IH|]; eapply Forall_impl; [|exact F]; cbn; intros; lia).
  exists (map (fun x => replaced s b x x) arr). split; [apply C368_values; assumption|]. split; [apply map_length|]. intros k x K. rewrite nth_error_map, K. cbn [option_map]. split.
  - intros j v J V. f_equal. unfold replaced. assert (P : partner s b x = Some v); [|rewrite P; reflexivity]. clear K S' arr. revert b j L J V. induction S as [|y s S IH F]; intros b j L J V; [destruct j; discriminate|]. destruct b as [|w b]; [discriminate|]. cbn [partner]. destruct j as [|j].
    + injection J as ->. injection V as ->. rewrite Z.eqb_refl. reflexivity.
    + cbn [nth_error] in J, V. assert (I := nth_error_In _ _ J). rewrite Forall_forall in F. specialize (F x I). destruct (Z.eqb_spec y x); [lia|]. apply (IH b j); [cbn in L; lia|exact J|exact V].
  - intros N. unfold replaced. rewrite partner_out by exact N. reflexivity.
Qed.
Print Assumptions C368_element.
Example C368_ex : StronglySorted Z.lt [2; 3; 7]%Z /\ replacesorted [7; 1; 2; 9; 3; 7]%Z [2; 3; 7]%Z [0; 3; 5]%Z None = Ok [5; 1; 0; 9; 3; 5]%Z.
Proof. split; [repeat constructor; lia|reflexivity]. Qed.

(* ---- C369: with out given, out holds arr with the elements replaced ---- *)
Theorem C369_out : forall arr s b o, StronglySorted Z.le s -> length b = length s -> length o = length arr ->
  replacesorted arr s b (Some o) = replacesorted arr s b None <-> forall k x z, nth_error arr k = Some x -> nth_error o k = Some z -> ~ In x s -> z = x.
Proof.
  intros arr s b o S L LO. assert (E : replacesorted arr s b None = replacesorted arr s b (Some arr)) by reflexivity. rewrite E, !general by auto. rewrite diag. clear E. revert o LO. induction arr as [|x arr IH]; intros [|z o] LO; try discriminate; [split; [intros _ k; destruct k; discriminate|reflexivity]|]. cbn [length] in LO. specialize (IH o ltac:(lia)). cbn [combine map fst snd].
  split.
  - intros H. injection H as H0 H1. intros k u w K1 K2 N. destruct k as [|k]; [|apply (proj1 IH (f_equal Ok H1) k u w K1 K2 N)]. injection K1 as <-. injection K2 as <-. unfold replaced in H0. rewrite !partner_out in H0 by exact N. exact H0.
  - intros H. assert (H1 := proj2 IH (fun k => H (Datatypes.S k))). injection H1 as H1. f_equal. f_equal; [|exact H1]. unfold replaced. destruct (in_dec Z.eq_dec x s) as [I|N].
    + destruct (partner_in s b x S L I) as (_ & _ & _ & P). destruct (partner s b x); [reflexivity|contradiction].
    + rewrite partner_out by exact N. exact (H 0%nat x z eq_refl eq_refl N).
Qed.
Print Assumptions C369_out.
Theorem C369_out_refuted : exists arr s b o, StronglySorted Z.le s /\ length b = length s /\ length o = length arr /\
  replacesorted arr s b (Some o) <> replacesorted arr s b None.
Proof. exists [1; 2]%Z, [2]%Z, [5]%Z, [0; 0]%Z. split; [repeat constructor|]. split; [reflexivity|]. split; [reflexivity|]. discriminate. Qed.
Print Assumptions C369_out_refuted.
