(* ConcatenateSources. *)
From Verif Require Import Base.
From Coq Require Import Lia String Permutation.
From Verif Require Import SkyModel SkySpec.
Local Open Scope nat_scope.
Local Notation length := List.length.

Section Cat.
Context {V T : Type}.
Implicit Types s : source V T.
Lemma col_in s c : In c (colnames s) -> exists v, col s c = Some v /\ In (c, v) (s_cols s).
Proof using Type.
  unfold colnames, col. intros H. apply in_map_iff in H. destruct H as ([c' v] & E & I). cbn [fst] in E. subst c'.
  destruct (find (fun p => String.eqb (fst p) c) (s_cols s)) as [[d w]|] eqn:F.
  - apply find_some in F. destruct F as [F1 F2]. cbn [fst] in F2. apply String.eqb_eq in F2. subst d. exists w. split; [reflexivity|exact F1].
  - exfalso. pose proof (find_none _ _ F _ I) as Q. cbn [fst] in Q. rewrite String.eqb_refl in Q. discriminate.
Qed.
Lemma existsb_in (c : string) l : existsb (String.eqb c) l = true <-> In c l.
Proof using Type. rewrite existsb_exists. split; [intros (d & I & E); apply String.eqb_eq in E; subst d; exact I|intros I; exists c; split; [exact I|apply String.eqb_refl]]. Qed.
Lemma dedup_in : forall l c, In c (dedup l) <-> In c l.
Proof using Type.
  induction l as [|d l IH]; intros c; [reflexivity|]. cbn [dedup In]. rewrite filter_In, IH. destruct (String.eqb d c) eqn:E; [apply String.eqb_eq in E; subst d; tauto|]. cbn [negb]. tauto.
Qed.
Lemma dedup_nodup : forall l, NoDup (dedup l).
Proof using Type.
  induction l as [|d l IH]; cbn [dedup]; constructor; [|apply NoDup_filter, IH]. intros I. apply filter_In in I. destruct I as [_ I]. rewrite String.eqb_refl in I. discriminate.
Qed.
Lemma rall_map_ok {A B} (f : A -> res B) (g : A -> B) l : (forall x, In x l -> f x = Ok (g x)) -> rall (map f l) = Ok (map g l).
Proof using Type. induction l as [|x l IH]; intros H; [reflexivity|]. cbn [map rall]. rewrite (H x (or_introl eq_refl)). cbn [rbind]. rewrite IH by (intros y Y; apply H; right; exact Y). reflexivity. Qed.

Definition value s c : list V := match col s c with Some v => v | None => [] end.
Lemma find_map_key {B} (g : string -> B) l c : In c l -> find (fun p => String.eqb (fst p) c) (map (fun c => (c, g c)) l) = Some (c, g c).
Proof using Type.
  induction l as [|d l IH]; intros H; [destruct H|]. cbn [map find fst]. destruct (String.eqb d c) eqn:E; [apply String.eqb_eq in E; subst d; reflexivity|]. apply IH. destruct H as [->|H]; [rewrite String.eqb_refl in E; discriminate|exact H].
Qed.

(* row i of concatenated columns *)
Lemma seq_plus n : forall k m, seq (n + k) m = map (Nat.add n) (seq k m).
Proof using Type. intros k m. revert k. induction m as [|m IH]; intros k; [reflexivity|]. cbn [seq map]. f_equal. rewrite <- Nat.add_succ_r. apply IH. Qed.
Lemma rows_app (t : string -> option (list V)) t1 t2 n m cols :
  (forall c, In c cols -> exists v w, t c = Some (v ++ w) /\ t1 c = Some v /\ t2 c = Some w /\ length v = n) ->
  rows t (n + m) cols = rows t1 n cols ++ rows t2 m cols.
Proof using Type.
  intros H. unfold rows. rewrite seq_app, map_app. f_equal.
  - apply map_ext_in. intros i I. apply in_seq in I. unfold row. apply map_ext_in. intros c C. destruct (H c C) as (v & w & -> & -> & _ & L). apply nth_error_app1. lia.
  - cbn [plus]. replace (seq n m) with (map (Nat.add n) (seq 0 m)) by (rewrite <- (seq_plus n 0 m), Nat.add_0_r; reflexivity).
    rewrite map_map. apply map_ext. intros i. unfold row. apply map_ext_in. intros c C. destruct (H c C) as (v & w & -> & _ & -> & L). rewrite nth_error_app2 by lia. f_equal. lia.
Qed.
Lemma rows_concat cols : forall sources t, (forall s c, In s sources -> In c cols -> exists v, col s c = Some v /\ length v = s_size s) ->
  (forall c, In c cols -> t c = Some (List.concat (map (fun s => value s c) sources))) ->
  rows t (fold_right Nat.add 0 (map s_size sources)) cols = flat_map (fun s => rows (col s) (s_size s) cols) sources.
Proof using Type.
  induction sources as [|s sources IH]; intros t H E; [reflexivity|]. cbn [map fold_right flat_map].
  rewrite (rows_app t (col s) (fun c => Some (List.concat (map (fun s => value s c) sources)))).
  - f_equal. apply IH; [intros s' c S C; apply H; [right; exact S|exact C]|reflexivity].
  - intros c C. destruct (H s c (or_introl eq_refl) C) as (v & Q & L). exists v, (List.concat (map (fun s => value s c) sources)). split; [rewrite (E c C); cbn [map List.concat]; unfold value at 1; rewrite Q; reflexivity|]. split; [exact Q|]. split; [reflexivity|exact L].
Qed.
Lemma concat_length c : forall sources : list (source V T), (forall s, In s sources -> length (value s c) = s_size s) -> length (List.concat (map (fun s => value s c) sources)) = fold_right Nat.add 0 (map s_size sources).
Proof using Type. induction sources as [|s l IH]; intros H; [reflexivity|]. cbn [map List.concat fold_right]. rewrite app_length, (H s (or_introl eq_refl)), IH; [reflexivity|]. intros s' S. apply H. right. exact S. Qed.

Lemma concat_ok s0 rest columns : let sources := s0 :: rest in let cols := wanted s0 columns in
  (forall s, In s sources -> s_comm s = s_comm s0) ->
  (forall s c, In s sources -> In c cols -> In c (colnames s)) ->
  (forall s c v, In s sources -> In (c, v) (s_cols s) -> length v = s_size s) ->
  (forall c, In c cols -> ~ In c ["size"; "comm"; "cls"]%string) ->
  exists out, ConcatenateSources sources columns = Ok out /\ s_attrs out = s_attrs s0 /\ s_comm out = s_comm s0 /\
    s_size out = fold_right Nat.add 0 (map s_size sources) /\ NoDup (colnames out) /\ (forall c, In c (colnames out) <-> In c cols) /\
    rows (col out) (s_size out) cols = flat_map (fun s => rows (col s) (s_size s) cols) sources.
Proof using Type.
  cbn zeta. intros HC HI HL HR. set (sources := s0 :: rest) in *. set (cols := wanted s0 columns) in *.
  assert (HV : forall s c, In s sources -> In c cols -> exists v, col s c = Some v /\ length v = s_size s).
  { intros s c S C. destruct (col_in s c (HI s c S C)) as (v & E & I). exists v. split; [exact E|apply (HL s c v S I)]. }
  set (g := fun c => List.concat (map (fun s => value s c) sources)).
  set (data := map (fun c => (c, g c)) (dedup cols)).
  assert (F : forall c, In c cols -> find (fun p => String.eqb (fst p) c) data = Some (c, g c)) by (intros c C; apply find_map_key, dedup_in, C).
  exists {| s_comm := s_comm s0; s_size := fold_right Nat.add 0 (map s_size sources); s_cols := data; s_attrs := s_attrs s0 |}.
  split; [|cbn [s_attrs s_comm s_size]; split; [reflexivity|split; [reflexivity|split; [reflexivity|split; [|split]]]]].
  - unfold ConcatenateSources. unfold sources at 1. cbv beta iota zeta. fold cols.
    replace (forallb (fun s => Nat.eqb (s_comm s) (s_comm s0)) sources) with true by (symmetry; apply forallb_forall; intros s S; apply Nat.eqb_eq, HC, S). cbn [negb].
    replace (forallb (fun s => forallb (fun c => existsb (String.eqb c) (colnames s)) cols) sources) with true by (symmetry; apply forallb_forall; intros s S; apply forallb_forall; intros c C; apply existsb_in, (HI s c S C)). cbn [negb].
    rewrite (rall_map_ok _ (fun c => (c, g c))).
    + cbn [rbind]. fold data.
      replace (existsb (fun p => reserved (fst p)) data) with false.
      * replace (forallb (fun p => Nat.eqb (length (snd p)) (fold_right Nat.add 0 (map s_size sources))) data) with true; [reflexivity|]. symmetry. apply forallb_forall. intros p P. apply in_map_iff in P. destruct P as (c & <- & C). cbn [snd]. apply Nat.eqb_eq. apply concat_length. intros s S. apply (proj1 (dedup_in _ _)) in C. destruct (HV s c S C) as (v & E & L). unfold value. rewrite E. exact L.
      * symmetry. apply not_true_iff_false. intros Q. apply existsb_exists in Q. destruct Q as (p & P & Q). apply in_map_iff in P. destruct P as (c & <- & C). cbn [fst] in Q. unfold reserved in Q. apply existsb_in in Q. apply (HR c (proj1 (dedup_in _ _) C) Q).
    + intros c C. apply (proj1 (dedup_in _ _)) in C. rewrite (rall_map_ok _ (fun s => value s c)); [reflexivity|]. intros s S. destruct (HV s c S C) as (v & E & _). unfold value. rewrite E. reflexivity.
  - unfold colnames. cbn [s_cols]. unfold data. rewrite map_map. cbn [fst]. rewrite map_id. apply dedup_nodup.
  - intros c. unfold colnames. cbn [s_cols]. unfold data. rewrite map_map. cbn [fst]. rewrite map_id. apply dedup_in.
  - apply rows_concat; [exact HV|]. intros c C. unfold col. cbn [s_cols]. rewrite (F c C). reflexivity.
Qed.
Lemma concat_missing s0 rest columns s c : let sources := s0 :: rest in In s sources -> In c (wanted s0 columns) -> ~ In c (colnames s) -> ConcatenateSources sources columns = Err ValueError.
Proof using Type.
  cbn zeta. intros S C N. set (sources := s0 :: rest) in *. unfold ConcatenateSources. unfold sources at 1. cbv beta iota zeta.
  destruct (negb (forallb (fun s => Nat.eqb (s_comm s) (s_comm s0)) sources)); [reflexivity|].
  replace (forallb (fun s => forallb (fun c => existsb (String.eqb c) (colnames s)) (wanted s0 columns)) sources) with false; [reflexivity|].
  symmetry. apply not_true_iff_false. intros Q. rewrite forallb_forall in Q. specialize (Q s S). rewrite forallb_forall in Q. apply N, existsb_in, Q, C.
Qed.
End Cat.

Lemma flat_map_app_perm {A B} (f g : A -> list B) l : Permutation (flat_map (fun x => f x ++ g x) l) (flat_map f l ++ flat_map g l).
Proof.
  induction l as [|x l IH]; [constructor|]. cbn [flat_map]. rewrite <- !app_assoc. apply Permutation_app_head. rewrite IH. rewrite !app_assoc. apply Permutation_app_tail, Permutation_app_comm.
Qed.
Lemma flat_map_swap {A B C} (f : A -> B -> list C) l m : Permutation (flat_map (fun a => flat_map (f a) m) l) (flat_map (fun b => flat_map (fun a => f a b) l) m).
Proof.
  induction l as [|a l IH]; cbn [flat_map].
  - induction m; [constructor|assumption].
  - rewrite IH. symmetry. apply (flat_map_app_perm (f a) (fun b => flat_map (fun a => f a b) l)).
Qed.
Lemma flat_map_ext_in {A B} (f g : A -> list B) l : (forall x, In x l -> f x = g x) -> flat_map f l = flat_map g l.
Proof. induction l as [|x l IH]; intros H; [reflexivity|]. cbn [flat_map]. rewrite (H x (or_introl eq_refl)), IH; [reflexivity|]. intros y Y. apply H. right. exact Y. Qed.
