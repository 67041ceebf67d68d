From Verif Require Import Base BaseProofs RanksSpec DaModel DaSpec DaProofs DaBin.
From Coq Require Import Sorted Permutation.
Local Open Scope Z_scope.

(* a sorted permutation of distinct keys is unique *)
Lemma sorted_perm_unique {R} (key : R -> Z) l : forall l', Permutation l l' -> NoDup (map key l) ->
  StronglySorted (fun a b => key a <= key b) l -> StronglySorted (fun a b => key a <= key b) l' -> l = l'.
Proof.
  induction l as [|x l IH]; intros l' P N S S'.
  - apply Permutation_nil in P. now subst.
  - destruct l' as [|y l']; [apply Permutation_sym, Permutation_nil in P; discriminate|].
    inversion S as [|? ? S1 F1]; subst. inversion S' as [|? ? S2 F2]; subst. cbn in N. inversion N as [|? ? N1 N2]; subst.
    assert (x = y) as ->.
    { assert (In y (x :: l)) as [H|H] by (apply (Permutation_in y (Permutation_sym P)); left; reflexivity); [assumption|].
      assert (In x (y :: l')) as [H'|H'] by (apply (Permutation_in x P); left; reflexivity); [symmetry; assumption|].
      rewrite Forall_forall in F1, F2. specialize (F1 y H). specialize (F2 x H'). exfalso. apply N1. apply in_map_iff. exists y. split; [lia|assumption]. }
    f_equal. apply IH; auto. apply (Permutation_cons_inv P).
Qed.
Lemma app_inj_pref {A} (a a' : list A) b b' : length a = length a' -> a ++ b = a' ++ b' -> a = a' /\ b = b'.
Proof. revert a'. induction a as [|x a IH]; intros [|y a'] L E; cbn in *; try discriminate; [auto|]. injection E as -> E. destruct (IH a' ltac:(lia) E). now subst. Qed.
Lemma same_parts {A} (a b : list (list A)) : map (@length A) a = map (@length A) b -> concat a = concat b -> a = b.
Proof.
  revert b. induction a as [|x a IH]; intros [|y b] H E; cbn in *; try discriminate; [reflexivity|]. injection H as H1 H2.
  apply app_inj_pref in E; [|assumption]. destruct E as [-> E]. f_equal. now apply IH.
Qed.

Section Concat.
Context {A : Type}.
Definition indexed (go : Z) (l : list A) : list (Z * A) := combine (map (fun i => go + Z.of_nat i) (seq 0 (length l))) l.
Lemma indexed_app go a b : indexed go (a ++ b) = indexed go a ++ indexed (go + zlen a) b.
Proof.
  revert go. unfold indexed, zlen. induction a as [|x a IH]; intros go.
  - cbn. now rewrite Z.add_0_r.
  - cbn [app length seq map combine]. rewrite <- !seq_shift, !map_map. f_equal. specialize (IH (go + 1)). rewrite !(map_ext (fun i => go + Z.of_nat (S i)) (fun i => go + 1 + Z.of_nat i)) by (intros; lia).
    rewrite IH. do 2 f_equal. apply map_ext. intros. lia.
Qed.
Lemma indexed_snd go l : map snd (indexed go l) = l.
Proof. unfold indexed. generalize 0%nat. induction l as [|x l IH]; intros k; cbn; [reflexivity|]. f_equal. apply IH. Qed.
Lemma indexed_fst go l : map fst (indexed go l) = map (fun i => go + Z.of_nat i) (seq 0 (length l)).
Proof. unfold indexed. generalize 0%nat. induction l as [|x l IH]; intros k; cbn; [reflexivity|]. f_equal. apply IH. Qed.
Lemma indexed_sorted go l : StronglySorted (fun a b => fst a <= fst b) (indexed go l) /\ NoDup (map fst (indexed go l)).
Proof.
  unfold indexed. generalize 0%nat as k. induction l as [|x l IH]; intros k; [split; constructor|]. cbn [length seq map combine]. destruct (IH (S k)) as [SS N].
  assert (forall p, In p (combine (map (fun i => go + Z.of_nat i) (seq (S k) (length l))) l) -> go + Z.of_nat k < fst p) as H.
  { intros [i y] Hp. apply in_combine_l in Hp. apply in_map_iff in Hp. destruct Hp as (j & <- & Hj). apply in_seq in Hj. cbn. lia. }
  split.
  - constructor; [exact SS|]. apply Forall_forall. intros p Hp. specialize (H p Hp). cbn in *. lia.
  - cbn. constructor; [|exact N]. intros I. apply in_map_iff in I. destruct I as (p & Ep & Hp). specialize (H p Hp). lia.
Qed.
Lemma rows_one (arg : list (list A)) go : forall k, (k <= length arg)%nat ->
  concat (map (fun r => combine (map (fun i => go + coffset arg r + Z.of_nat i) (seq 0 (length (nth r arg [])))) (nth r arg [])) (seq 0 k)) = indexed go (concat (firstn k arg)).
Proof.
  induction k as [|k IH]; intros L; [reflexivity|]. rewrite seq_S, map_app, concat_app, IH by lia. cbn [map concat Nat.add]. rewrite app_nil_r.
  assert (firstn (S k) arg = firstn k arg ++ [nth k arg []]) as ->.
  { clear -L. revert k L. induction arg as [|p ps IH]; intros [|r] L; cbn in *; try lia; [reflexivity|]. f_equal. apply IH. lia. }
  rewrite concat_app, indexed_app. f_equal. cbn [concat]. rewrite app_nil_r. unfold indexed, coffset. now rewrite zlen_concat.
Qed.
Lemma concat_zip (f g : nat -> list (Z * A)) l : Permutation (concat (map (fun r => f r ++ g r) l)) (concat (map f l) ++ concat (map g l)).
Proof.
  induction l as [|x l IH]; cbn [map concat]; [constructor|]. rewrite <- !app_assoc. apply Permutation_app_head. rewrite IH. rewrite !app_assoc. apply Permutation_app_tail, Permutation_app_comm.
Qed.
Lemma rows_all size args : (forall arg, In arg args -> length arg = size) -> forall go,
  Permutation (concat (map (concat_rows args go) (seq 0 size))) (indexed go (concat (map global args))).
Proof.
  induction args as [|arg args IH]; intros H go.
  - cbn [concat_rows map concat]. generalize (seq 0 size). intros l. induction l; cbn; auto.
  - cbn [concat_rows map concat]. rewrite concat_zip. rewrite (IH (fun a Ha => H a (or_intror Ha))). rewrite indexed_app. apply Permutation_app; [|unfold csize, global; rewrite zlen_concat; reflexivity].
    specialize (H arg (or_introl eq_refl)). subst size. rewrite rows_one, firstn_all by lia. reflexivity.
Qed.
Lemma da_concat_ok mp size args sizes : mpsort_out_contract mp -> (forall arg, In arg args -> length arg = size) -> concat (map global args) <> [] ->
  (forall s, sizes = Some s -> Forall (fun n => 0 <= n) s /\ zsum s = zlen (concat (map global args))) ->
  exists out, da_concat mp size sizes args = Ok out /\ global out = concat (map global args) /\
    map (@zlen A) out = match sizes with Some s => s | None => map (fun r => zsum (map (fun arg => zlen (nth r arg [])) args)) (seq 0 size) end.
Proof.
  intros C H NE HS. unfold da_concat. cbv zeta. pose proof (rows_all size args H 0) as P. set (inp := map (concat_rows args 0) (seq 0 size)) in *. set (s := match sizes with Some s => s | None => map zlen inp end).
  assert (zlen (global inp) = zlen (concat (map global args))) as LG. { unfold zlen, global at 1. rewrite (Permutation_length P). unfold indexed. rewrite combine_length, map_length, seq_length. lia. }
  assert (map zlen inp = map (fun r => zsum (map (fun arg => zlen (nth r arg [])) args)) (seq 0 size)) as LI.
  { unfold inp. rewrite map_map. apply map_ext. intros r. generalize 0. clear. induction args as [|arg args IH]; intros go; [reflexivity|]. cbn [concat_rows map zsum fold_right].
    rewrite zlen_app, IH. unfold zsum. f_equal. unfold zlen. rewrite combine_length, map_length, seq_length. lia. }
  assert (Forall (fun n => 0 <= n) s /\ zsum s = zlen (global inp)) as [HS1 HS2].
  { unfold s. destruct sizes as [l|]; [rewrite LG; apply HS; reflexivity|]. split; [|unfold global; now rewrite zlen_concat]. apply Forall_forall. intros n Hn. apply in_map_iff in Hn. destruct Hn as (x & <- & _). apply zlen_nonneg. }
  destruct (C s fst inp HS1 HS2) as (C1 & C2 & C3). set (o := mp s fst inp) in *.
  assert (global o = indexed 0 (concat (map global args))) as EO.
  { apply (sorted_perm_unique fst).
    - rewrite C2. exact P.
    - apply (Permutation_NoDup (l := map fst (indexed 0 (concat (map global args))))); [|apply indexed_sorted]. apply Permutation_map. symmetry. rewrite C2. exact P.
    - exact C3.
    - apply indexed_sorted. }
  exists (map (map snd) o). assert (global (map (map snd) o) = concat (map global args)) as EG.
  { unfold global at 1. rewrite <- concat_map. change (concat o) with (global o). rewrite EO. apply indexed_snd. }
  split; [apply da_init_ok; now rewrite EG|]. split; [exact EG|]. rewrite map_map. rewrite (map_ext (fun x => zlen (map snd x)) zlen) by (intros; apply zlen_map). rewrite C1. unfold s. destruct sizes; [reflexivity|exact LI].
Qed.
End Concat.

(* cempty: the local lengths add up and differ by at most one *)
Lemma cempty_prefix n size k : (0 < size)%nat -> (k <= size)%nat -> zsum (map (cempty_len n size) (seq 0 k)) = n * Z.of_nat k / Z.of_nat size.
Proof.
  intros P. induction k as [|k IH]; intros L; [now rewrite Z.mul_0_r, Z.div_0_l by lia|]. rewrite seq_S, map_app, zsum_app, IH by lia. cbn [map zsum fold_right Nat.add]. unfold cempty_len.
  replace (Z.of_nat (S k)) with (Z.of_nat k + 1) by lia. lia.
Qed.
Lemma cempty_ok n size : 0 <= n -> (0 < size)%nat -> zsum (cempty_lens n size) = n /\ Forall (fun m => n / Z.of_nat size <= m <= n / Z.of_nat size + 1) (cempty_lens n size).
Proof.
  intros N P. split.
  - unfold cempty_lens. rewrite cempty_prefix by lia. rewrite Z.div_mul by lia. reflexivity.
  - apply Forall_forall. intros m Hm. apply in_map_iff in Hm. destruct Hm as (r & <- & Hr). unfold cempty_len. set (s := Z.of_nat size) in *. set (k := Z.of_nat r) in *.
    assert (0 < s) by lia. replace (n * (k + 1)) with (n * k + n) by lia.
    pose proof (Z.div_mod (n * k) s ltac:(lia)). pose proof (Z.mod_pos_bound (n * k) s ltac:(lia)). pose proof (Z.div_mod n s ltac:(lia)). pose proof (Z.mod_pos_bound n s ltac:(lia)).
    pose proof (Z.div_mod (n * k + n) s ltac:(lia)). pose proof (Z.mod_pos_bound (n * k + n) s ltac:(lia)). nia.
Qed.
